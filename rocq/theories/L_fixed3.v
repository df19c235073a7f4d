(** Lemmas on refusals, special widths and collections of lines (C76). *)
From Coq Require Import String.
From Verif Require Import Base L_util M_cell L_cell M_qpts L_qpts L_path M_path M_broad S_broad L_broad L_broad2 L_broad3 M_dos L_dos L_dos2 M_bins S_bins L_bins M_fixed S_fixed L_fixed L_fixed2.
Open Scope R_scope.

Lemma unequal_spec c : (2 <= length c)%nat -> exists b, unequal c = Ok b /\ (b = true <-> uneven c).
Proof.
  intros L. unfold unequal. pose proof (length_np_diffR c) as Ld.
  assert (Nd : forall i, (S i < length c)%nat -> nth i (np_diffR c) 0 = step c i) by (intros i Hi; apply nth_np_diffR; exact Hi).
  destruct (np_diffR c) as [|w0 ws] eqn:E; [cbn in Ld; lia|]. eexists. split; [reflexivity|].
  assert (W0 : w0 = step c 0) by (rewrite <- (Nd 0%nat ltac:(lia)); reflexivity).
  destruct (forallb _ _) eqn:F; cbn [negb].
  - split; [discriminate|]. intros (i & Hi & H). exfalso. rewrite forallb_forall in F.
    specialize (F (nth i (w0 :: ws) 0) ltac:(apply nth_In; lia)). unfold isclose in F. apply Rleb_iff in F.
    rewrite Nd in F by exact Hi. rewrite W0 in F. lra.
  - split; [|reflexivity]. intros _.
    assert (T : ~ (forall i, (S i < length c)%nat -> Rabs (step c i - step c 0) <= 1 / 10 ^ 8 + 1 / 10 ^ 5 * Rabs (step c 0))).
    { intros A. assert (T : forallb (fun w => isclose (1 / 10 ^ 8) w w0) (w0 :: ws) = true).
      { apply forallb_forall. intros w Iw. destruct (In_nth _ _ 0 Iw) as (i & Hi & Ei). rewrite <- Ei.
        rewrite Nd by lia. unfold isclose. apply Rleb_iff. rewrite W0. apply A. lia. }
      congruence. }
    clear - T L.
    assert (G : forall m, (m <= length c - 1)%nat ->
       (forall i, (i < m)%nat -> Rabs (step c i - step c 0) <= 1 / 10 ^ 8 + 1 / 10 ^ 5 * Rabs (step c 0)) \/ uneven c).
    { induction m as [|m IH]; intros Hm; [left; intros; lia|]. destruct (IH ltac:(lia)) as [A|A]; [|right; exact A].
      destruct (Rle_lt_dec (Rabs (step c m - step c 0)) (1 / 10 ^ 8 + 1 / 10 ^ 5 * Rabs (step c 0))) as [B|B].
      - left. intros i Hi. destruct (Nat.eq_dec i m) as [->|]; [exact B|apply A; lia].
      - right. exists m. split; [lia|exact B]. }
    destruct (G (length c - 1)%nat ltac:(lia)) as [A|A]; [|exact A]. exfalso. apply T. intros i Hi. apply A. lia.
Qed.

Section Fixed1.
Variables (coeffs : R -> list R) (x y c : list R) (w : R) (lower : option R) (conv : wconv) (error : R) (fit : kfit).
Hypothesis Hc : get_bin_centres (length y) x = Ok c.
Notation B shape m := (broaden1d coeffs x y (Fixed w) shape m lower conv error fit).

Lemma refuse_uneven shape : In shape ["gauss"; "lorentz"]%string -> (2 <= length c)%nat -> uneven c -> B shape None = Err UnequalBins.
Proof.
  intros Is L U. unfold broaden1d. rewrite Hc. cbn [lift]. unfold broaden_data1, checked.
  destruct (unequal_spec c L) as (b & E & I). apply I in U. subst b.
  cbn [any_unequal]. rewrite E. destruct Is as [<-|[<-|[]]]; reflexivity.
Qed.
Lemma warn_uneven shape d b : (2 <= length c)%nat -> B shape (Some "convolve"%string) = Ok (b, d) -> (b = true <-> uneven c).
Proof.
  intros L. unfold broaden1d. rewrite Hc. cbn [lift]. unfold broaden_data1, checked.
  destruct (unequal_spec c L) as (b' & E & I). cbn [any_unequal method_ok]. rewrite E, String.eqb_refl.
  destruct (shape_of shape) as [sh|e]; [|discriminate].
  destruct b'; cbn [orb]; (destruct (axis_kern sh (Some w) c); [|discriminate]); intros H; injection H as <- _; exact I.
Qed.
Lemma even_silent shape m : In shape ["gauss"; "lorentz"]%string -> method_ok m = true -> (2 <= length c)%nat -> ~ uneven c -> mean_diff c <> 0 ->
  exists d, B shape m = Ok (false, d).
Proof.
  intros Is Hm L U Md. unfold broaden1d. rewrite Hc. cbn [lift]. unfold broaden_data1, checked.
  destruct (unequal_spec c L) as (b & E & I). assert (b = false) by (destruct b; [exfalso; apply U, I; reflexivity|reflexivity]). subst b.
  cbn [any_unequal]. rewrite E, Hm. destruct Is as [<-|[<-|[]]]; cbn -[gauss_kern lorentz_kern].
  - unfold gauss_kern. destruct (Reqb_spec (mean_diff c) 0); [contradiction|]. destruct (Rltb _ _); eexists; reflexivity.
  - eexists. reflexivity.
Qed.
Lemma bad_names shape m : (~ In shape ["gauss"; "lorentz"]%string -> B shape m = Err BadShapeName) /\
  (In shape ["gauss"; "lorentz"]%string -> forall s, m = Some s -> s <> "convolve"%string -> B shape m = Err BadMethodName).
Proof.
  unfold broaden1d. rewrite Hc. cbn [lift]. unfold broaden_data1, checked. split.
  - intros N. unfold shape_of. destruct (String.eqb_spec shape "gauss"); [exfalso; apply N; left; congruence|].
    destruct (String.eqb_spec shape "lorentz"); [exfalso; apply N; right; left; congruence|]. reflexivity.
  - intros Is s -> Hs. cbn [method_ok]. destruct (String.eqb_spec s "convolve"); [contradiction|].
    destruct Is as [<-|[<-|[]]]; reflexivity.
Qed.
Lemma one_bin shape m : In shape ["gauss"; "lorentz"]%string -> method_ok m = true -> (length c <= 1)%nat -> B shape m = Err OneBin.
Proof.
  intros Is Hm L. unfold broaden1d. rewrite Hc. cbn [lift]. unfold broaden_data1, checked. cbn [any_unequal]. rewrite Hm.
  assert (U : unequal c = Err OneBin).
  { unfold unequal. pose proof (length_np_diffR c). destruct (np_diffR c); [reflexivity|cbn [length] in H; lia]. }
  rewrite U. destruct Is as [<-|[<-|[]]]; reflexivity.
Qed.
End Fixed1.

(** ** Special widths *)
Lemma gauss_unchanged coeffs x y w h m lower conv error fit : even_axis h (length y) x -> (2 <= length y)%nat -> h <> 0 -> w * h <= 0 ->
  method_ok m = true -> broaden1d coeffs x y (Fixed w) "gauss" m lower conv error fit = Ok (false, Some y).
Proof.
  intros Ha Hn Hh Hw Hm. destruct (even_centres h _ x Ha ltac:(lia)) as (c & a & Ec & Rg).
  unfold broaden1d. rewrite Ec. cbn [lift]. unfold broaden_data1.
  rewrite (checked_one a h _ c w "gauss" Gauss m Rg Hn eq_refl Hm). cbn [axis_kern]. unfold gauss_kern, gfwhm_to_sigma.
  rewrite (regular_mean a h _ c Rg Hn). destruct (Reqb_spec h 0); [contradiction|].
  assert (S0 : 0 < sqrt (2 * ln 2)) by (apply sqrt_lt_R0; pose proof ln2_pos; lra).
  assert (Q : w / (2 * sqrt (2 * ln 2)) / h <= 0).
  { assert (H2 : 0 < h * h) by (destruct (Rtotal_order h 0) as [A|[A|A]]; [nra|contradiction|nra]).
    replace (w / (2 * sqrt (2 * ln 2)) / h) with (w * h * / (2 * sqrt (2 * ln 2) * (h * h))) by (field; split; lra).
    assert (0 < / (2 * sqrt (2 * ln 2) * (h * h))) by (apply Rinv_0_lt_compat; apply Rmult_lt_0_compat; lra). nra. }
  destruct (Rltb_spec (1 / 10 ^ 15) (w / (2 * sqrt (2 * ln 2)) / h)) as [A|A]; [|reflexivity].
  assert (0 < 1 / 10 ^ 15) by (apply Rdiv_lt_0_compat; [lra|apply pow_lt; lra]). lra.
Qed.
Lemma lorentz_zero coeffs x y h m lower conv error fit : even_axis h (length y) x -> (2 <= length y)%nat ->
  method_ok m = true -> broaden1d coeffs x y (Fixed 0) "lorentz" m lower conv error fit = Ok (false, None).
Proof.
  intros Ha Hn Hm. destruct (even_centres h _ x Ha ltac:(lia)) as (c & a & Ec & Rg).
  unfold broaden1d. rewrite Ec. cbn [lift]. unfold broaden_data1.
  rewrite (checked_one a h _ c 0 "lorentz" Lorentz m Rg Hn eq_refl Hm). cbn [axis_kern]. unfold lorentz_kern.
  destruct (Reqb_spec 0 0); [reflexivity|contradiction].
Qed.

(** ** Collections of lines *)
Lemma lines_each f ys b ds : lines_broadened f ys = Ok (b, ds) ->
  length ds = length ys /\ forall i, (i < length ys)%nat -> exists bi, f (nth i ys []) = Ok (bi, nth i ds None).
Proof.
  revert b ds. induction ys as [|y ys IH]; intros b ds; cbn [lines_broadened].
  - intros H. injection H as _ <-. split; [reflexivity|]. cbn. intros; lia.
  - destruct (f y) as [[b0 d0]|] eqn:E; [|discriminate]. destruct (lines_broadened f ys) as [[b1 ds1]|] eqn:E1; [|discriminate].
    intros H. injection H as _ <-. destruct (IH b1 ds1 eq_refl) as [L N]. split; [cbn; lia|].
    intros [|i] Hi; [exists b0; exact E|]. cbn [nth]. apply N. cbn in Hi. lia.
Qed.
Lemma lines_all f ys : (forall y, In y ys -> exists b d, f y = Ok (b, d)) -> exists b ds, lines_broadened f ys = Ok (b, ds).
Proof.
  induction ys as [|y ys IH]; intros H; [exists false, []; reflexivity|].
  destruct (H y (or_introl eq_refl)) as (b & d & E). destruct IH as (b1 & ds & E1); [intros z I; apply H; right; exact I|].
  cbn [lines_broadened]. rewrite E, E1. eexists _, _. reflexivity.
Qed.
Lemma lines_first f ys e : lines_broadened f ys = Err e -> exists y, In y ys /\ f y = Err e.
Proof.
  induction ys as [|y ys IH]; cbn [lines_broadened]; [discriminate|].
  destruct (f y) as [[b0 d0]|e0] eqn:E; [|intros H; injection H as ->; exists y; split; [left; reflexivity|exact E]].
  destruct (lines_broadened f ys) as [[b1 ds1]|e1]; [discriminate|]. intros H. injection H as ->.
  destruct (IH eq_refl) as (z & I & Ez). exists z. split; [right; exact I|exact Ez].
Qed.
