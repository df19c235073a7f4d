(** Consequences of the broadening formula; examples. *)
From Verif Require Import Base L_util Vec3 M_cell L_cell L_path M_broad S_broad L_broad L_broad2.
Open Scope R_scope.

Lemma increasing_nondecreasing l : increasing l -> nondecreasing l = true.
Proof.
  intros H. unfold nondecreasing. apply forallb_forall. intros [a b] Hin. cbn [fst snd]. apply Rleb_true.
  apply (In_nth _ _ (0, 0)) in Hin. destruct Hin as [i [Hi E]]. rewrite combine_length in Hi.
  assert (Hl : length (tl l) = (length l - 1)%nat) by (destruct l; cbn; lia).
  assert (Hi' : (S i < length l)%nat) by lia.
  rewrite (nth_combine_tl l i 0 Hi') in E. injection E as <- <-. left. apply H; lia.
Qed.

Lemma in_bin_unique bins x i j : increasing bins -> (i < length bins - 1)%nat -> (j < length bins - 1)%nat ->
  in_bin bins i x = true -> in_bin bins j x = true -> i = j.
Proof.
  intros Hinc Hi Hj A B.
  assert (P : forall a b, (a < b)%nat -> (b < length bins - 1)%nat -> in_bin bins a x = true -> in_bin bins b x = true -> False).
  { intros a b Hab Hb Ha Hbb. unfold in_bin in Ha, Hbb. apply andb_prop in Ha, Hbb.
    destruct Ha as [_ Ha]. destruct Hbb as [Hb1 _]. apply Rleb_iff in Hb1.
    assert (E : Nat.eqb (S (S a)) (length bins) = false) by (apply Nat.eqb_neq; lia). rewrite E in Ha. apply Rltb_iff in Ha.
    destruct (Nat.eq_dec (S a) b) as [<-|Hne]; [lra|]. specialize (Hinc (S a) b ltac:(lia) ltac:(lia)). lra. }
  destruct (Nat.lt_trichotomy i j) as [L|[E|L]]; [destruct (P i j L Hj A B)|exact E|destruct (P j i L Hi B A)].
Qed.

Lemma sumn_single n (f : nat -> R) j : (j < n)%nat -> (forall k, (k < n)%nat -> k <> j -> f k = 0) -> sumn n f = f j.
Proof.
  intros Hj H. rewrite <- (sumn_delta n j f Hj). apply sumn_ext. intros k Hk.
  destruct (Nat.eqb_spec k j); [reflexivity|apply H; assumption].
Qed.

Lemma peak_in shape bins bw s x i j : increasing bins -> (j < length bins - 1)%nat -> in_bin bins j x = true ->
  peak shape bins bw s x i
  = if Nat.leb (bdist i j) ((length bins - 1) / 2) then kernel_fun shape s ((INR i - INR j) * bw) else 0.
Proof.
  intros Hinc Hj Hin. unfold peak. rewrite (sumn_single _ _ j Hj).
  - rewrite Hin. reflexivity.
  - intros k Hk Hne. destruct (in_bin bins k x) eqn:E; [|reflexivity].
    destruct Hne. apply (in_bin_unique bins x); assumption.
Qed.
Lemma peak_out shape bins bw s x i : (forall j, (j < length bins - 1)%nat -> in_bin bins j x = false) ->
  peak shape bins bw s x i = 0.
Proof.
  intros H. unfold peak, sumn. apply Sum_zero_ext. intros j Hj. apply in_seq in Hj. rewrite H by lia. reflexivity.
Qed.

Lemma n_kernels_same sp ws w : ws <> [] -> 0 < w -> (forall x, In x ws -> x = w) -> n_kernels sp ws = 0%nat /\ min_list ws = w.
Proof.
  intros Hne Hw H. destruct (min_list_spec ws Hne) as [M1 _]. destruct (max_list_spec ws Hne) as [M2 _].
  apply H in M1. apply H in M2. split; [|exact M1]. unfold n_kernels. rewrite M1, M2.
  replace (w / w) with 1 by (field; lra). rewrite ln_1. unfold Rdiv. rewrite Rmult_0_l.
  pose proof (Rceil_least 0 0 (Rle_refl _)) as C. destruct (Rceil 0); [reflexivity|lia|reflexivity].
Qed.

(** All widths equal: one kernel, every weight in full. *)
Lemma single_width coeffs bins pts error shape fit sp w : 0 < error ->
  get_spacing error shape fit = Ok sp -> pts <> [] -> 0 < w -> (forall p, In p pts -> pwidth p = w) ->
  increasing bins -> (2 <= length bins)%nat ->
  exists y, interpolated_broadening coeffs bins pts error shape fit = Ok y /\ length y = (length bins - 1)%nat /\
  forall i, (i < length bins - 1)%nat ->
    nth i y 0 = Sum pts (fun p => pweight p * peak shape bins (nth 1 bins 0 - nth 0 bins 0) w (px p) i).
Proof.
  intros He Hsp Hne Hw Hall Hinc Hlen.
  assert (H1 := spacing_gt1 _ _ _ _ He Hsp).
  destruct (n_kernels_same sp (map pwidth pts) w) as [N M];
    [destruct pts; [congruence|discriminate]|exact Hw|intros x Hx; apply in_map_iff in Hx; destruct Hx as [p [<- Hp]]; apply Hall; exact Hp|].
  assert (Hpos : forall p, In p pts -> 0 < pwidth p) by (intros p Hp; rewrite (Hall p Hp); exact Hw).
  assert (Hbw : 0 < nth 1 bins 0 - nth 0 bins 0) by (specialize (Hinc 0%nat 1%nat ltac:(lia) ltac:(lia)); lra).
  destruct (broadening_formula coeffs bins pts error shape fit sp Hsp H1 Hne Hpos (increasing_nondecreasing _ Hinc) Hlen Hbw) as [y [Y1 [Y2 Y3]]].
  exists y. split; [exact Y1|]. split; [exact Y2|]. intros i Hi. rewrite (Y3 i Hi). apply Sum_ext. intros p Hp.
  destruct (lev_spec pts sp H1 Hne Hpos p Hp) as [L1 _].
  rewrite N in *. rewrite M in *. replace (lev pts sp p) with 0%nat by lia.
  cbn [Nat.eqb Nat.ltb Nat.leb pow]. rewrite polyval_one, Rplus_0_r, !Rmult_1_l. reflexivity.
Qed.

(** General case, in the form used by the property. *)
Lemma weight_split coeffs bins pts error shape fit sp : 0 < error ->
  get_spacing error shape fit = Ok sp -> pts <> [] -> (forall p, In p pts -> 0 < pwidth p) ->
  increasing bins -> (2 <= length bins)%nat ->
  exists wmin wmax n y (k : point -> nat) (a b : point -> R),
    is_min wmin (map pwidth pts) /\ is_max wmax (map pwidth pts) /\ wmax <= sp ^ n * wmin /\
    interpolated_broadening coeffs bins pts error shape fit = Ok y /\ length y = (length bins - 1)%nat /\
    (forall p, In p pts ->
       sp ^ k p * wmin <= pwidth p < sp ^ S (k p) * wmin /\ (k p <= n)%nat /\
       (n <> 0%nat -> a p = polyval (coeffs sp) (pwidth p / (sp ^ k p * wmin)) * pweight p) /\
       ((n = 0%nat \/ k p < n)%nat -> a p + b p = pweight p) /\
       ((k p = n)%nat -> pwidth p = sp ^ n * wmin /\ b p = 0)) /\
    forall i, (i < length bins - 1)%nat ->
      nth i y 0 = Sum pts (fun p =>
        a p * peak shape bins (nth 1 bins 0 - nth 0 bins 0) (sp ^ k p * wmin) (px p) i
        + b p * peak shape bins (nth 1 bins 0 - nth 0 bins 0) (sp ^ S (k p) * wmin) (px p) i).
Proof.
  intros He Hsp Hne Hpos Hinc Hlen. assert (H1 := spacing_gt1 _ _ _ _ He Hsp).
  assert (Hbw : 0 < nth 1 bins 0 - nth 0 bins 0) by (specialize (Hinc 0%nat 1%nat ltac:(lia) ltac:(lia)); lra).
  destruct (broadening_formula coeffs bins pts error shape fit sp Hsp H1 Hne Hpos (increasing_nondecreasing _ Hinc) Hlen Hbw) as [y [Y1 [Y2 Y3]]].
  set (n := n_kernels sp (map pwidth pts)) in *. set (wmin := min_list (map pwidth pts)) in *.
  set (lc := if Nat.eqb n 0 then [1] else coeffs sp) in *.
  set (a := fun p => polyval lc (pwidth p / (sp ^ lev pts sp p * wmin)) * pweight p).
  exists wmin, (max_list (map pwidth pts)), n, y, (lev pts sp), a, (fun p => if Nat.ltb (lev pts sp p) n then pweight p - a p else 0).
  assert (Hw : map pwidth pts <> []) by (destruct pts; [congruence|discriminate]).
  split; [apply min_list_spec; exact Hw|]. split; [apply max_list_spec; exact Hw|].
  split; [apply top_covers; [exact H1|exact Hw|apply ws_pos; exact Hpos|apply max_list_spec; exact Hw]|].
  split; [exact Y1|]. split; [exact Y2|]. split.
  - intros p Hp. destruct (lev_spec pts sp H1 Hne Hpos p Hp) as [L1 [L2 L3]]. fold n wmin in L1, L2, L3.
    split; [exact L2|]. split; [exact L1|]. split; [|split].
    + intros Hn. unfold a, lc. destruct (Nat.eqb_spec n 0) as [E|]; [contradiction|reflexivity].
    + intros [E|L].
      * unfold a, lc. rewrite E. cbn [Nat.eqb]. replace (Nat.ltb _ 0) with false by (symmetry; apply Nat.ltb_ge; lia).
        rewrite polyval_one. lra.
      * destruct (Nat.ltb_spec (lev pts sp p) n); [lra|lia].
    + intros E. split; [apply L3; exact E|]. rewrite E. rewrite Nat.ltb_irrefl. reflexivity.
  - intros i Hi. rewrite (Y3 i Hi). apply Sum_ext. intros p Hp. fold (a p). f_equal.
    destruct (Nat.ltb (lev pts sp p) n); [reflexivity|lra].
Qed.

(** ** A spectrum with two bins *)
Definition two_bins : list R := [0; 1; 2].
Lemma two_bins_inc : increasing two_bins.
Proof.
  intros i j Hij Hj. cbn in Hj. destruct i as [|[|i]]; destruct j as [|[|[|j]]]; cbn; try lia; lra.
Qed.
Lemma half_in : in_bin two_bins 0 (1/2) = true.
Proof. unfold in_bin, two_bins. cbn [nth length Nat.eqb]. rewrite Rleb_true, Rltb_true by lra. reflexivity. Qed.

Lemma lorentzian_pos g x : 0 < g -> 0 < lorentzian g x.
Proof.
  intros Hg. unfold lorentzian. apply Rdiv_lt_0_compat; [exact Hg|]. pose proof PI_RGT_0.
  assert (0 < x ^ 2 + (g / 2) ^ 2) by (assert (0 <= x ^ 2) by (apply pow2_ge_0); assert (0 < (g / 2) ^ 2) by (apply pow_lt; lra); lra).
  apply Rmult_lt_0_compat; lra.
Qed.
Lemma norm_pdf_pos s x : 0 < s -> 0 < norm_pdf s x.
Proof.
  intros Hs. unfold norm_pdf. apply Rdiv_lt_0_compat; [apply exp_pos|]. pose proof PI_RGT_0.
  apply Rmult_lt_0_compat; [exact Hs|apply sqrt_lt_R0; lra].
Qed.
Lemma kernel_pos shape s x : 0 < s -> 0 < kernel_fun shape s x.
Proof. destruct shape; [apply norm_pdf_pos|apply lorentzian_pos]. Qed.

(** The point of largest width, two widths one spacing apart. *)
Lemma widest_point coeffs sp : get_spacing (/ 10 ^ 2) Lorentz ChebyLog = Ok sp ->
  polyval (coeffs sp) 1 <> 1 ->
  exists y, interpolated_broadening coeffs two_bins [(1/2, 1, 0); (1/2, sp, 1)] (/ 10 ^ 2) Lorentz ChebyLog = Ok y /\
  nth 0 y 0 <> 1 * lorentzian sp 0.
Proof.
  intros Hsp Hc. assert (He : 0 < / 10 ^ 2) by (apply Rinv_0_lt_compat; lra).
  assert (H1 := spacing_gt1 _ _ _ _ He Hsp).
  set (pts := [(1/2, 1, 0); (1/2, sp, 1)] : list point).
  assert (Hpos : forall p, In p pts -> 0 < pwidth p) by (intros p [<-|[<-|[]]]; unfold pwidth; cbn; lra).
  assert (Hbw : 0 < nth 1 two_bins 0 - nth 0 two_bins 0) by (cbn; lra).
  destruct (broadening_formula coeffs two_bins pts _ _ _ sp Hsp H1 ltac:(discriminate) Hpos (increasing_nondecreasing _ two_bins_inc) ltac:(cbn; lia) Hbw) as [y [Y1 [Y2 Y3]]].
  exists y. split; [exact Y1|]. rewrite (Y3 0%nat) by (cbn; lia).
  assert (M : min_list (map pwidth pts) = 1) by (cbn; unfold Rmin; destruct (Rle_dec 1 sp); lra).
  assert (X : max_list (map pwidth pts) = sp) by (cbn; unfold Rmax; destruct (Rle_dec 1 sp); lra).
  assert (N : n_kernels sp (map pwidth pts) = 1%nat).
  { unfold n_kernels. rewrite M, X. replace (sp / 1) with sp by field.
    assert (Hl : 0 < ln sp) by (rewrite <- ln_1; apply ln_increasing; lra).
    replace (ln sp / ln sp) with 1 by (field; lra).
    pose proof (Rceil_bounds 1) as [B1 B2]. assert (A1 : (1 <= Rceil 1)%Z) by (apply le_IZR; lra).
    assert (A2 : (Rceil 1 < 2)%Z) by (apply lt_IZR; lra). replace (Rceil 1) with 1%Z by lia. reflexivity. }
  rewrite M, N. cbn [Nat.eqb]. unfold pts at 1. rewrite !Sum_cons, Sum_nil.
  assert (L2 : lev pts sp (1/2, sp, 1) = 1%nat).
  { destruct (lev_spec pts sp H1 ltac:(discriminate) Hpos (1/2, sp, 1) ltac:(right; left; reflexivity)) as [A [B _]].
    rewrite N in A. rewrite M in B. unfold pwidth in B. cbn [fst snd] in B.
    destruct (lev pts sp (1/2, sp, 1)) as [|[|z]]; [|reflexivity|lia]. simpl in B. lra. }
  rewrite L2. unfold pweight, pwidth, px. cbn [fst snd Nat.ltb Nat.leb].
  replace (sp / (sp ^ 1 * 1)) with 1 by (simpl; field; lra).
  rewrite (peak_in _ _ _ (sp ^ 1 * 1) _ 0%nat 0%nat two_bins_inc ltac:(cbn; lia) half_in).
  replace (Nat.leb (bdist 0 0) ((length two_bins - 1) / 2)) with true by reflexivity.
  replace ((INR 0 - INR 0) * (nth 1 two_bins 0 - nth 0 two_bins 0)) with 0 by (cbn; ring).
  replace (sp ^ 1 * 1) with sp by (simpl; ring). cbn [kernel_fun].
  assert (K := lorentzian_pos sp 0 ltac:(lra)). intros E. apply Hc.
  match goal with H : context [if ?b then _ else _] |- _ => destruct b end; apply (Rmult_eq_reg_r (lorentzian sp 0)); lra.
Qed.

(** A far peak: ten unit bins, one point in the first, looking at the last. *)
Definition ten_bins : list R := map INR (seq 0 11).
Lemma ten_bins_nth i : (i < 11)%nat -> nth i ten_bins 0 = INR i.
Proof. intros H. unfold ten_bins. rewrite (map_nth_indep _ _ _ 0%nat 0) by (rewrite seq_length; exact H). rewrite nth_seq_id by exact H. reflexivity. Qed.
Lemma ten_bins_inc : increasing ten_bins.
Proof.
  intros i j Hij Hj. unfold ten_bins in Hj. rewrite map_length, seq_length in Hj.
  rewrite !ten_bins_nth by lia. apply lt_INR. exact Hij.
Qed.
Lemma far_tail coeffs shape sp : get_spacing (/ 10 ^ 2) shape ChebyLog = Ok sp ->
  exists y, interpolated_broadening coeffs ten_bins [(1/2, 1, 1)] (/ 10 ^ 2) shape ChebyLog = Ok y /\
    nth 9 y 0 = 0 /\ 0 < kernel_fun shape 1 ((INR 9 - INR 0) * 1).
Proof.
  intros Hsp. assert (He : 0 < / 10 ^ 2) by (apply Rinv_0_lt_compat; lra).
  destruct (single_width coeffs ten_bins [(1/2, 1, 1)] _ _ _ sp 1 He Hsp) as [y [Y1 [_ Y3]]];
    [discriminate|lra|intros p [<-|[]]; reflexivity|exact ten_bins_inc|cbn; lia|].
  exists y. split; [exact Y1|]. split; [|apply kernel_pos; lra].
  rewrite (Y3 9%nat) by (cbn; lia). rewrite Sum_cons, Sum_nil.
  rewrite (peak_in _ _ _ _ _ 9%nat 0%nat ten_bins_inc ltac:(cbn; lia)).
  - replace (Nat.leb (bdist 9 0) ((length ten_bins - 1) / 2)) with false by reflexivity. lra.
  - unfold in_bin. change (Nat.eqb 2 (length ten_bins)) with false. rewrite !ten_bins_nth by lia.
    unfold px. cbn [fst]. rewrite Rleb_true, Rltb_true by (simpl; lra). reflexivity.
Qed.
