(** Lemmas on broadening of 2-D spectra with functions (C77). *)
From Coq Require Import String.
From Verif Require Import Base L_util M_cell L_cell M_qpts L_qpts L_path M_path M_broad S_broad L_broad L_broad2 L_broad3 M_dos L_dos L_dos2 M_bins S_bins L_bins M_reorder S_reorder L_reorder L_reorder2 M_sf L_tight M_fixed S_fixed L_fixed L_fixed2 L_fixed3 L_fixed4.
Open Scope R_scope.

Lemma Sum_combine_nth (c v : list R) (g : R -> R -> R) n : length c = n -> length v = n ->
  Sum (combine c v) (fun p => g (fst p) (snd p)) = sumn n (fun k => g (nth k c 0) (nth k v 0)).
Proof.
  revert v n. induction c as [|a c IH]; intros v n Lc Lv; cbn in Lc; subst n.
  - reflexivity.
  - destruct v as [|b v]; [cbn in Lv; lia|]. cbn [combine]. rewrite Sum_cons. cbn [fst snd].
    rewrite (IH v (length c) eq_refl) by (cbn in Lv; lia). change (S (length c)) with (1 + length c)%nat. rewrite sumn_app.
    unfold sumn at 2. cbn [seq]. rewrite Sum_cons, Sum_nil, Rplus_0_r. reflexivity.
Qed.

(** One row broadened with a function of constant value [w]. *)
Lemma vrow coeffs e c row bw w n (lower : option R) lim conv error sh fit sp s : 0 < error -> get_spacing error sh fit = Ok sp ->
  increasing e -> length e = S n -> length c = n -> (1 <= n)%nat -> (forall k, (k < n)%nat -> in_bin e k (nth k c 0) = true) ->
  length row = n -> sigma_function conv sh (fun _ => w) = Ok s -> 0 < Rmax (s 0) lim ->
  (lower = Some lim \/ lower = None /\ is_max lim (map (fun i => nth (S i) e 0 - nth i e 0) (seq 0 (length e - 1)))) ->
  exists y, variable_width_broadening coeffs e (combine c (map (fun v => v * bw) row)) (fun _ => w) lower conv error sh fit = Ok y /\ length y = n /\
  forall j, (j < n)%nat -> nth j y 0 = sumn n (fun k => nth k row 0 * bw *
     (if Nat.leb (bdist j k) (n / 2) then kernel_fun sh (Rmax (s 0) lim) ((INR j - INR k) * (nth 1 e 0 - nth 0 e 0)) else 0)).
Proof.
  intros He Hs Inc Le Lc Hn Hin Lr Es Hp Hl.
  destruct (widths_floor coeffs e (combine c (map (fun v => v * bw) row)) w lower lim conv error sh fit sp s He Hs) as (y & Ey & Ly & Ny); try assumption.
  - intros E. apply (f_equal (@length (R * R))) in E. rewrite combine_length, map_length in E. cbn in E. lia.
  - lia.
  - exists y. split; [exact Ey|]. split; [lia|]. intros j Hj. rewrite Ny by lia.
    rewrite (Sum_combine_nth c (map (fun v => v * bw) row) (fun a b => b * peak sh e (nth 1 e 0 - nth 0 e 0) (Rmax (s 0) lim) a j) n Lc) by (rewrite map_length; exact Lr).
    apply sumn_ext. intros k Hk. rewrite (map_nth_indep _ _ _ 0 0) by lia. f_equal.
    rewrite (peak_in sh e _ _ _ j k Inc) by (try (apply Hin; exact Hk); lia). replace (length e - 1)%nat with n by lia. reflexivity.
Qed.

Lemma rows_spec g rows (P : list R -> list R -> Prop) : (forall r, In r rows -> exists y, g r = Ok y /\ P r y) ->
  exists outs, rows_broadened g rows = Ok outs /\ length outs = length rows /\ forall i, (i < length rows)%nat -> P (nth i rows []) (nth i outs []).
Proof.
  induction rows as [|r rows IH]; intros H.
  - exists []. split; [reflexivity|]. split; [reflexivity|]. cbn. intros; lia.
  - destruct (H r (or_introl eq_refl)) as (y & E & Py). destruct IH as (outs & E' & L & N); [intros q I; apply H; right; exact I|].
    exists (y :: outs). cbn [rows_broadened]. rewrite E. cbn [liftb]. rewrite E'. split; [reflexivity|]. split; [cbn; lia|].
    intros [|i] Hi; [exact Py|]. cbn [nth]. apply N. cbn in Hi. lia.
Qed.

(** Evenly spaced bin edges and points. *)
Lemma in_bin_intro bins j x : nth j bins 0 <= x -> (x < nth (S j) bins 0 \/ x = nth (S j) bins 0 /\ (S (S j) = length bins)) -> in_bin bins j x = true.
Proof.
  intros A B. unfold in_bin. rewrite (proj2 (Rleb_iff _ _) A). cbn [andb].
  destruct (Nat.eqb_spec (S (S j)) (length bins)) as [E|E].
  - apply Rleb_iff. destruct B as [B|[B _]]; lra.
  - apply Rltb_iff. destruct B as [B|[_ B]]; [exact B|contradiction].
Qed.

Lemma isclose_refl a : isclose (1 / 10 ^ 8) a a = true.
Proof.
  unfold isclose. apply Rleb_iff. rewrite Rminus_diag_eq, Rabs_R0 by reflexivity.
  pose proof (Rabs_pos a). assert (0 < 1 / 10 ^ 8) by (apply Rdiv_lt_0_compat; [lra|apply pow_lt; lra]).
  assert (0 < 1 / 10 ^ 5) by (apply Rdiv_lt_0_compat; [lra|apply pow_lt; lra]).
  assert (0 <= 1 / 10 ^ 5 * Rabs a) by (apply Rmult_le_pos; lra). lra.
Qed.

Lemma even_edges a h n x : 0 < h -> (1 <= n)%nat -> regular a h (n + 1) x ->
  increasing x /\ get_bin_edges n x = Ok x /\
  exists c, get_bin_centres n x = Ok c /\ length c = n /\ (forall k, (k < n)%nat -> in_bin x k (nth k c 0) = true) /\
  nth 1 x 0 - nth 0 x 0 = h /\ is_max h (map (fun i => nth (S i) x 0 - nth i x 0) (seq 0 (length x - 1))) /\
  np_diffR x = repeat h n.
Proof.
  intros Hh Hn Rg. pose proof (regular_increasing a h (n + 1) x Hh Rg) as Inc.
  pose proof (regular_diffs a h (n + 1) x Rg ltac:(lia)) as D. replace (n + 1 - 1)%nat with n in D by lia.
  destruct Rg as [L R]. split; [exact Inc|]. destruct (edges_axis n x L Inc) as (E & c & Ec & Lc & N). split; [exact E|].
  exists c. split; [exact Ec|]. split; [exact Lc|]. split; [|split; [|split; [|exact D]]].
  - intros k Hk. destruct (N k Hk) as [_ [A B]]. apply in_bin_intro; [lra|left; lra].
  - rewrite !R by lia. cbn. lra.
  - assert (S1 : forall i, (i < n)%nat -> nth (S i) x 0 - nth i x 0 = h) by (intros i Hi; rewrite !R by lia; rewrite S_INR; lra).
    split.
    + apply in_map_iff. exists 0%nat. split; [apply S1; lia|apply in_seq; lia].
    + intros v I. apply in_map_iff in I. destruct I as (i & <- & I). apply in_seq in I. rewrite S1 by lia. lra.
Qed.

Lemma close_all h n : (1 <= n)%nat -> forallb (fun w => isclose (1 / 10 ^ 8) w (hd 0 (repeat h n))) (repeat h n) = true.
Proof.
  intros Hn. apply forallb_forall. intros v I. apply repeat_spec in I. subst v. destruct n; [lia|]. apply isclose_refl.
Qed.

Lemma rows_edges coeffs a h n x rows w (lower : option R) lim conv error sh fit sp s : 0 < error -> get_spacing error sh fit = Ok sp ->
  0 < h -> (1 <= n)%nat -> regular a h (n + 1) x -> rect n rows ->
  sigma_function conv sh (fun _ => w) = Ok s -> 0 < Rmax (s 0) lim -> (lower = Some lim \/ lower = None /\ lim = h) ->
  exists outs, varying_rows coeffs n x rows (fun _ => w) lower conv error sh fit = Ok outs /\ length outs = length rows /\ rect n outs /\
  forall i, (i < length rows)%nat -> forall j, (j < n)%nat -> cell outs i j = by_bins sh (Rmax (s 0) lim) h h (nth i rows []) n j.
Proof.
  intros He Hs Hh Hn Rg Rr Es Hp Hl. destruct (even_edges a h n x Hh Hn Rg) as (Inc & Ee & c & Ec & Lc & Hin & S1 & Mx & D).
  unfold varying_rows. rewrite Ee, Ec. cbn [lift]. rewrite D, close_all by exact Hn.
  replace (hd 0 (repeat h n)) with h by (destruct n; [lia|reflexivity]).
  destruct (rows_spec (fun r => variable_width_broadening coeffs x (combine c (map (fun v => v * h) r)) (fun _ => w) lower conv error sh fit) rows
    (fun r y => length y = n /\ forall j, (j < n)%nat -> nth j y 0 = by_bins sh (Rmax (s 0) lim) h h r n j)) as (outs & E & L & N).
  - intros r I. destruct (vrow coeffs x c r h w n lower lim conv error sh fit sp s He Hs Inc) as (y & Ey & Ly & Ny); try assumption.
    + destruct Rg as [L _]. lia.
    + apply Rr. exact I.
    + destruct Hl as [->|[-> ->]]; [left; reflexivity|right; split; [reflexivity|exact Mx]].
    + exists y. split; [exact Ey|]. split; [exact Ly|]. intros j Hj. rewrite (Ny j Hj), S1. reflexivity.
  - exists outs. split; [exact E|]. split; [exact L|]. split.
    + intros y I. destruct (In_nth _ _ [] I) as (i & Hi & <-). apply N. lia.
    + intros i Hi j Hj. apply N; assumption.
Qed.

(** ** Evenly spaced points: the outer bins are half as wide *)
Lemma Rsum_diffs l : Rsum (np_diffR l) = last l 0 - hd 0 l.
Proof.
  unfold np_diffR. induction l as [|a [|b l] IH]; [cbn; lra|cbn; lra|].
  change (tl (a :: b :: l)) with (b :: l). change (combine (a :: b :: l) (b :: l)) with ((a, b) :: combine (b :: l) (tl (b :: l))).
  cbn [map fst snd]. rewrite Rsum_cons, IH. change (last (a :: b :: l) 0) with (last (b :: l) 0). cbn [hd]. lra.
Qed.
Lemma last_nth (l : list R) n : length l = S n -> last l 0 = nth n l 0.
Proof.
  destruct l as [|b l] using rev_ind; [discriminate|]. rewrite app_length. cbn [length]. intros E. rewrite last_last, app_nth2 by lia.
  replace (n - length l)%nat with 0%nat by lia. reflexivity.
Qed.

Lemma even_points a h n x : 1 / 10 ^ 7 < h -> (3 <= n)%nat -> regular a h n x ->
  exists e, get_bin_edges n x = Ok e /\ get_bin_centres n x = Ok x /\ increasing e /\ length e = S n /\
  (forall k, (k < n)%nat -> in_bin e k (nth k x 0) = true) /\ nth 1 e 0 - nth 0 e 0 = h / 2 /\
  is_max h (map (fun i => nth (S i) e 0 - nth i e 0) (seq 0 (length e - 1))) /\
  forallb (fun w => isclose (1 / 10 ^ 8) w (hd 0 (np_diffR e))) (np_diffR e) = false /\
  Rsum (np_diffR e) / INR (length (np_diffR e)) = (INR n - 1) * h / INR n.
Proof.
  intros Hh Hn Rg. assert (P7 : 0 < 1 / 10 ^ 7) by (apply Rdiv_lt_0_compat; [lra|apply pow_lt; lra]). assert (Hh0 : 0 < h) by lra.
  pose proof (regular_increasing a h n x Hh0 Rg) as Inc. destruct Rg as [L R].
  destruct (centres_axis n x L ltac:(lia) Inc) as (Ec & e & E & Le & E0 & En & Em & Bt & St).
  exists e. split; [exact E|]. split; [exact Ec|].
  assert (Ie : increasing e).
  { assert (G : forall m i, (i + S m < length e)%nat -> nth i e 0 < nth (i + S m) e 0).
    { induction m as [|m IH]; intros i Hi.
      - replace (i + 1)%nat with (S i) by lia. apply St; lia.
      - apply (Rlt_trans _ (nth (i + S m) e 0)); [apply IH; lia|]. replace (i + S (S m))%nat with (S (i + S m)) by lia. apply St; lia. }
    intros i j Hij Hj. replace j with (i + S (j - i - 1))%nat by lia. apply G. lia. }
  split; [exact Ie|]. split; [lia|].
  assert (Step0 : nth 1 e 0 - nth 0 e 0 = h / 2) by (rewrite E0, (Em 1%nat) by lia; cbn [Nat.sub]; rewrite !R by lia; cbn; lra).
  assert (Mid : forall i, (0 < i < n - 1)%nat -> nth (S i) e 0 - nth i e 0 = h).
  { intros i Hi. rewrite !Em by lia. replace (S i - 1)%nat with i by lia. rewrite !R by lia.
    rewrite S_INR, minus_INR by lia. change (INR 1) with 1. lra. }
  split; [|split; [exact Step0|split; [|split]]].
  - intros k Hk. destruct (Bt k Hk) as [A B]. apply in_bin_intro; [exact A|].
    destruct (Nat.eq_dec (S k) n) as [Ek|Nk].
    + right. split; [|lia]. rewrite Ek, En. f_equal. lia.
    + left. rewrite (Em (S k)) by lia. replace (S k - 1)%nat with k by lia. rewrite !R by lia. rewrite S_INR. lra.
  - split.
    + apply in_map_iff. exists 1%nat. split; [apply Mid; lia|apply in_seq; lia].
    + intros v I. apply in_map_iff in I. destruct I as (i & <- & I). apply in_seq in I.
      destruct (Nat.eq_dec i 0) as [->|N0]; [rewrite Step0; lra|].
      destruct (Nat.eq_dec i (n - 1)) as [->|N1]; [|rewrite Mid by lia; lra].
      replace (S (n - 1)) with n by lia. rewrite En, (Em (n - 1)%nat) by lia. rewrite !R by lia.
      replace (INR (n - 1)) with (INR (n - 1 - 1) + 1) by (rewrite <- S_INR; f_equal; lia). lra.
  - apply Bool.not_true_iff_false. intros F. rewrite forallb_forall in F.
    assert (D0 : hd 0 (np_diffR e) = h / 2).
    { pose proof (length_np_diffR e) as Ld. pose proof (nth_np_diffR e 0 ltac:(lia)) as N0. destruct (np_diffR e); [cbn in Ld; lia|]. cbn in *. lra. }
    pose proof (nth_np_diffR e 1 ltac:(lia)) as N1. specialize (F (nth 1 (np_diffR e) 0) ltac:(apply nth_In; rewrite length_np_diffR; lia)).
    rewrite N1, D0, (Mid 1%nat) in F by lia. unfold isclose in F. apply Rleb_iff in F.
    rewrite (Rabs_pos_eq (h - h / 2)), (Rabs_pos_eq (h / 2)) in F by lra.
    replace (1 / 10 ^ 8) with (1 / 10 ^ 7 / 10) in F by (field). replace (1 / 10 ^ 5) with (1 / 100000) in F by (cbn; lra).
    lra.
  - rewrite Rsum_diffs, length_np_diffR, Le. replace (n + 1 - 1)%nat with n by lia.
    rewrite (last_nth e n) by lia. replace (hd 0 e) with (nth 0 e 0) by (destruct e; reflexivity). rewrite En, E0, !R by lia.
    rewrite minus_INR by lia. change (INR 1) with 1. change (INR 0) with 0. f_equal. ring.
Qed.

Lemma rows_points coeffs a h n x rows w (lower : option R) lim conv error sh fit sp s : 0 < error -> get_spacing error sh fit = Ok sp ->
  1 / 10 ^ 7 < h -> (3 <= n)%nat -> regular a h n x -> rect n rows ->
  sigma_function conv sh (fun _ => w) = Ok s -> 0 < Rmax (s 0) lim -> (lower = Some lim \/ lower = None /\ lim = h) ->
  exists outs, varying_rows coeffs n x rows (fun _ => w) lower conv error sh fit = Ok outs /\ length outs = length rows /\ rect n outs /\
  forall i, (i < length rows)%nat -> forall j, (j < n)%nat ->
    cell outs i j = by_bins sh (Rmax (s 0) lim) ((INR n - 1) * h / INR n) (h / 2) (nth i rows []) n j.
Proof.
  intros He Hs Hh Hn Rg Rr Es Hp Hl. destruct (even_points a h n x Hh Hn Rg) as (e & Ee & Ec & Inc & Le & Hin & S1 & Mx & Cl & Mean).
  unfold varying_rows. rewrite Ee, Ec. cbn [lift]. rewrite Cl, Mean. set (bw := (INR n - 1) * h / INR n).
  destruct (rows_spec (fun r => variable_width_broadening coeffs e (combine x (map (fun v => v * bw) r)) (fun _ => w) lower conv error sh fit) rows
    (fun r y => length y = n /\ forall j, (j < n)%nat -> nth j y 0 = by_bins sh (Rmax (s 0) lim) bw (h / 2) r n j)) as (outs & E & L & N).
  - intros r I. destruct (vrow coeffs e x r bw w n lower lim conv error sh fit sp s He Hs Inc) as (y & Ey & Ly & Ny); try assumption.
    + destruct Rg as [L _]. exact L.
    + lia.
    + apply Rr. exact I.
    + destruct Hl as [->|[-> ->]]; [left; reflexivity|right; split; [reflexivity|exact Mx]].
    + exists y. split; [exact Ey|]. split; [exact Ly|]. intros j Hj. rewrite (Ny j Hj), S1. reflexivity.
  - exists outs. split; [exact E|]. split; [exact L|]. split.
    + intros y I. destruct (In_nth _ _ [] I) as (i & Hi & <-). apply N. lia.
    + intros i Hi j Hj. apply N; assumption.
Qed.

(** ** Broadening step by step *)

Lemma fixed_part_only w : fixed_part (fixed_only w) = fixed_part w.
Proof. destruct w; reflexivity. Qed.
Lemma stage_only coeffs isx w shape low conv error fit sr :
  varying_stage coeffs isx (function_only w) shape low conv error fit sr = varying_stage coeffs isx w shape low conv error fit sr.
Proof. destruct w; reflexivity. Qed.
Lemma stage_none coeffs isx w shape low conv error fit sr : varying_stage coeffs isx (fixed_only w) shape low conv error fit sr = Ok sr.
Proof. destruct w; reflexivity. Qed.
Lemma fixed_none st r z shape m : fixed_stage st r z None None shape m = Ok (st, r).
Proof. reflexivity. Qed.
Lemma fixed_part_function w : fixed_part (function_only w) = None.
Proof. destruct w; reflexivity. Qed.
Lemma varying_nan coeffs isx wd shape low conv error fit sr sr' : varying_stage coeffs isx wd shape low conv error fit sr = Ok sr' ->
  sz (get (fst sr) (snd sr)) = None -> sz (get (fst sr') (snd sr')) = None.
Proof.
  unfold varying_stage. destruct wd; try (intros H; injection H as <-; intros E; exact E).
  destruct (shape_of shape); [|discriminate]. unfold varying_axis. intros H Z. rewrite Z in H. injection H as <-. cbn [fst snd].
  rewrite get_app. exact Z.
Qed.

Lemma steps coeffs st r wx wy shape m lowx lowy conv error fit st' r' : sz (get st r) <> None ->
  broaden2d coeffs st r wx wy shape m lowx lowy conv error fit = Ok (st', r') -> sz (get st' r') <> None ->
  exists st1 r1 st2 r2,
    broaden2d coeffs st r (fixed_only wx) (fixed_only wy) shape m lowx lowy conv error fit = Ok (st1, r1) /\
    broaden2d coeffs st1 r1 (function_only wx) NoWidth shape m lowx lowy conv error fit = Ok (st2, r2) /\
    broaden2d coeffs st2 r2 NoWidth (function_only wy) shape m lowx lowy conv error fit = Ok (st', r').
Proof.
  intros Hz. unfold broaden2d at 1. destruct (sz (get st r)) as [z|] eqn:Ez; [|congruence].
  destruct (fixed_stage _ _ _ _ _ _ _) as [[st1 r1]|] eqn:E1; [|discriminate].
  destruct (varying_stage coeffs true _ _ _ _ _ _ _) as [[st2 r2]|] eqn:E2; [|discriminate]. intros E3 Hz'.
  exists st1, r1, st2, r2.
  assert (Z2 : sz (get st2 r2) <> None) by (intros Z; apply Hz'; exact (varying_nan _ _ _ _ _ _ _ _ _ _ E3 Z)).
  assert (Z1 : sz (get st1 r1) <> None) by (intros Z; apply Z2; exact (varying_nan _ _ _ _ _ _ _ _ _ _ E2 Z)).
  split; [|split].
  - unfold broaden2d. rewrite Ez, !fixed_part_only, E1, !stage_none. reflexivity.
  - unfold broaden2d. destruct (sz (get st1 r1)) as [z1|]; [|congruence]. rewrite fixed_part_function. cbn [fixed_part]. rewrite fixed_none. cbv iota. rewrite stage_only, E2. reflexivity.
  - unfold broaden2d. destruct (sz (get st2 r2)) as [z2|]; [|congruence]. rewrite fixed_part_function. cbn [fixed_part]. rewrite fixed_none. cbv iota.
    change (varying_stage coeffs true NoWidth shape lowx conv error fit (st2, r2)) with (@Ok (store * nat) fwerr (st2, r2)). cbv iota. rewrite stage_only. exact E3.
Qed.
