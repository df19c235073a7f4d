(** Proofs about cell geometry. *)
From Verif Require Import Base Vec3 M_cell.

Lemma cell_volume_det cv : cell_volume cv = det3 cv.
Proof.
  destruct cv as [[[[a1 a2] a3] [[b1 b2] b3]] [[c1 c2] c3]].
  unfold cell_volume, cell_vectors_to_volume. simpl. ring.
Qed.

Ltac dm cv := destruct cv as [[[[?a ?a] ?a] [[?b ?b] ?b]] [[?c ?c] ?c]].

Lemma reciprocal_dual cv : det3 cv <> 0 -> forall i j, (i < 3)%nat -> (j < 3)%nat ->
  dot (row cv i) (row (reciprocal_cell cv) j) = if Nat.eqb i j then 2 * PI else 0.
Proof.
  intros Hd i j Hi Hj. unfold reciprocal_cell. rewrite cell_volume_det.
  remember (2 * PI / det3 cv) as k eqn:Hk.
  assert (Hkd : k * det3 cv = 2 * PI) by (subst k; field; exact Hd).
  clear Hk.
  destruct cv as [[[[a1 a2] a3] [[b1 b2] b3]] [[c1 c2] c3]].
  simpl in Hkd |- *.
  destruct i as [|[|[|i]]]; [| | |lia]; destruct j as [|[|[|j]]]; try lia; simpl;
    try rewrite <- Hkd; ring.
Qed.

Lemma reciprocal_det cv : det3 cv <> 0 ->
  det3 (reciprocal_cell cv) = (2 * PI) ^ 3 / det3 cv.
Proof.
  intros Hd. unfold reciprocal_cell. rewrite cell_volume_det.
  remember (2 * PI / det3 cv) as k eqn:Hk.
  transitivity (k ^ 3 * (det3 cv) ^ 2).
  - clear Hk Hd. destruct cv as [[[[a1 a2] a3] [[b1 b2] b3]] [[c1 c2] c3]]. simpl. ring.
  - rewrite Hk. field. exact Hd.
Qed.

Lemma reciprocal_volume cv : cell_volume cv <> 0 ->
  cell_volume (reciprocal_cell cv) = (2 * PI) ^ 3 / cell_volume cv.
Proof. rewrite !cell_volume_det. apply reciprocal_det. Qed.

Lemma det3_transpose m : det3 (transpose m) = det3 m.
Proof. destruct m as [[[[a1 a2] a3] [[b1 b2] b3]] [[c1 c2] c3]]. simpl. ring. Qed.

Lemma solve3_sound a b x : solve3 a b = Some x -> mulv a x = b.
Proof.
  destruct a as [[[[a1 a2] a3] [[b1 b2] b3]] [[c1 c2] c3]], b as [[x0 y0] z0].
  unfold solve3. destruct (Req_EM_T _ 0) as [|Hd]; [discriminate|].
  intros H. injection H as <-. simpl in Hd. simpl.
  apply V3_eq; field; exact Hd.
Qed.

Lemma solve3_unique a x : det3 a <> 0 -> solve3 a (mulv a x) = Some x.
Proof.
  destruct a as [[[[a1 a2] a3] [[b1 b2] b3]] [[c1 c2] c3]], x as [[x0 y0] z0].
  intros Hd. unfold solve3. cbn [mulv dot].
  destruct (Req_EM_T _ 0) as [He|_]; [contradiction|].
  simpl in Hd |- *. f_equal. apply V3_eq; field; exact Hd.
Qed.

Lemma solve3_none a b : solve3 a b = None <-> det3 a = 0.
Proof.
  destruct a as [[[[a1 a2] a3] [[b1 b2] b3]] [[c1 c2] c3]], b as [[x0 y0] z0].
  unfold solve3. destruct (Req_EM_T _ 0); split; intros; congruence.
Qed.

Lemma vmul_transpose v m : mulv (transpose m) v = vmul v m.
Proof.
  destruct m as [[[[a1 a2] a3] [[b1 b2] b3]] [[c1 c2] c3]], v as [[x y] z].
  simpl. apply V3_eq; ring.
Qed.

Lemma recip_nonsingular cv : cell_volume cv <> 0 -> det3 (transpose (reciprocal_cell cv)) <> 0.
Proof.
  intros Hv. rewrite det3_transpose, reciprocal_det by (rewrite <- cell_volume_det; exact Hv).
  rewrite <- cell_volume_det. unfold Rdiv. apply Rmult_integral_contrapositive_currified.
  - apply pow_nonzero. pose proof PI_RGT_0. lra.
  - apply Rinv_neq_0_compat. exact Hv.
Qed.

Lemma frac_cart_frac cv q : cell_volume cv <> 0 ->
  qpt_cart_to_frac cv (qpt_frac_to_cart cv q) = Some q.
Proof.
  intros Hv. unfold qpt_cart_to_frac, qpt_frac_to_cart.
  rewrite <- vmul_transpose. apply solve3_unique. apply recip_nonsingular. exact Hv.
Qed.

Lemma cart_frac_cart cv q : cell_volume cv <> 0 ->
  exists f, qpt_cart_to_frac cv q = Some f /\ qpt_frac_to_cart cv f = q.
Proof.
  intros Hv. unfold qpt_cart_to_frac.
  destruct (solve3 (transpose (reciprocal_cell cv)) q) as [f|] eqn:Hs.
  - exists f. split; [reflexivity|]. apply solve3_sound in Hs.
    unfold qpt_frac_to_cart. rewrite <- vmul_transpose. exact Hs.
  - apply solve3_none in Hs. exfalso. apply (recip_nonsingular cv Hv). exact Hs.
Qed.

(** ** ceil and grid spec *)
Lemma Rceil_bounds x : x <= IZR (Rceil x) < x + 1.
Proof.
  unfold Rceil. rewrite opp_IZR. pose proof (base_Int_part (- x)) as [H1 H2]. lra.
Qed.
Lemma Rceil_least x n : x <= IZR n -> (Rceil x <= n)%Z.
Proof.
  intros H. pose proof (Rceil_bounds x) as [_ Hb].
  assert (IZR (Rceil x) < IZR (n + 1)) by (rewrite plus_IZR; lra).
  apply lt_IZR in H0. lia.
Qed.

Lemma recip_row_norm_pos cv i : cell_volume cv <> 0 -> (i < 3)%nat ->
  0 < norm (row (reciprocal_cell cv) i).
Proof.
  intros Hv Hi. rewrite cell_volume_det in Hv.
  pose proof (reciprocal_dual cv Hv i i Hi Hi) as Hd. rewrite Nat.eqb_refl in Hd.
  unfold norm. apply sqrt_lt_R0.
  destruct (Rle_lt_or_eq_dec _ _ (dot_self_nonneg (row (reciprocal_cell cv) i))) as [H|H]; [exact H|].
  exfalso. revert H Hd. generalize (row cv i), (row (reciprocal_cell cv) i).
  intros [[a b] c] [[x y] z]. simpl. intros H Hd.
  assert (Hx2 : 0 <= x * x) by nra. assert (Hy2 : 0 <= y * y) by nra.
  assert (Hz2 : 0 <= z * z) by nra.
  assert (x = 0) by nra. assert (y = 0) by nra. assert (z = 0) by nra. subst.
  pose proof PI_RGT_0. lra.
Qed.

Lemma grid_div_spec b s : 0 < b -> 0 < s ->
  (0 < Rceil (b / s))%Z /\ b / IZR (Rceil (b / s)) <= s /\
  (forall m : Z, (0 < m)%Z -> b / IZR m <= s -> (Rceil (b / s) <= m)%Z).
Proof.
  intros Hb Hs. pose proof (Rceil_bounds (b / s)) as [Hl Hu].
  assert (Hq : 0 < b / s) by (apply Rdiv_lt_0_compat; assumption).
  assert (Hp : 0 < IZR (Rceil (b / s))) by lra.
  split; [apply lt_IZR; exact Hp|]. split.
  - apply Rmult_le_reg_r with (IZR (Rceil (b / s))); [exact Hp|].
    unfold Rdiv at 1. rewrite Rmult_assoc, Rinv_l, Rmult_1_r by lra.
    apply Rmult_le_compat_l with (r := s) in Hl; [|lra].
    replace (s * (b / s)) with b in Hl by (field; lra). exact Hl.
  - intros m Hm Hle. apply Rceil_least. apply IZR_lt in Hm.
    apply Rmult_le_reg_r with s; [exact Hs|].
    unfold Rdiv. rewrite Rmult_assoc, Rinv_l, Rmult_1_r by lra.
    apply Rmult_le_compat_l with (r := IZR m) in Hle; [|lra].
    replace (IZR m * (b / IZR m)) with b in Hle by (field; lra). lra.
Qed.

Lemma mp_grid_spec_ok cv spacing : cell_volume cv <> 0 -> 0 < spacing ->
  exists n0 n1 n2, get_mp_grid_spec cv spacing = Some (n0, n1, n2) /\
    forall i n, nth_error [n0; n1; n2] i = Some n ->
      (0 < n)%Z /\
      norm (row (reciprocal_cell cv) i) / IZR n <= spacing /\
      (forall m : Z, (0 < m)%Z ->
         norm (row (reciprocal_cell cv) i) / IZR m <= spacing -> (n <= m)%Z).
Proof.
  intros Hv Hs. unfold get_mp_grid_spec.
  destruct (Req_EM_T spacing 0) as [He|_]; [lra|].
  do 3 eexists. split; [reflexivity|].
  intros i n Hn.
  assert (Hi : (i < 3)%nat).
  { assert (nth_error [Rceil (norm (row (reciprocal_cell cv) 0) / spacing);
     Rceil (norm (row (reciprocal_cell cv) 1) / spacing);
     Rceil (norm (row (reciprocal_cell cv) 2) / spacing)] i <> None) as H by congruence.
    apply nth_error_Some in H. exact H. }
  assert (n = Rceil (norm (row (reciprocal_cell cv) i) / spacing)) as ->.
  { destruct i as [|[|[|i]]]; try lia; cbn [nth_error] in Hn; injection Hn as <-; reflexivity. }
  apply grid_div_spec; [apply recip_row_norm_pos; assumption|exact Hs].
Qed.

(** ** cube root and widths *)
Lemma cbrt_cube x : cbrt x * cbrt x * cbrt x = x.
Proof.
  unfold cbrt.
  assert (H : forall y, 0 < y -> exp (ln y / 3) * exp (ln y / 3) * exp (ln y / 3) = y).
  { intros y Hy. rewrite <- !exp_plus. replace (ln y / 3 + ln y / 3 + ln y / 3) with (ln y) by field.
    apply exp_ln. exact Hy. }
  destruct (Rlt_dec 0 x) as [Hp|Hp]; [apply H; exact Hp|].
  destruct (Rlt_dec x 0) as [Hn|Hn].
  - assert (Hy : 0 < - x) by lra. specialize (H _ Hy). lra.
  - assert (x = 0) by lra. subst. ring.
Qed.
Lemma cbrt_pos x : 0 < x -> 0 < cbrt x.
Proof. intros H. unfold cbrt. destruct (Rlt_dec 0 x); [apply exp_pos|contradiction]. Qed.
Lemma cbrt_neg x : x < 0 -> cbrt x < 0.
Proof.
  intros H. unfold cbrt. destruct (Rlt_dec 0 x); [lra|].
  destruct (Rlt_dec x 0); [|contradiction]. pose proof (exp_pos (ln (- x) / 3)). lra.
Qed.

Lemma mode_width_right_handed nq cv g :
  (0 < nq)%nat -> 0 < cell_volume cv ->
  0 <= mode_width nq cv g /\
  (mode_width nq cv g) ^ 3 * (INR nq * cell_volume cv) = 8 * norm g ^ 3.
Proof.
  intros Hn Hv. unfold mode_width, q_spacing. fold (cell_volume cv).
  assert (Hp : 0 < INR nq * cell_volume cv).
  { apply Rmult_lt_0_compat; [apply lt_0_INR; lia|exact Hv]. }
  pose proof (cbrt_pos _ Hp) as Hc. pose proof (cbrt_cube (INR nq * cell_volume cv)) as H3.
  set (c := cbrt (INR nq * cell_volume cv)) in *. split.
  - apply Rmult_le_pos; [|apply norm_nonneg]. apply Rlt_le. apply Rdiv_lt_0_compat; lra.
  - rewrite <- H3. field. lra.
Qed.

Lemma mode_width_left_handed nq cv g :
  (0 < nq)%nat -> cell_volume cv < 0 -> 0 < norm g -> mode_width nq cv g < 0.
Proof.
  intros Hn Hv Hg. unfold mode_width, q_spacing. fold (cell_volume cv).
  assert (Hp : INR nq * cell_volume cv < 0).
  { assert (0 < INR nq) by (apply lt_0_INR; lia). nra. }
  pose proof (cbrt_neg _ Hp) as Hc.
  assert (2 / cbrt (INR nq * cell_volume cv) < 0).
  { unfold Rdiv. apply Rinv_lt_0_compat in Hc. lra. }
  nra.
Qed.

(** ** determinants *)
Lemma c_det_difference m :
  c_det_array m = np_linalg_det m + 2 * (comp (row m 0) 1 *
    (comp (row m 1) 0 * comp (row m 2) 2 - comp (row m 2) 0 * comp (row m 1) 2)).
Proof.
  destruct m as [[[[a1 a2] a3] [[b1 b2] b3]] [[c1 c2] c3]].
  unfold c_det_array, np_linalg_det. simpl. ring.
Qed.

Lemma c_cell_volume_ok m : c_cell_volume m = cell_volume m.
Proof.
  destruct m as [[[[a1 a2] a3] [[b1 b2] b3]] [[c1 c2] c3]].
  unfold c_cell_volume, cell_volume, cell_vectors_to_volume. simpl. ring.
Qed.

Lemma c_det_witness : exists m : M3,
  transpose m = m /\ (forall v, v <> vzero -> 0 < dot v (mulv m v)) /\
  np_linalg_det m = 3 /\ c_det_array m = 5.
Proof.
  exists ((2, 1, 0), (1, 2, 0), (0, 0, 1)). split; [reflexivity|]. split; [|split].
  - intros [[x y] z] Hv. simpl.
    assert (Hne : x <> 0 \/ y <> 0 \/ z <> 0).
    { destruct (Req_EM_T x 0); [|tauto]. destruct (Req_EM_T y 0); [|tauto].
      destruct (Req_EM_T z 0); [|tauto]. subst. exfalso. apply Hv. reflexivity. }
    assert (Hf : x * (2 * x + 1 * y + 0 * z) + y * (1 * x + 2 * y + 0 * z)
                 + z * (0 * x + 0 * y + 1 * z) = x * x + y * y + (x + y) * (x + y) + z * z) by ring.
    rewrite Hf. clear Hf Hv.
    assert (Hs : forall t, t <> 0 -> 0 < t * t) by (intros; nra).
    destruct Hne as [H|[H|H]]; apply Hs in H; nra.
  - unfold np_linalg_det, det3. lra.
  - unfold c_det_array. lra.
Qed.
