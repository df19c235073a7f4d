(** Proofs about the non-analytic correction and the polar dynamical matrix. *)
From Verif Require Import Base Cpx Vec3 M_grid M_cell M_qpts M_dynmat M_dipole S_dynmat S_dipole
  L_cell L_qpts L_dynmat L_dynmat2 L_dipole L_chain.
Open Scope R_scope.

Lemma polar_time_reversal erfc d junk born diel dp q a b :
  (a < 3 * n_atoms d)%nat -> (b < 3 * n_atoms d)%nat ->
  polar_dyn_mat erfc d junk born diel dp (vopp q) a b
  = Cconj (polar_dyn_mat erfc d junk born diel dp q a b).
Proof.
  intros Ha Hb. unfold polar_dyn_mat. rewrite interp_conj, Cconj_add. f_equal.
  eapply dipole_conj; [apply dipole_init_ok|exact Ha|exact Hb].
Qed.

Lemma polar_hermitian erfc d junk born diel dp q a b :
  home_first d -> search_complete d -> fc_symmetric d -> symmetric3 diel ->
  (a < 3 * n_atoms d)%nat -> (b < 3 * n_atoms d)%nat ->
  polar_dyn_mat erfc d junk born diel dp q b a
  = Cconj (polar_dyn_mat erfc d junk born diel dp q a b).
Proof.
  intros H1 H2 H3 Hs Ha Hb. unfold polar_dyn_mat. rewrite (interp_hermitian d junk q a b) by assumption.
  rewrite Cconj_add. f_equal.
  eapply dipole_herm; [apply dipole_init_ok|exact Hs|exact Ha|exact Hb].
Qed.

Lemma polar_periodic erfc d junk born diel dp q G a b : off_zone_face q ->
  polar_dyn_mat erfc d junk born diel dp (vadd q (zvec G)) a b
  = polar_dyn_mat erfc d junk born diel dp q a b.
Proof.
  intros H. unfold polar_dyn_mat. rewrite interp_periodic. f_equal. apply dipole_periodic. exact H.
Qed.

(** ** gamma correction *)
Definition nac_den (diel : M3) (q : V3) : R :=
  Sum idx3 (fun a => Sum idx3 (fun b => mget diel a b * comp q a * comp q b)).

Lemma nac_den_dot diel q : nac_den diel q = dot q (mulv diel q).
Proof.
  destruct diel as [[[[m00 m01] m02] [[m10 m11] m12]] [[m20 m21] m22]], q as [[x y] z].
  unfold nac_den, Sum, mget. cbn. ring.
Qed.

Lemma comp_vscal k v a : comp (vscal k v) a = k * comp v a.
Proof. destruct v as [[x y] z]. unfold vscal, comp. destruct a as [|[|a]]; ring. Qed.

Lemma recip_injective cell q : det3 cell <> 0 -> q <> vzero -> vmul q (reciprocal_cell cell) <> vzero.
Proof.
  intros Hd Hq E. apply Hq.
  rewrite <- (cell_volume_det cell) in Hd. pose proof (frac_cart_frac cell q Hd) as H.
  unfold qpt_frac_to_cart in H. rewrite E in H.
  assert (Hz : qpt_cart_to_frac cell vzero = Some vzero).
  { pose proof (frac_cart_frac cell vzero Hd) as H0. unfold qpt_frac_to_cart in H0.
    replace (vmul vzero (reciprocal_cell cell)) with vzero in H0; [exact H0|].
    destruct (reciprocal_cell cell) as [[[[? ?] ?] [[? ?] ?]] [[? ?] ?]].
    cbn. unfold vzero. apply V3_eq; ring. }
  rewrite Hz in H. injection H as H. congruence.
Qed.

Lemma gamma_correction_scale cell born diel q_dir s x y :
  det3 cell <> 0 -> positive_definite diel -> s <> 0 ->
  is_gamma q_dir = false -> is_gamma (vscal s q_dir) = false ->
  gamma_correction cell born diel (vscal s q_dir) x y
  = gamma_correction cell born diel q_dir x y.
Proof.
  intros Hd Hp Hs H1 H2. unfold gamma_correction. rewrite H1, H2. f_equal.
  rewrite !vmul_vscal. set (q := vmul q_dir (reciprocal_cell cell)).
  fold (nac_den diel (vscal s q)). fold (nac_den diel q).
  assert (Hq : q <> vzero).
  { apply recip_injective; [exact Hd|]. intros ->. rewrite is_gamma_vzero in H1. discriminate. }
  assert (Hden : nac_den diel q <> 0).
  { rewrite nac_den_dot. specialize (Hp q Hq). lra. }
  assert (E : nac_den diel (vscal s q) = s * s * nac_den diel q).
  { unfold nac_den. rewrite <- Sum_scal. apply Sum_ext. intros a _.
    rewrite <- Sum_scal. apply Sum_ext. intros b _. rewrite !comp_vscal. ring. }
  rewrite E.
  assert (Eb : forall i a, Sum idx3 (fun b => mget (born i) a b * comp (vscal s q) b)
                = s * Sum idx3 (fun b => mget (born i) a b * comp q b)).
  { intros i a. rewrite <- Sum_scal. apply Sum_ext. intros b _. rewrite comp_vscal. ring. }
  rewrite !Eb. rewrite <- (cell_volume_det cell) in Hd. field. auto.
Qed.

Lemma gamma_correction_sym cell born diel q_dir x y :
  gamma_correction cell born diel q_dir x y = gamma_correction cell born diel q_dir y x.
Proof. unfold gamma_correction. destruct (is_gamma q_dir); [reflexivity|]. f_equal. ring. Qed.

Lemma mulv_comp m v a : (a < 3)%nat -> Sum idx3 (fun b => mget m a b * comp v b) = comp (mulv m v) a.
Proof.
  destruct m as [[[[m00 m01] m02] [[m10 m11] m12]] [[m20 m21] m22]], v as [[x y] z].
  intros H. destruct a as [|[|[|a]]]; [| | |lia]; unfold Sum, mget; cbn; ring.
Qed.

Lemma gamma_correction_transverse cell born diel q_dir x y :
  (forall i, mulv (born i) (vmul q_dir (reciprocal_cell cell)) = vzero) ->
  gamma_correction cell born diel q_dir x y = Czero.
Proof.
  intros H. unfold gamma_correction. destruct (is_gamma q_dir); [reflexivity|].
  rewrite mulv_comp by (apply Nat.mod_upper_bound; lia). rewrite H.
  assert (E : forall a, comp vzero a = 0).
  { intros [|[|a]]; reflexivity. }
  rewrite E. apply C_eq; cbn; ring.
Qed.

(** ** an integer direction is silently ignored *)
Definition unit_cell3 : M3 := ((1, 0, 0), (0, 1, 0), (0, 0, 1)).

Lemma unit_recip : reciprocal_cell unit_cell3 = ((2 * PI, 0, 0), (0, 2 * PI, 0), (0, 0, 2 * PI)).
Proof.
  unfold reciprocal_cell, unit_cell3, cell_volume, cell_vectors_to_volume. cbn.
  repeat (match goal with |- (_, _) = (_, _) => f_equal end); field.
Qed.

Lemma posdef_unit : positive_definite unit_cell3.
Proof.
  intros [[x y] z] H. cbn.
  destruct (Req_EM_T x 0) as [->|]; [|nra]. destruct (Req_EM_T y 0) as [->|]; [|nra].
  destruct (Req_EM_T z 0) as [->|]; [|nra]. exfalso. apply H. reflexivity.
Qed.

Lemma int_gamma (a b c : Z) : is_gamma (IZR a, IZR b, IZR c) = true.
Proof.
  assert (E : forall n, frac_dist (IZR n) = 0).
  { intros n. unfold frac_dist, rint.
    assert (Int_part (IZR n) = n) as -> by (apply Int_part_unique; lra).
    replace (IZR n - IZR n) with 0 by ring. destruct (Rlt_dec 0 (1/2)); [|lra].
    replace (IZR n - IZR n) with 0 by ring. apply Rabs_R0. }
  unfold is_gamma. rewrite !E. apply Rltb_true. pose proof gamma_tol_pos. lra.
Qed.

Lemma half_not_gamma : is_gamma (1/2, 0, 0) = false.
Proof.
  unfold is_gamma. apply Rltb_false.
  assert (E : frac_dist (1/2) = 1/2).
  { unfold frac_dist. rewrite rint_small; rewrite Rabs_right; lra. }
  assert (0 <= frac_dist 0) by apply Rabs_pos. rewrite E.
  assert (gamma_tol <= 1/2); [|lra]. unfold gamma_tol.
  apply Rle_trans with (/ 2); [|lra]. apply Rinv_le_contravar; [lra|].
  replace 2 with (2 ^ 1) by ring. apply Rle_trans with (10 ^ 1); [simpl; lra|].
  apply Rle_pow; [lra|lia].
Qed.

Lemma nac_integer_direction :
  gamma_correction unit_cell3 (fun _ => unit_cell3) unit_cell3 (1/2, 0, 0) 0 0 = RtoC (4 * PI) /\
  gamma_correction unit_cell3 (fun _ => unit_cell3) unit_cell3 (vscal 2 (1/2, 0, 0)) 0 0 = Czero.
Proof.
  split.
  - unfold gamma_correction. rewrite half_not_gamma. f_equal.
    rewrite unit_recip. unfold cell_volume, cell_vectors_to_volume, Sum, mget, idx3. cbn.
    field. pose proof PI_RGT_0. nra.
  - unfold gamma_correction.
    replace (vscal 2 (1/2, 0, 0)) with (IZR 1, IZR 0, IZR 0) by (cbn; apply V3_eq; field).
    rewrite int_gamma. reflexivity.
Qed.

(** ** which real-space cells enter the Ewald sum *)
Lemma shell_0 : shell 0 = [(0,0,0)%Z].
Proof. reflexivity. Qed.

Lemma real_shells_0 mk n todo : 
  let m := H_amax n [mk 0%nat (0,0,0)%Z] in
  real_shells mk n (0%nat :: todo) 0
  = if Rltb (frac_tol * m) m then
      let '(cs, hs) := real_shells mk n todo m in
      ((0,0,0)%Z :: cs, mk 0%nat (0,0,0)%Z :: hs)
    else ([], []).
Proof. reflexivity. Qed.

Lemma frac_tol_range : 0 < frac_tol < 1.
Proof.
  unfold frac_tol.
  assert (H : 1 < 10 ^ 15) by (apply Rlt_pow_R1; [lra|lia]).
  assert (0 < / 10 ^ 15) by (apply Rinv_0_lt_compat; lra).
  assert (/ 10 ^ 15 * 10 ^ 15 = 1) by (apply Rinv_l; lra). nra.
Qed.

(** One atom per cell: no real-space term at all. *)
Lemma one_atom_no_cells erfc cell r born diel dp :
  dd_cells (dipole_init erfc cell [r] born diel dp) = [] /\
  dd_H (dipole_init erfc cell [r] born diel dp) = [].
Proof.
  unfold dipole_init. cbn [length]. set (mk := H_row _ _ _ _ _).
  assert (E : real_shells mk 1 (seq 0 50) 0 = ([], [])).
  { change (seq 0 50) with (0%nat :: seq 1 49). rewrite real_shells_0.
    assert (Hm : H_amax 1 [mk 0%nat (0,0,0)%Z] = 0).
    { unfold H_amax, mk, amax. cbn. rewrite Rabs_R0. unfold Rmax.
      repeat destruct (Rle_dec _ _); lra. }
    rewrite Hm. rewrite Rltb_false by lra. reflexivity. }
  rewrite E. destruct (recip_shells _ _ _ _ _ _ _). split; reflexivity.
Qed.

(** Otherwise the home cell is included as soon as any of its terms is
    non-zero. *)
Lemma amax_ge l x : In x l -> x <= amax l.
Proof.
  unfold amax. destruct l as [|y l]; [intros []|]. cbn [hd tl].
  intros [->|Hin].
  - clear. induction l as [|z l IH]; [cbn; lra|]. cbn [fold_right].
    apply Rle_trans with (1 := IH). apply Rmax_r.
  - revert Hin. generalize y. clear y. induction l as [|z l IH]; intros y Hin; [destruct Hin|].
    cbn [fold_right]. destruct Hin as [->|Hin]; [apply Rmax_l|].
    apply Rle_trans with (1 := IH y Hin). apply Rmax_r.
Qed.

Lemma sum_seq_S n s :
  fold_right Nat.add 0%nat (seq (S s) n) = (fold_right Nat.add 0%nat (seq s n) + n)%nat.
Proof.
  revert s. induction n as [|n IH]; intros s; [reflexivity|].
  cbn [seq fold_right]. rewrite (IH (S s)). lia.
Qed.
Lemma hidx_bound n i j : (i <= j < n)%nat -> (hidx n i + j < n_elems n)%nat.
Proof.
  intros H. assert (He : n_elems n = (hidx n n + n)%nat).
  { unfold n_elems. rewrite sum_seq_S. unfold hidx. rewrite Nat.sub_diag. reflexivity. }
  rewrite He. pose proof (hidx_mono n i n ltac:(lia) ltac:(lia)). lia.
Qed.

Lemma home_cell_included erfc cell atom_r born diel dp i j a b :
  (i < j)%nat -> (j < length atom_r)%nat -> (a < 3)%nat -> (b < 3)%nat ->
  H_row erfc (upper_lambda cell diel (length atom_r) dp ^ 2) cell (inv3 diel) atom_r
    0 (0,0,0)%Z (hidx (length atom_r) i + j) a b <> 0 ->
  In (0,0,0)%Z (dd_cells (dipole_init erfc cell atom_r born diel dp)).
Proof.
  intros Hij Hj Ha Hb Hne. unfold dipole_init. set (mk := H_row _ _ _ _ _) in *.
  set (n := length atom_r) in *.
  change (seq 0 50) with (0%nat :: seq 1 49). rewrite real_shells_0.
  set (m := H_amax n _).
  assert (Hm : 0 < m).
  { apply Rlt_le_trans with (Rabs (mk 0%nat (0,0,0)%Z (hidx n i + j)%nat a b)).
    - apply Rabs_pos_lt. exact Hne.
    - apply amax_ge. cbn [flat_map]. rewrite app_nil_r. apply in_flat_map.
      exists (hidx n i + j)%nat. split.
      { apply in_seq. pose proof (hidx_bound n i j ltac:(lia)). lia. }
      apply in_flat_map. exists a. split.
      { unfold idx3. cbn. lia. }
      apply in_map_iff. exists b. split; [reflexivity|unfold idx3; cbn; lia]. }
  rewrite Rltb_true by (pose proof frac_tol_range; nra).
  destruct (real_shells mk n (seq 1 49) m) as [cs hs].
  destruct (recip_shells _ _ _ _ _ _ _) as [gs acc]. left. reflexivity.
Qed.

(** Two atoms half a cell apart in a unit cube: the home-cell term is non-zero. *)
Definition pair_atoms : list V3 := [(0, 0, 0); (1/2, 0, 0)].
Lemma pair_H_nonzero erfc : (forall x, 0 <= erfc x) ->
  H_row erfc (upper_lambda unit_cell3 unit_cell3 2 1 ^ 2) unit_cell3 (inv3 unit_cell3)
    pair_atoms 0 (0,0,0)%Z (hidx 2 0 + 1) 1 1 <> 0.
Proof.
  intros Herf. change 2%nat with (length pair_atoms) at 2. rewrite H_row_val by (cbn; lia).
  set (lam := upper_lambda _ _ _ _).
  assert (Hl : 0 < lam).
  { unfold lam, upper_lambda, np_linalg_det. cbn [unit_cell3 det3 row].
    repeat apply Rmult_lt_0_compat; try apply exp_pos; try lra;
    try (apply sqrt_lt_R0; apply PI_RGT_0); apply Rinv_0_lt_compat; apply exp_pos. }
  assert (Hl2 : 0 < lam ^ 2) by (apply pow_lt; exact Hl).
  assert (Ei : inv3 unit_cell3 = unit_cell3).
  { unfold inv3, unit_cell3. cbn [det3].
    repeat (match goal with |- (_, _) = (_, _) => f_equal end); field. }
  rewrite Ei. unfold H_val. cbn [Nat.eqb andb]. unfold H_block.
  set (delta := vsub _ _). set (diff := vsub _ _).
  assert (Ed : diff = (- (1/2), 0, 0)).
  { unfold diff. cbn. apply V3_eq; field. }
  assert (Ede : delta = (- (1/2), 0, 0)).
  { unfold delta. cbn. apply V3_eq; field. }
  rewrite Ed, Ede. cbn [dot comp mget unit_cell3 row].
  change (length pair_atoms) with 2%nat.
  set (n2 := (- (1 / 2) * - (1 / 2) + 0 * 0 + 0 * 0) * lam ^ 2).
  assert (Hn : 0 < n2) by (unfold n2; nra).
  assert (0 < 2 * exp (- n2) / (sqrt PI * n2)).
  { apply Rdiv_lt_0_compat; [pose proof (exp_pos (- n2)); lra|].
    apply Rmult_lt_0_compat; [apply sqrt_lt_R0; apply PI_RGT_0|exact Hn]. }
  assert (0 <= erfc (sqrt n2) / (sqrt n2 * n2)).
  { apply Rmult_le_pos; [apply Herf|]. left. apply Rinv_0_lt_compat.
    apply Rmult_lt_0_compat; [apply sqrt_lt_R0; exact Hn|exact Hn]. }
  intros E. nra.
Qed.
