(** Properties C01, C03, C13, C49: cell geometry and determinants. *)
From Verif Require Import Base Vec3 M_cell L_cell.

(** C01.  a_i . b_j = 2 pi delta_ij for every non-degenerate cell, of either
    handedness ([cell_volume] is signed). *)
Theorem C01_reciprocal_cell_dual : forall cv : M3, det3 cv <> 0 ->
  forall i j, (i < 3)%nat -> (j < 3)%nat ->
  dot (row cv i) (row (reciprocal_cell cv) j) = if Nat.eqb i j then 2 * PI else 0.
Proof. exact reciprocal_dual. Qed.
Print Assumptions C01_reciprocal_cell_dual.

(** C01.  The reported volume is the determinant of the cell matrix, and the
    reciprocal cell has volume (2 pi)^3 / V. *)
Theorem C01_cell_volume : forall cv : M3, cell_volume cv = det3 cv.
Proof. exact cell_volume_det. Qed.
Print Assumptions C01_cell_volume.

Theorem C01_reciprocal_volume : forall cv : M3, cell_volume cv <> 0 ->
  cell_volume (reciprocal_cell cv) = (2 * PI) ^ 3 / cell_volume cv.
Proof. exact reciprocal_volume. Qed.
Print Assumptions C01_reciprocal_volume.

(** C01.  Fractional -> Cartesian -> fractional is the identity, and so is
    Cartesian -> fractional -> Cartesian; the solve never fails. *)
Theorem C01_frac_cart_roundtrip : forall cv q, cell_volume cv <> 0 ->
  qpt_cart_to_frac cv (qpt_frac_to_cart cv q) = Some q.
Proof. exact frac_cart_frac. Qed.
Print Assumptions C01_frac_cart_roundtrip.

Theorem C01_cart_frac_roundtrip : forall cv q, cell_volume cv <> 0 ->
  exists f, qpt_cart_to_frac cv q = Some f /\ qpt_frac_to_cart cv f = q.
Proof. exact cart_frac_cart. Qed.
Print Assumptions C01_cart_frac_roundtrip.

(** A skewed, left-handed cell meets the hypotheses. *)
Example C01_nonvacuous :
  let cv := ((1, 0, 0), (1/2, 0, 2), (1/3, 3, 1)) : M3 in
  cell_volume cv < 0 /\ det3 cv <> 0.
Proof.
  unfold cell_volume, cell_vectors_to_volume, row, cross, dot, det3; lra.
Qed.

(** C03.  The suggested divisions are positive, meet the requested spacing,
    and are the smallest that do. *)
Theorem C03_mp_grid_spec : forall cv spacing, cell_volume cv <> 0 -> 0 < spacing ->
  exists n0 n1 n2, get_mp_grid_spec cv spacing = Some (n0, n1, n2) /\
    forall i n, nth_error [n0; n1; n2] i = Some n ->
      (0 < n)%Z /\
      norm (row (reciprocal_cell cv) i) / IZR n <= spacing /\
      (forall m : Z, (0 < m)%Z ->
         norm (row (reciprocal_cell cv) i) / IZR m <= spacing -> (n <= m)%Z).
Proof. exact mp_grid_spec_ok. Qed.
Print Assumptions C03_mp_grid_spec.

Example C03_nonvacuous :
  let cv := ((2, 0, 0), (0, 3, 0), (0, 1, 5)) : M3 in cell_volume cv <> 0 /\ 0 < 1/10.
Proof. unfold cell_volume, cell_vectors_to_volume, row, cross, dot; lra. Qed.

(** C13.  The determinant used by the C extension exceeds the true one by
    twice the (0,1) cofactor term, so the two agree exactly when that term
    vanishes (for instance for diagonal tensors) ... *)
Theorem C13_c_determinant_difference : forall m : M3,
  c_det_array m = np_linalg_det m + 2 * (comp (row m 0) 1 *
    (comp (row m 1) 0 * comp (row m 2) 2 - comp (row m 2) 0 * comp (row m 1) 2)).
Proof. exact c_det_difference. Qed.
Print Assumptions C13_c_determinant_difference.

(** ... and C13 is false: a symmetric positive-definite dielectric tensor for
    which C and Python use different determinants. *)
Theorem C13_c_determinant_refuted : exists m : M3,
  transpose m = m /\ (forall v, v <> vzero -> 0 < dot v (mulv m v)) /\
  np_linalg_det m = 3 /\ c_det_array m = 5.
Proof. exact c_det_witness. Qed.
Print Assumptions C13_c_determinant_refuted.

(** C49.  For a right-handed cell the widths are non-negative and equal
    2 |grad| / (n_qpts V)^(1/3) (stated without cube roots). *)
Theorem C49_mode_widths_partial : forall nq cv g,
  (0 < nq)%nat -> 0 < cell_volume cv ->
  0 <= mode_width nq cv g /\
  (mode_width nq cv g) ^ 3 * (INR nq * cell_volume cv) = 8 * norm g ^ 3.
Proof. exact mode_width_right_handed. Qed.
Print Assumptions C49_mode_widths_partial.

(** C49 is false for left-handed cells: every non-zero gradient gives a
    negative width. *)
Theorem C49_mode_widths_left_handed_refuted : forall nq cv g,
  (0 < nq)%nat -> cell_volume cv < 0 -> 0 < norm g -> mode_width nq cv g < 0.
Proof. exact mode_width_left_handed. Qed.
Print Assumptions C49_mode_widths_left_handed_refuted.

Example C49_nonvacuous :
  0 < cell_volume ((1,0,0), (0,1,0), (0,0,1)) /\ cell_volume ((0,1,0), (1,0,0), (0,0,1)) < 0
  /\ 0 < norm (1, 0, 0).
Proof.
  unfold cell_volume, cell_vectors_to_volume, row, cross, norm, dot.
  repeat split; try lra. apply sqrt_lt_R0. lra.
Qed.
