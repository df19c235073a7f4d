(** Property theorems C06 (polar crystals), C09, C53. *)
From Verif Require Import Base Cpx Vec3 M_grid M_cell M_qpts M_dynmat M_dipole S_dynmat S_dipole
  L_dipole L_nac L_chain L_zone.
Open Scope R_scope.

(** C06 with the dipole correction: D(-q) is the complex conjugate of D(q). *)
Theorem C06_polar_time_reversal : forall erfc d junk born diel dp q a b,
  (a < 3 * n_atoms d)%nat -> (b < 3 * n_atoms d)%nat ->
  polar_dyn_mat erfc d junk born diel dp (vopp q) a b
  = Cconj (polar_dyn_mat erfc d junk born diel dp q a b).
Proof. exact polar_time_reversal. Qed.
Print Assumptions C06_polar_time_reversal.

(** C06 with the dipole correction: Hermitian. *)
Theorem C06_polar_hermitian : forall erfc d junk born diel dp q a b,
  home_first d -> search_complete d -> fc_symmetric d -> symmetric3 diel ->
  (a < 3 * n_atoms d)%nat -> (b < 3 * n_atoms d)%nat ->
  polar_dyn_mat erfc d junk born diel dp q b a
  = Cconj (polar_dyn_mat erfc d junk born diel dp q a b).
Proof. exact polar_hermitian. Qed.
Print Assumptions C06_polar_hermitian.

(** C06 with the dipole correction: D(q+G) = D(q), except possibly where a
    component of q is a half-odd-integer.  There np.rint may send q and q+G to
    opposite zone faces and the truncated Ewald sums of the two differ. *)
Theorem C06_polar_periodic_partial : forall erfc d junk born diel dp q (G : Z3) a b,
  off_zone_face q ->
  polar_dyn_mat erfc d junk born diel dp (vadd q (zvec G)) a b
  = polar_dyn_mat erfc d junk born diel dp q a b.
Proof. exact polar_periodic. Qed.
Print Assumptions C06_polar_periodic_partial.

(** C06, refuted at half-odd-integers: two atoms of opposite charge, half a unit cubic cell
    apart.  Whatever the force constants, the matrices at (1/2, 0, 0) and (3/2, 0, 0) differ. *)
Theorem C06_zone_face_refuted : forall erfc sc origins fc junk z dp, z <> 0 -> dp <> 0 ->
  let d := mkFC unit_cell3 [(0, 0, 0); (1/2, 0, 0)] sc origins fc in
  let born := fun i : nat => match i with O => ((z, 0, 0), (0, z, 0), (0, 0, z)) | _ => ((- z, 0, 0), (0, - z, 0), (0, 0, - z)) end in
  polar_dyn_mat erfc d junk born unit_cell3 dp (vadd (1/2, 0, 0) (zvec (1, 0, 0)%Z)) 0 3
  <> polar_dyn_mat erfc d junk born unit_cell3 dp (1/2, 0, 0) 0 3.
Proof. exact zone_face'. Qed.
Print Assumptions C06_zone_face_refuted.

Example C06_polar_example : forall k0 k1,
  home_first (chain k0 k1) /\ search_complete (chain k0 k1) /\ fc_symmetric (chain k0 k1) /\
  symmetric3 ((2, 1, 0), (1, 3, 0), (0, 0, 4)) /\ off_zone_face (1/4, 0, 1/3).
Proof.
  intros. split; [reflexivity|]. split; [apply chain_complete|]. split; [apply chain_sym|].
  split; [reflexivity|]. intros m.
  assert (H : forall x, 2 * x <> IZR (2 * m + 1) -> x <> IZR m + 1/2).
  { intros x Hx E. apply Hx. rewrite plus_IZR, mult_IZR, E. field. }
  assert (Hz : forall k : Z, 0 = IZR k -> k = 0%Z).
  { intros k E. symmetry. apply eq_IZR. exact E. }
  split; [|split]; apply H; intros E.
  - assert (E' : 1 = IZR (2 * (2 * m + 1))) by (rewrite mult_IZR, <- E; field).
    apply eq_IZR in E'. lia.
  - assert (E' : 0 = IZR (2 * m + 1)) by (rewrite <- E; field). apply eq_IZR in E'. lia.
  - assert (E' : 2 = IZR (3 * (2 * m + 1))) by (rewrite mult_IZR, <- E; field).
    apply eq_IZR in E'. lia.
Qed.

(** C09: unchanged by scaling the direction, unless one of the two vectors has
    all-integer components (see the refutation below). *)
Theorem C09_direction_only_partial : forall cell born diel q_dir s x y,
  det3 cell <> 0 -> positive_definite diel -> s <> 0 ->
  is_gamma q_dir = false -> is_gamma (vscal s q_dir) = false ->
  gamma_correction cell born diel (vscal s q_dir) x y
  = gamma_correction cell born diel q_dir x y.
Proof. exact gamma_correction_scale. Qed.
Print Assumptions C09_direction_only_partial.

(** C09 is false for directions with integer components: (1,0,0) and (1/2,0,0)
    are the same direction, but the correction is applied only for the second. *)
Theorem C09_integer_direction_refuted : exists cell born diel q_dir s,
  det3 cell <> 0 /\ positive_definite diel /\ s <> 0 /\
  gamma_correction cell born diel q_dir 0 0 = RtoC (4 * PI) /\
  gamma_correction cell born diel (vscal s q_dir) 0 0 = Czero.
Proof.
  exists unit_cell3, (fun _ => unit_cell3), unit_cell3, (1/2, 0, 0), 2.
  split; [cbn; lra|]. split; [exact posdef_unit|]. split; [lra|]. exact nac_integer_direction.
Qed.
Print Assumptions C09_integer_direction_refuted.

Example C09_example : det3 unit_cell3 <> 0 /\ positive_definite unit_cell3 /\
  is_gamma (1/2, 0, 0) = false /\ is_gamma (vscal (-1) (1/2, 0, 0)) = false.
Proof.
  split; [cbn; lra|]. split; [exact posdef_unit|]. split; [exact half_not_gamma|].
  pose proof half_not_gamma as H. rewrite <- is_gamma_opp in H. exact H.
Qed.

(** C09: symmetric in the joint (atom, direction) index. *)
Theorem C09_symmetric : forall cell born diel q_dir x y,
  gamma_correction cell born diel q_dir x y = gamma_correction cell born diel q_dir y x.
Proof. exact gamma_correction_sym. Qed.
Print Assumptions C09_symmetric.

(** C09: zero when every Born charge tensor annihilates the direction. *)
Theorem C09_transverse : forall cell born diel q_dir x y,
  (forall i, mulv (born i) (vmul q_dir (reciprocal_cell cell)) = vzero) ->
  gamma_correction cell born diel q_dir x y = Czero.
Proof. exact gamma_correction_transverse. Qed.
Print Assumptions C09_transverse.

Example C09_transverse_example :
  mulv ((0, 1, 0), (0, 0, 2), (0, 3, 0)) (vmul (1/2, 0, 0) (reciprocal_cell unit_cell3)) = vzero.
Proof. rewrite unit_recip. cbn. unfold vzero. apply V3_eq; ring. Qed.

(** C53: the real-space Ewald sum contains the home cell as soon as one of its
    pair terms is non-zero ... *)
Theorem C53_home_cell_included : forall erfc cell atom_r born diel dp i j a b,
  (i < j)%nat -> (j < length atom_r)%nat -> (a < 3)%nat -> (b < 3)%nat ->
  H_row erfc (upper_lambda cell diel (length atom_r) dp ^ 2) cell (inv3 diel) atom_r
    0 (0,0,0)%Z (hidx (length atom_r) i + j) a b <> 0 ->
  In (0,0,0)%Z (dd_cells (dipole_init erfc cell atom_r born diel dp)).
Proof. exact home_cell_included. Qed.
Print Assumptions C53_home_cell_included.

Example C53_example : forall erfc, (forall x, 0 <= erfc x) ->
  In (0,0,0)%Z (dd_cells (dipole_init erfc unit_cell3 pair_atoms (fun _ => unit_cell3) unit_cell3 1)).
Proof.
  intros erfc H. apply (home_cell_included _ _ _ _ _ _ 0 1 1 1); try (cbn; lia).
  exact (pair_H_nonzero erfc H).
Qed.

(** ... but with one atom per cell there is no real-space term at all, whatever
    the cell, charges, dielectric tensor and dipole_parameter: the first shell
    is skipped (i = j), its maximum is 0, and the loop stops at once. *)
Theorem C53_one_atom_refuted : forall erfc cell r born diel dp,
  dd_cells (dipole_init erfc cell [r] born diel dp) = [] /\
  dd_H (dipole_init erfc cell [r] born diel dp) = [].
Proof. exact one_atom_no_cells. Qed.
Print Assumptions C53_one_atom_refuted.
