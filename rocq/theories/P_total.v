(** C51: force constants that include the dipole part (from_total_fc_with_dipole). *)
From Verif Require Import Base Cpx Vec3 M_grid M_cell M_qpts M_dynmat M_dipole S_dynmat S_dipole M_struct M_asr M_total S_total L_nac L_conv L_asr4 L_asr6 L_total L_total2 L_total3.
From Verif Require Import L_dynmat2.
Open Scope R_scope.

(** What is subtracted, for a symmetric supercell matrix and a dielectric tensor in atomic
    units: the force constant between coordinate a of the home cell and coordinate b of cell c
    is the result plus the corresponding element of the gamma-point dipole matrix of the
    supercell, with every atom of every cell at its place and with the Born charge of its kind.
    That matrix is real, so nothing is lost in taking the real part.
    Partial: the supercell matrix must be symmetric ([C51_skewed_refuted]) and the dielectric in
    atomic units ([C51_dielectric_unit_refuted]); that the gamma-point matrix of a supercell of
    several cells, folded, is the unit-cell matrix at the commensurate q-points is an identity of
    the full Ewald sums that the code's truncated sums meet only approximately. *)
Theorem C51_subtracts_partial : forall erfc d born diel,
  det3 (zrows (f_sc d)) <> 0 -> symmetric3 (zrows (f_sc d)) -> symmetric3 diel ->
  exists l, supercell_atoms d l /\
    forall c a b, (c < n_cells d)%nat -> (a < 3 * n_atoms d)%nat -> (b < 3 * n_atoms d)%nat ->
      f_fc d c a b = from_total_fc erfc d born diel c a b + re (dipole_gamma erfc (sc_vecs d) l (fun i => born (i mod n_atoms d)%nat) diel a (c * (3 * n_atoms d) + b)) /\
      im (dipole_gamma erfc (sc_vecs d) l (fun i => born (i mod n_atoms d)%nat) diel a (c * (3 * n_atoms d) + b)) = 0.
Proof. exact subtracts. Qed.
Print Assumptions C51_subtracts_partial.

(** A supercell of one cell: the matrix interpolated at gamma from the result, dipole part
    included, is exactly the matrix of the total force constants given. *)
Theorem C51_one_cell_round_trip_partial : forall erfc d junk born diel a b,
  f_sc d = ((1,0,0),(0,1,0),(0,0,1))%Z -> f_origins d = [(0,0,0)%Z] -> symmetric3 diel ->
  search_complete d -> (a < 3 * n_atoms d)%nat -> (b < 3 * n_atoms d)%nat ->
  polar_dyn_mat erfc (with_fc d (from_total_fc erfc d born diel)) junk born diel 1 vzero a b = RtoC (f_fc d 0 a b).
Proof. exact one_cell_back. Qed.
Print Assumptions C51_one_cell_round_trip_partial.

(** The hypotheses of both hold for two atoms in a cube; those of the first also for two cells
    in a row. *)
Example C51_case : f_sc one_cell = ((1,0,0),(0,1,0),(0,0,1))%Z /\ f_origins one_cell = [(0,0,0)%Z] /\ symmetric3 unit_cell3 /\
  search_complete one_cell /\ (2 < 3 * n_atoms one_cell)%nat /\
  forall k, det3 (zrows (f_sc (einstein k))) <> 0 /\ symmetric3 (zrows (f_sc (einstein k))) /\ n_cells (einstein k) = 2%nat.
Proof. split; [reflexivity|]. split; [reflexivity|]. split; [reflexivity|]. split; [exact (orth_complete one_cell one_cell_home one_cell_orthogonal one_cell_inside)|]. split; [cbn; lia|]. intros k. split; [cbn; lra|]. split; reflexivity. Qed.

(** The dielectric tensor given in another unit.  If one of that unit is s atomic units, the
    part subtracted is s times what it should be... *)
Theorem C51_dielectric_unit_scales : forall erfc d born magnitude s c a b, 0 < s -> 0 < det3 magnitude ->
  f_fc d c a b - from_total_fc erfc d born magnitude c a b
  = s * (f_fc d c a b - from_total_fc erfc d born (times s magnitude) c a b).
Proof. exact unit_scale. Qed.
Print Assumptions C51_dielectric_unit_scales.

(** ... so the same physical tensor gives different force constants in any unit but the atomic
    one: two atoms an eighth apart in a unit cube, whatever their force constants are. *)
Theorem C51_dielectric_unit_refuted : exists cell atoms born diel, forall erfc fc s, 0 < s -> s <> 1 ->
  let d := mkFC cell atoms ((1,0,0),(0,1,0),(0,0,1))%Z [(0,0,0)%Z] fc in
  exists a b, (a < 3 * n_atoms d)%nat /\ (b < 3 * n_atoms d)%nat /\
    from_total_fc erfc d born (times (/ s) diel) 0 a b <> from_total_fc erfc d born diel 0 a b.
Proof.
  exists unit_cell3, close_atoms, (fun _ => unit_cell3), unit_cell3. intros erfc fc s S N d. destruct (close_unit erfc fc s S N) as (a & A & E). exists a, (3 + a)%nat. split; [cbn; lia|]. split; [cbn; lia|]. exact E.
Qed.
Print Assumptions C51_dielectric_unit_refuted.

(** A supercell matrix that is not symmetric.  The two cells are different cells of the
    supercell, yet the coordinates their atoms are given differ by a whole supercell vector, so
    the Ewald sum is taken over two atoms on the same site (and divides by zero). *)
Theorem C51_skewed_refuted : forall fc,
  let d := mkFC ((1,0,0),(0,1,0),(0,0,1)) [vzero] ((1,0,0),(1,2,0),(0,0,1))%Z [(0,0,0)%Z; (1,1,0)%Z] fc in
  det3 (zrows (f_sc d)) <> 0 /\ home_first d /\ ~ same_mod_supercell (f_sc d) (0,0,0)%Z (1,1,0)%Z /\
  sc_atom_r d = [(0,0,0); (1,0,0)] /\ ~ supercell_atoms d (sc_atom_r d).
Proof. exact slanted_coincide. Qed.
Print Assumptions C51_skewed_refuted.
