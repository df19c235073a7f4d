(** Specification vocabulary for C12. *)
From Verif Require Import Base Cpx Vec3 M_grid M_cell M_qpts M_dynmat M_dipole M_cext M_omp.
Open Scope R_scope.

(** The diagonaliser depends only on the N x N matrix it is handed. *)
Definition reads_square (eigh : nat -> (nat -> nat -> C) -> (nat -> R) * (nat -> nat -> C)) : Prop :=
  forall N H H', (forall r c, (r < N)%nat -> (c < N)%nat -> H r c = H' r c) -> eigh N H = eigh N H'.

(** Polar material data and the Ewald tables Euphonic computes from it. *)
Definition dip_inputs (erfc : R -> R) (d : fcdata) (polar : option ((nat -> M3) * M3 * R)) : option dipin :=
  option_map (fun p => let '(born, diel, dp) := p in
    mkDipin born diel (dipole_init erfc (f_cell d) (f_atom_r d) born diel dp)) polar.

(** Complex number number k in an interleaved array. *)
Definition entry (m : mem) (k : nat) : C := mkC (m (2 * k)%nat) (m (2 * k + 1)%nat).
