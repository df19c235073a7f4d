(** Specification vocabulary for C51. *)
From Verif Require Import Base Cpx Vec3 M_grid M_dynmat M_dipole S_dynmat.
Open Scope R_scope.

(** [l] lists the fractional coordinates, in the supercell, of every atom of every cell. *)
Definition supercell_atoms (d : fcdata) (l : list V3) : Prop :=
  length l = (n_cells d * n_atoms d)%nat /\
  forall c j, (c < n_cells d)%nat -> (j < n_atoms d)%nat ->
    vmul (nth (c * n_atoms d + j) l vzero) (sc_vecs d) = atom_pos d (nth c (f_origins d) (0,0,0)%Z) j.
(** The Ewald dipole matrix at gamma of the crystal with cell [cell], atoms [l] (fractional
    coordinates), Born charges [born] and dielectric tensor [diel], with its default splitting. *)
Definition dipole_gamma (erfc : R -> R) (cell : M3) (l : list V3) (born : nat -> M3) (diel : M3) (x y : nat) : C :=
  dipole_correction cell l born diel (dipole_init erfc cell l born diel 1) vzero x y.
(** Multiplying a tensor by a number (a change of unit). *)
Definition times (s : R) (m : M3) : M3 := let '(a, b, c) := m in (vscal s a, vscal s b, vscal s c).
