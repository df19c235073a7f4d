(** Model of ForceConstants.from_total_fc_with_dipole: /repo/euphonic/force_constants.py 1725-1802.
    Quantities are in atomic units except the dielectric tensor: the code takes its bare
    magnitude, whatever its unit (lines 1790, 1793), so the argument is that magnitude.  The
    conversions of the force constants to hartree/bohr**2 and back (1797-1799) and of the Born
    charges to e (1787) are exact and left out. *)
From Verif Require Import Base Cpx Vec3 M_grid M_cell M_qpts M_dynmat M_dipole.
Open Scope R_scope.

(** 1778-1781: row c*n_atoms + j is cell_origins[c] + atom_r[j], times the transpose of the
    inverse of sc_matrix. *)
Definition sc_to_u_matrix (d : fcdata) : M3 := transpose (inv3 (zrows (f_sc d))).
Definition sc_atom_r (d : fcdata) : list V3 :=
  flat_map (fun o => map (fun r => vmul (vadd (zvec o) r) (sc_to_u_matrix d)) (f_atom_r d)) (f_origins d).
(** 1787: np.tile(born, (n_cells, 1, 1)) *)
Definition sc_born (d : fcdata) (born : nat -> M3) (i : nat) : M3 := born (i mod n_atoms d)%nat.
(** 1789-1793: the dipole correction of the supercell at gamma; the default dipole_parameter is 1. *)
Definition sc_dipole (erfc : R -> R) (d : fcdata) (born : nat -> M3) (diel : M3) : nat -> nat -> C :=
  let b := sc_born d born in
  dipole_correction (sc_vecs d) (sc_atom_r d) b diel (dipole_init erfc (sc_vecs d) (sc_atom_r d) b diel 1) vzero.
(** 1794-1799: corr[:, :3n] as (n_cells, 3n, 3n), last two axes exchanged, real part subtracted. *)
Definition from_total_fc (erfc : R -> R) (d : fcdata) (born : nat -> M3) (diel : M3) (c a b : nat) : R :=
  f_fc d c a b - re (sc_dipole erfc d born diel (c * (3 * n_atoms d) + b)%nat a).
