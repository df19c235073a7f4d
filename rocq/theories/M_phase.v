(** Model of convert_eigenvector_phases, /repo/euphonic/readers/phonopy.py 317-338.
    Arrays are functions of their indices; reshapes are the row-major index arithmetic. *)
From Verif Require Import Base Cpx Vec3.
Open Scope R_scope.

Section Convert.
Variables (atom_r : nat -> V3) (qpts : nat -> V3).
(** phonon_dict['eigenvectors'], seen as (n_qpts, 3*n_atoms, 3*n_atoms) *)
Variable eigenvectors : nat -> nat -> nat -> C.

(** 331-332: np.reshape(..., (n_qpts, n_atoms, 3, n_atoms, 3)) *)
Definition eigvecs5 (i j k l m : nat) : C := eigenvectors i (3 * j + k)%nat (3 * l + m)%nat.
(** 334 *)
Definition rk_diff (j k : nat) : V3 := vsub (atom_r j) (atom_r k).
(** 335: np.exp(-2j*np.pi*einsum('il,jkl->ijk', qpts, rk_diff)) *)
Definition conversion (i j k : nat) : C := cis (- (2 * PI * dot (qpts i) (rk_diff j k))).
(** 336: einsum('ijklm,ijl->ijklm', eigvecs, conversion) *)
Definition converted5 (i j k l m : nat) : C := Cmul (eigvecs5 i j k l m) (conversion i j l).
(** 337: reshape to (n_qpts, 3*n_atoms, n_atoms, 3) *)
Definition convert_eigenvector_phases (i band a x : nat) : C := converted5 i (band / 3) (band mod 3) a x.
End Convert.
