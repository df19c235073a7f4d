(** Specification vocabulary for the polar (dipole) properties C06, C09. *)
From Verif Require Import Base Cpx Vec3 M_dynmat M_dipole.
Open Scope R_scope.

(** Symmetric tensor. *)
Definition symmetric3 (m : M3) : Prop := transpose m = m.

(** Positive-definite tensor. *)
Definition positive_definite (m : M3) : Prop :=
  forall v : V3, v <> vzero -> 0 < dot v (mulv m v).

(** No component of q is a half-odd-integer (the only points where rounding to
    the nearest integer has a choice). *)
Definition off_zone_face (q : V3) : Prop :=
  let '(x, y, z) := q in
  forall m : Z, x <> IZR m + 1/2 /\ y <> IZR m + 1/2 /\ z <> IZR m + 1/2.

(** The matrix that calculate_qpoint_phonon_modes builds for a polar crystal
    (dipole=True, asr=None) away from gamma: short-range sum plus dipole
    correction. *)
Definition polar_dyn_mat (erfc : R -> R) (d : fcdata) (junk : nat -> nat -> nat -> R)
  (born : nat -> M3) (diel : M3) (dipole_parameter : R) (q : V3) (a b : nat) : C :=
  Cadd (interp_dyn_mat d junk q a b)
       (dipole_correction (f_cell d) (f_atom_r d) born diel
          (dipole_init erfc (f_cell d) (f_atom_r d) born diel dipole_parameter) q a b).
