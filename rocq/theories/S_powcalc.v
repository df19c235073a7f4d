(** Words for euphonic-powder-map from force constants (C99). *)
From Verif Require S_unique.
From Verif Require Import Base Cpx Vec3 M_dos M_grid M_qpts M_dynmat M_calc S_qpts S_calc.
Open Scope R_scope.

(** [e] is a table of the crystal's modes at the q-points qs, each counting the same: the modes
    of the whole dynamical matrix of C65, at a gamma point in the direction in which the list
    comes to it. *)
Definition crystal_modes (erfc : R -> R) (d : fcdata) (mass : nat -> R) (born : option (nat -> M3)) (diel : M3) (param : R)
  (L : nat -> nat -> nat -> list Z3) (qs : list V3) (e : etable) : Prop :=
  M_dos.n_atoms e = M_dynmat.n_atoms d /\ nm (et e) = (3 * M_dynmat.n_atoms d)%nat /\ nq (et e) = length qs /\
  forall j, (j < length qs)%nat -> let q := nth j qs vzero in wt (et e) j = 1 / INR (length qs) /\
    modes_of (3 * M_dynmat.n_atoms d) mass
      (whole_matrix erfc d born diel true param L (if is_gamma q then vzero else q) (if is_gamma q then Some (approach qs j) else None)) (S_unique.modes_at e j).
(** f is the largest of the n values g 0, g 1, ... *)
Definition largest (n : nat) (g : nat -> R) (f : R) : Prop := (exists m, (m < n)%nat /\ g m = f) /\ forall m, (m < n)%nat -> g m <= f.
