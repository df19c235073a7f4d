(** Specification vocabulary for C42-C44. *)
From Coq Require Import String.
From Verif Require Import Base Vec3 M_grid M_cell M_qpts M_dynmat S_dynmat.
Open Scope R_scope.

(** Positions u and v (fractional) are closer than tol modulo a lattice vector. *)
Definition near_mod_lattice (cell : M3) (tol : R) (u v : V3) : Prop :=
  exists n : Z3, norm (vmul (vsub (vsub u v) (zvec n)) cell) < tol.

(** tol is at most half of every distance between adjacent lattice planes:
    such a tolerance cannot confuse different lattice translations. *)
Definition small_tolerance (cell : M3) (tol : R) : Prop :=
  forall i, (i < 3)%nat -> tol * norm (row (reciprocal_cell cell) i) <= PI.

(** k is the first index below n with property P. *)
Definition first_index (n : nat) (P : nat -> Prop) (k : nat) : Prop :=
  (k < n)%nat /\ P k /\ forall k', (k' < k)%nat -> ~ P k'.

(** Cell (integer lattice vector) in which supercell atom s sits. *)
Definition cell_of (atom_r sc_atom_r : list V3) (sc_to_uc : list nat) (s : nat) : Z3 :=
  let '(x, y, z) := vsub (nth s sc_atom_r vzero) (nth (nth s sc_to_uc 0%nat) atom_r vzero) in
  (M_qpts.rint x, M_qpts.rint y, M_qpts.rint z).

(** The copies of one unit-cell atom are in different cells of the supercell. *)
Definition distinct_copies (sc : Z3 * Z3 * Z3) (atom_r sc_atom_r : list V3) (sc_to_uc : list nat) : Prop :=
  forall s s', (s < length sc_to_uc)%nat -> (s' < length sc_to_uc)%nat ->
    nth s sc_to_uc 0%nat = nth s' sc_to_uc 0%nat ->
    S_dynmat.same_mod_supercell sc (cell_of atom_r sc_atom_r sc_to_uc s) (cell_of atom_r sc_atom_r sc_to_uc s') -> s = s'.
