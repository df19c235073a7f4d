(** Words used to state what reordering of modes promises. *)
From Verif Require Import Base Cpx M_dos.
Open Scope R_scope.

(** The branches of table e' at q-point q are those of e in another order: frequency and
    eigenvector together, none lost, none twice. *)
Definition reordered (e e' : etable) (q : nat) : Prop :=
  exists perm : list nat, Permutation perm (seq 0 (3 * n_atoms e)) /\
    forall b, (b < 3 * n_atoms e)%nat -> freq (et e') q b = freq (et e) q (nth b perm 0%nat) /\
      forall a l, evec e' q b a l = evec e q (nth b perm 0%nat) a l.

(** Inner product of two modes and orthonormal sets of modes. *)
Definition inner (n_atoms : nat) (u v : nat -> nat -> C) : C :=
  Csum (seq 0 n_atoms) (fun a => Csum (seq 0 3) (fun l => Cmul (Cconj (u a l)) (v a l))).
Definition orthonormal (n_atoms : nat) (ev : nat -> nat -> nat -> C) : Prop :=
  forall m m', (m < 3 * n_atoms)%nat -> (m' < 3 * n_atoms)%nat ->
    inner n_atoms (ev m) (ev m') = if Nat.eqb m m' then RtoC 1 else RtoC 0.

(** However equally many modes are struck out on both sides, some two remaining modes
    overlap. *)
Definition always_overlap (n_atoms : nat) (prev cur : nat -> nat -> nat -> C) : Prop :=
  forall rows cols : list nat, NoDup rows -> NoDup cols -> length rows = length cols -> (length rows < 3 * n_atoms)%nat ->
    exists m p, (m < 3 * n_atoms)%nat /\ (p < 3 * n_atoms)%nat /\ ~ In m rows /\ ~ In p cols /\
      inner n_atoms (prev p) (cur m) <> RtoC 0.

(** Every mode of the first set has a mode of the second overlapping it by more than a
    half (in modulus squared). *)
Definition partnered (n_atoms : nat) (prev cur : nat -> nat -> nat -> C) : Prop :=
  forall p, (p < 3 * n_atoms)%nat -> exists m, (m < 3 * n_atoms)%nat /\ 1 / 2 < Cnorm2 (inner n_atoms (prev p) (cur m)).
