(** Words for the acoustic modes at gamma (C90). *)
From Verif Require Import Base Cpx Vec3 M_grid M_dynmat M_dipole M_calc.
Open Scope R_scope.

(** The mode leaves the centre of mass of the cell where it is: the displacement of atom k is its
    part of the eigenvector over the root of its mass, and so its mass times its displacement is
    the root of its mass times its part of the eigenvector. *)
Definition centre_at_rest (n : nat) (mass : nat -> R) (e : nat -> C) : Prop :=
  forall x, (x < 3)%nat -> Csum (seq 0 n) (fun k => Cscal (sqrt (mass k)) (e (3 * k + x)%nat)) = Czero.
(** At least three modes have frequency zero, and every other one leaves the centre of mass at rest. *)
Definition acoustic_modes (n : nat) (mass : nat -> R) (md : modes) : Prop :=
  (exists l, NoDup l /\ length l = 3%nat /\ forall m, In m l -> (m < 3 * n)%nat /\ m_freq md m = 0) /\
  forall m, (m < 3 * n)%nat -> m_freq md m <> 0 -> centre_at_rest n mass (m_evec md m).
(** The Born charges of the cell add up to nothing. *)
Definition neutral (n : nat) (born : nat -> M3) : Prop :=
  forall a b, (a < 3)%nat -> (b < 3)%nat -> sumn n (fun j => mget (born j) a b) = 0.
(** A matrix of 3n by 3n gives no force when all atoms move together. *)
Definition no_net_force (n : nat) (D : nat -> nat -> C) : Prop :=
  forall a x, (a < 3 * n)%nat -> (x < 3)%nat -> Csum (seq 0 n) (fun k => D a (3 * k + x)%nat) = Czero.
(** The force on each atom when all atoms move together depends in the same way on the direction
    of the move and of the force: it is so for atoms on sites of high symmetry. *)
Definition balanced (n : nat) (D : nat -> nat -> C) : Prop :=
  forall i a b, (i < n)%nat -> (a < 3)%nat -> (b < 3)%nat ->
    Csum (seq 0 n) (fun k => D (3 * i + a) (3 * k + b))%nat = Csum (seq 0 n) (fun k => D (3 * i + b) (3 * k + a))%nat.
