(** Specification vocabulary for C40, C41, C50, C54, C55. *)
From Coq Require Import String.
From Verif Require Import Base Vec3 M_grid M_dynmat.
Open Scope R_scope.

(** Total absolute difference of two triples. *)
Definition taxi (u v : V3) : R :=
  let '(x, y, z) := u in let '(a, b, c) := v in Rabs (x - a) + Rabs (y - b) + Rabs (z - c).

(** A step between neighbouring q-points that is a reciprocal lattice vector
    (to 0.001), but not a zero step. *)
Definition lattice_jump (d : V3) : Prop :=
  1 / 1000 < taxi d vzero /\ exists n : Z3, taxi d (zvec n) < 1 / 1000.

(** Coordinates of u and v agree within tol modulo integers. *)
Definition same_mod_integers (tol : R) (u v : V3) : Prop :=
  exists n : Z3, let '(x, y, z) := vsub (vsub u v) (zvec n) in
    Rabs x <= tol /\ Rabs y <= tol /\ Rabs z <= tol.

(** Position t carries the label GAMMA and is neither first nor last. *)
Definition interior_gamma_label (labels : list string) (t : nat) : bool :=
  ((0 <? t)%nat && (t <? length labels - 1)%nat && String.eqb (nth t labels ""%string) "GAMMA")%bool.

(** Position, after every interior GAMMA has been doubled, of the first copy
    of the point that was at position t. *)
Definition shifted (labels : list string) (t : nat) : nat :=
  (t + length (filter (interior_gamma_label labels) (seq 0 t)))%nat.
