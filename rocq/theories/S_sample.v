(** Words for sampling (C38, C39, C60). *)
From Coq Require Import String.
From Verif Require Import Base Vec3.
Open Scope R_scope.

(** np.random.random: numbers in [0, 1). *)
Definition unit_random (r : nat -> R * R) : Prop := forall i, 0 <= fst (r i) < 1 /\ 0 <= snd (r i) < 1.
Definition jitter_ok (o : option (nat -> R * R)) : Prop := match o with None => True | Some r => unit_random r end.
Definition in_square (p : R * R) : Prop := 0 <= fst p < 1 /\ 0 <= snd p < 1.
(** A proper point (not nan) with x^2 + y^2 + z^2 = 1. *)
Definition on_sphere (p : option V3) : Prop := exists x y z, p = Some (x, y, z) /\ x ^ 2 + y ^ 2 + z ^ 2 = 1.
(** A point's height. *)
Definition height (p : option V3) (z : R) : Prop := exists x y, p = Some (x, y, z).
(** The point of the unit sphere at height z and angle t about the axis. *)
Definition at_place (p : option V3) (z t : R) : Prop := exists s, 0 <= s /\ s ^ 2 + z ^ 2 = 1 /\ p = Some (s * cos t, s * sin t, z).

(** How many elements of a list satisfy a predicate. *)
Inductive count_of {A} (P : A -> Prop) : list A -> nat -> Prop :=
  | count_nil : count_of P [] 0
  | count_in : forall a l n, P a -> count_of P l n -> count_of P (a :: l) (S n)
  | count_out : forall a l n, ~ P a -> count_of P l n -> count_of P (a :: l) n.
(** The part of the sphere above height h, and its share of the sphere's area. *)
Definition above (h : R) (p : option V3) : Prop := exists z, height p z /\ h < z.
Definition cap_share (h : R) : R := (1 - h) / 2.
(** np.linalg.solve solves every regular system. *)
Definition solves (solve : M3 -> V3 -> V3) : Prop := forall m b, det3 m <> 0 -> mulv m (solve m b) = b.
(** The sampling methods the documentation lists. *)
Definition methods : list string := ["golden"; "sphere-projected-grid"; "spherical-polar-grid"; "spherical-polar-improved"; "random-sphere"]%string.
