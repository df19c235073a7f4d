(** Specification words for double precision numbers (IEEE 754 binary64). *)
From Verif Require Import Base.

(** the value of a finite double: at most 53 bits times a power of two *)
Definition double (x : R) : Prop :=
  exists m e : Z, (Z.abs m < 2 ^ 53)%Z /\ (-1074 <= e <= 971)%Z /\ x = IZR m * powerRZ 2 e.

(** y is the double an exactly computed x is rounded to: no double is nearer *)
Definition nearest_double (x y : R) : Prop :=
  double y /\ forall z, double z -> Rabs (y - x) <= Rabs (z - x).

Definition double3 (q : R * R * R) : Prop :=
  let '(x, y, z) := q in double x /\ double y /\ double z.

(** halfway between two integers *)
Definition half_odd (x : R) : Prop := exists k : Z, x = IZR k + 1 / 2.
