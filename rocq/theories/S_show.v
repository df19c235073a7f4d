(** Words for euphonic-show-sampling (C89). *)
From Coq Require Import String.
From Verif Require Import Base Vec3.
Open Scope R_scope.

(** n is the least number with n points per side at least covering k points, c points for each
    pair. *)
Definition least_grid (c k n : nat) : Prop := (k <= c * n * n)%nat /\ forall m, (k <= c * m * m)%nat -> (n <= m)%nat.
Definition in_cube (p : option V3) : Prop := exists x y z, p = Some (x, y, z) /\ 0 <= x < 1 /\ 0 <= y < 1 /\ 0 <= z < 1.
(** The names of the same sampling in the powder functions and in this tool. *)
Definition same_method (powder shown : string) : Prop :=
  In (powder, shown) [("golden", "golden-sphere"); ("sphere-projected-grid", "sphere-from-square-grid"); ("spherical-polar-grid", "spherical-polar-grid");
    ("spherical-polar-improved", "spherical-polar-improved"); ("random-sphere", "random-sphere")]%string.
