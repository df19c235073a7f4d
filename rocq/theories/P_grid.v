(** Properties C02, C04, C05: grids. *)
From Verif Require Import Base M_grid L_grid.

(** C02.  For positive divisions the grid has g0*g1*g2 distinct points, is
    closed under q -> -q, lies strictly inside (-1/2,1/2)^3 and is a product
    (mixing coordinates of grid points gives grid points). *)
Theorem C02_mp_grid_complete : forall g0 g1 g2 : nat,
  (0 < g0)%nat -> (0 < g1)%nat -> (0 < g2)%nat ->
  exists l, mp_grid g0 g1 g2 = Ok l /\
    length l = (g0 * g1 * g2)%nat /\ NoDup l /\
    (forall x y z, In (x, y, z) l -> In (- x, - y, - z) l) /\
    (forall x y z, In (x, y, z) l ->
       -1/2 < x < 1/2 /\ -1/2 < y < 1/2 /\ -1/2 < z < 1/2) /\
    (forall x y z x' y' z', In (x, y, z) l -> In (x', y', z') l ->
       In (x, y', z) l /\ In (x, y, z') l /\ In (x', y, z) l).
Proof. exact mp_grid_complete. Qed.
Print Assumptions C02_mp_grid_complete.

(** C02.  Explicit positions and order: point (i,j,k), last index fastest, is
    the centre of the (i,j,k)-th of g0 x g1 x g2 equal boxes tiling
    [-1/2,1/2)^3; in particular neighbours along an axis differ by 1/g. *)
Theorem C02_mp_grid_positions : forall g0 g1 g2 i j k l,
  mp_grid g0 g1 g2 = Ok l -> (i < g0)%nat -> (j < g1)%nat -> (k < g2)%nat ->
  nth ((i * g1 + j) * g2 + k) l (0, 0, 0)
  = ((INR i + 1/2) / INR g0 - 1/2, (INR j + 1/2) / INR g1 - 1/2,
     (INR k + 1/2) / INR g2 - 1/2).
Proof. exact mp_grid_order. Qed.
Print Assumptions C02_mp_grid_positions.

Example C02_nonvacuous :
  (exists l, mp_grid 2 3 1 = Ok l /\ length l = 6%nat) /\
  (0 < 2)%nat /\ (0 < 3)%nat /\ (0 < 1)%nat.
Proof. split; [eexists; split; reflexivity|lia]. Qed.

(** C04, step 1.  The result is exactly the half-open box, each point once.
    (The full property also covers step <> 1, where it fails: see below.) *)
Theorem C04_get_all_origins_box_partial : forall x0 y0 z0 x1 y1 z1 : Z,
  (x0 <= x1)%Z -> (y0 <= y1)%Z -> (z0 <= z1)%Z ->
  exists l, get_all_origins (x1, y1, z1) (x0, y0, z0) 1 = Ok l /\ NoDup l /\
    (forall x y z, In (x, y, z) l <-> (x0 <= x < x1 /\ y0 <= y < y1 /\ z0 <= z < z1)%Z) /\
    Z.of_nat (length l) = ((x1 - x0) * (y1 - y0) * (z1 - z0))%Z.
Proof. exact get_all_origins_box. Qed.
Print Assumptions C04_get_all_origins_box_partial.

Example C04_nonvacuous :
  get_all_origins (2, 1, 2)%Z (0, 0, 0)%Z 1
  = Ok [(0,0,0); (0,0,1); (1,0,0); (1,0,1)]%Z.
Proof. reflexivity. Qed.

(** C04 is false for other steps: with step 2 on a 2x2x2 box the only lattice
    point in the box is returned four times ... *)
Theorem C04_step_duplicates_refuted :
  exists mx mn step l, (1 < step)%Z /\ get_all_origins mx mn step = Ok l /\ ~ NoDup l.
Proof. exact get_all_origins_step_duplicates. Qed.
Print Assumptions C04_step_duplicates_refuted.

(** ... and on a 3x2x2 box the call raises instead of returning two points. *)
Theorem C04_step_error_refuted :
  exists mx mn step e, (1 < step)%Z /\ get_all_origins mx mn step = Err e.
Proof. exact get_all_origins_step_error. Qed.
Print Assumptions C04_step_error_refuted.

(** C05.  The n-th shell is exactly the set of integer points of Chebyshev
    norm n, without repetition, and has the documented size. *)
Theorem C05_shell_origins : forall n : Z, (0 <= n)%Z ->
  exists l, get_shell_origins n = Ok l /\ NoDup l /\
    (forall x y z, In (x, y, z) l <-> Z.max (Z.abs x) (Z.max (Z.abs y) (Z.abs z)) = n) /\
    Z.of_nat (length l) = (if (n =? 0)%Z then 1 else (2*n+1)^3 - (2*n-1)^3)%Z.
Proof. exact get_shell_origins_spec. Qed.
Print Assumptions C05_shell_origins.

Example C05_nonvacuous :
  exists l, get_shell_origins 2 = Ok l /\ length l = 98%nat /\ In (2, -1, 0)%Z l.
Proof. eexists. split; [reflexivity|]. split; [reflexivity|]. simpl. tauto. Qed.

(** C05.  The shells 0..n together hold every point of the (2n+1)^3 cube
    exactly once. *)
Theorem C05_shells_partition_cube : forall n : nat,
  exists shells, map (fun k => get_shell_origins (Z.of_nat k)) (seq 0 (S n)) = map Ok shells /\
    NoDup (concat shells) /\
    forall x y z, In (x, y, z) (concat shells) <->
      (Z.abs x <= Z.of_nat n /\ Z.abs y <= Z.of_nat n /\ Z.abs z <= Z.of_nat n)%Z.
Proof. exact shells_partition_cube. Qed.
Print Assumptions C05_shells_partition_cube.
