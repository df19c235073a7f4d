(** Property C91: grids and reduced q-points are right in double precision, and
    the scan of C88 in double precision. *)
From Flocq Require Import Core.
From Verif Require Import Base Vec3 M_grid M_qpts M_double S_double L_double L_double2 L_double3 L_double4.
From Coq Require Import Lra Lia.

(** C91.  The rounding the model applies to every operation is IEEE 754's: the
    result is a double and no double is nearer to the exact result. *)
Theorem C91_rounding : forall x, Rabs x <= bpow radix2 1000 -> nearest_double x (fl x).
Proof. exact fl_nearest. Qed.
Print Assumptions C91_rounding.

(** C91.  mp_grid in double precision: all g0*g1*g2 points, no two equal, closed
    under q -> -q to the last bit, strictly inside (-1/2,1/2)^3 and a product. *)
Theorem C91_grid : forall g0 g1 g2 : nat, (0 < g0)%nat -> (0 < g1)%nat -> (0 < g2)%nat ->
  (Z.of_nat g0 < 2 ^ 52)%Z -> (Z.of_nat g1 < 2 ^ 52)%Z -> (Z.of_nat g2 < 2 ^ 52)%Z ->
  exists l, mp_grid_d g0 g1 g2 = Ok l /\
    length l = (g0 * g1 * g2)%nat /\ NoDup l /\
    (forall x y z, In (x, y, z) l -> In (- x, - y, - z) l) /\
    (forall x y z, In (x, y, z) l ->
       -1/2 < x < 1/2 /\ -1/2 < y < 1/2 /\ -1/2 < z < 1/2) /\
    (forall x y z x' y' z', In (x, y, z) l -> In (x', y', z') l ->
       In (x, y', z) l /\ In (x, y, z') l /\ In (x', y, z) l).
Proof. exact grid_d. Qed.
Print Assumptions C91_grid.

(** C91.  Every coordinate is the double nearest to the exact position, in the
    order last index fastest. *)
Theorem C91_positions : forall g0 g1 g2 i j k l,
  (Z.of_nat g0 < 2 ^ 52)%Z -> (Z.of_nat g1 < 2 ^ 52)%Z -> (Z.of_nat g2 < 2 ^ 52)%Z ->
  mp_grid_d g0 g1 g2 = Ok l -> (i < g0)%nat -> (j < g1)%nat -> (k < g2)%nat ->
  exists x y z, nth_error l ((i * g1 + j) * g2 + k) = Some (x, y, z) /\
    nearest_double ((INR i + 1/2) / INR g0 - 1/2) x /\
    nearest_double ((INR j + 1/2) / INR g1 - 1/2) y /\
    nearest_double ((INR k + 1/2) / INR g2 - 1/2) z.
Proof. exact grid_d_order. Qed.
Print Assumptions C91_positions.

(** C91.  A grid point is taken for a gamma point only if it is the origin, and
    the origin is a grid point exactly when all three divisions are odd. *)
Theorem C91_grid_gamma : forall g0 g1 g2 l,
  (0 < g0)%nat -> (0 < g1)%nat -> (0 < g2)%nat ->
  (Z.of_nat g0 < 2 ^ 48)%Z -> (Z.of_nat g1 < 2 ^ 48)%Z -> (Z.of_nat g2 < 2 ^ 48)%Z ->
  mp_grid_d g0 g1 g2 = Ok l ->
  (forall q, In q l -> (is_gamma_d q = true <-> q = (0, 0, 0))) /\
  (In (0, 0, 0) l <-> (Nat.odd g0 = true /\ Nat.odd g1 = true /\ Nat.odd g2 = true)).
Proof. exact grid_d_gamma. Qed.
Print Assumptions C91_grid_gamma.

Example C91_grid_nonvacuous :
  (exists l, mp_grid_d 3 5 1 = Ok l /\ length l = 15%nat) /\
  (0 < 3)%nat /\ (Z.of_nat 5 < 2 ^ 48)%Z /\ (Nat.odd 3 = true /\ Nat.odd 5 = true /\ Nat.odd 1 = true).
Proof.
  split; [|split; [lia|split; [reflexivity|split; [reflexivity|split; reflexivity]]]].
  destruct (grid_d 3 5 1) as (l & H & L & _); try (reflexivity || lia).
  exists l. split; [exact H|exact L].
Qed.

(** C91.  Reducing a q-point to the first zone loses nothing: for any q-point
    of doubles, however large, the result is exactly the q-point minus a
    reciprocal lattice vector, in Python and in C, and is within 1/2. *)
Theorem C91_reduction : forall x y z, double3 (x, y, z) ->
  (exists i j k : Z, qnorm_d (x, y, z) = (x - IZR i, y - IZR j, z - IZR k) /\
    double3 (x - IZR i, y - IZR j, z - IZR k) /\
    Rabs (x - IZR i) <= 1 / 2 /\ Rabs (y - IZR j) <= 1 / 2 /\ Rabs (z - IZR k) <= 1 / 2) /\
  (exists i j k : Z, c_qnorm_d (x, y, z) = (x - IZR i, y - IZR j, z - IZR k) /\
    double3 (x - IZR i, y - IZR j, z - IZR k) /\
    Rabs (x - IZR i) <= 1 / 2 /\ Rabs (y - IZR j) <= 1 / 2 /\ Rabs (z - IZR k) <= 1 / 2).
Proof.
  exact (fun x y z D => conj (reduced_point x y z D) (c_reduced_point x y z D)).
Qed.
Print Assumptions C91_reduction.

(** C91.  So two q-points of doubles that differ by a reciprocal lattice vector
    are reduced to the same doubles, in Python and in C (away from the zone
    faces, where both faces are nearest). *)
Theorem C91_equivalent : forall x y z i j k,
  double3 (x, y, z) -> double3 (x + IZR i, y + IZR j, z + IZR k) ->
  ~ half_odd x -> ~ half_odd y -> ~ half_odd z ->
  qnorm_d (x + IZR i, y + IZR j, z + IZR k) = qnorm_d (x, y, z) /\
  c_qnorm_d (x + IZR i, y + IZR j, z + IZR k) = qnorm_d (x, y, z).
Proof. exact equivalent_points. Qed.
Print Assumptions C91_equivalent.

(** C91.  The exact-arithmetic model of C06 and C07 reduces doubles as the
    program does. *)
Theorem C91_model : forall q, double3 q -> qnorm_d q = qnorm q.
Proof. exact qnorm_d_exact. Qed.
Print Assumptions C91_model.

Example C91_reduction_nonvacuous :
  double3 (1/4, 3/8, -1/8) /\ double3 (1/4 + IZR 7, 3/8 + IZR (-2), -1/8 + IZR 0) /\
  ~ half_odd (1/4).
Proof.
  assert (D : forall m : Z, (Z.abs m < 2 ^ 53)%Z -> double (IZR m / 8)).
  { intros m Hm. exists m, (-3)%Z. split; [exact Hm|]. split; [lia|]. change (powerRZ 2 (-3)) with (/ 2 ^ 3). field. }
  split; [|split].
  - split; [|split].
    + replace (1/4) with (IZR 2 / 8) by lra. apply D. reflexivity.
    + apply D. reflexivity.
    + replace (-1/8) with (IZR (-1) / 8) by lra. apply D. reflexivity.
  - split; [|split].
    + replace (1/4 + IZR 7) with (IZR 58 / 8) by lra. apply D. reflexivity.
    + replace (3/8 + IZR (-2)) with (IZR (-13) / 8) by lra. apply D. reflexivity.
    + replace (-1/8 + IZR 0) with (IZR (-1) / 8) by lra. apply D. reflexivity.
  - intros [k H]. assert (E : IZR (4 * k) = IZR (-1)) by (rewrite mult_IZR; lra).
    apply eq_IZR in E. lia.
Qed.

(** C91.  The gamma test in double precision: it accepts q-points whose distance
    from a reciprocal lattice vector is below 1e-15 and rejects those above, but
    for a band of 2^-100 about the tolerance; C and Python agree without
    exception ... *)
Theorem C91_gamma : forall x y z, double3 (x, y, z) ->
  (forall i j k,
     Rabs (x - IZR i) + Rabs (y - IZR j) + Rabs (z - IZR k) <= / 10 ^ 15 - / 2 ^ 100 ->
     is_gamma_d (x, y, z) = true) /\
  ((forall i j k,
     / 10 ^ 15 + / 2 ^ 100 <= Rabs (x - IZR i) + Rabs (y - IZR j) + Rabs (z - IZR k)) ->
   is_gamma_d (x, y, z) = false) /\
  c_is_gamma_d (x, y, z) = is_gamma_d (x, y, z).
Proof.
  exact (fun x y z D => conj (fun i j k => is_gamma_d_true x y z i j k D)
          (conj (is_gamma_d_false x y z D) (c_is_gamma_same (x, y, z) D))).
Qed.
Print Assumptions C91_gamma.

(** ... and away from the first zones there is no tolerance left: a coordinate of
    8 or more in a point accepted as gamma is an integer exactly. *)
Theorem C91_gamma_far : forall x y z, double3 (x, y, z) -> is_gamma_d (x, y, z) = true ->
  (8 <= Rabs x -> exists i, x = IZR i) /\ (8 <= Rabs y -> exists i, y = IZR i) /\
  (8 <= Rabs z -> exists i, z = IZR i).
Proof. exact is_gamma_far. Qed.
Print Assumptions C91_gamma_far.

Example C91_gamma_nonvacuous :
  double3 (9, 0, 0) /\ is_gamma_d (9, 0, 0) = true /\ 8 <= Rabs 9.
Proof.
  assert (D : double3 (9, 0, 0)).
  { assert (I : forall m : Z, (Z.abs m < 2 ^ 53)%Z -> double (IZR m)).
    { intros m Hm. exists m, 0%Z. split; [exact Hm|]. split; [lia|]. cbn. ring. }
    split; [apply I; reflexivity|split; apply I; reflexivity]. }
  split; [exact D|]. split; [|rewrite Rabs_pos_eq; lra].
  apply (is_gamma_d_true 9 0 0 9 0 0 D). replace (9 - 9) with 0 by ring.
  rewrite Rminus_0_r, Rabs_R0.
  assert (/ 2 ^ 100 < / 10 ^ 15) by (apply Rinv_lt_contravar; lra). lra.
Qed.

(** C88 in double precision.  However the three numbers given are rounded, a
    scan from lo to hi = lo + (k + f) st tests exactly k + 1 values if f is
    between -9/1000 and 989/1000, and the i-th is lo + i st to within 1e-8 of a
    step: hi itself is tested when it is a whole number of steps away. *)
Theorem C88_scan_double : forall lo hi st k,
  / 2 ^ 100 <= st -> Rabs lo <= 1024 * st -> (k <= 1024)%nat ->
  lo + (INR k - 9 / 1000) * st <= hi -> hi <= lo + (INR k + 989 / 1000) * st ->
  length (scan_d (fl lo) (fl hi) (fl st)) = S k /\
  forall i, (i <= k)%nat ->
  exists v, nth_error (scan_d (fl lo) (fl hi) (fl st)) i = Some v /\
    Rabs (v - (lo + INR i * st)) <= st / 10 ^ 8.
Proof.
  exact (fun lo hi st k H1 H2 H3 H4 H5 =>
    conj (scan_length lo hi st k H1 H2 H3 H4 H5) (scan_value lo hi st k H1 H2 H3 H4 H5)).
Qed.
Print Assumptions C88_scan_double.

(** 0.25 to 1.35 by 0.1 is twelve values. *)
Example C88_scan_nonvacuous :
  length (scan_d (fl (25/100)) (fl (135/100)) (fl (1/10))) = 12%nat.
Proof.
  apply (scan_length (25/100) (135/100) (1/10) 11).
  - apply Rle_trans with (/ 10); [|lra]. apply Rinv_le_contravar; lra.
  - rewrite Rabs_pos_eq; lra.
  - lia.
  - rewrite INR_IZR_INZ. cbn. lra.
  - rewrite INR_IZR_INZ. cbn. lra.
Qed.
