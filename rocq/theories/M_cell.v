(** Model: crystal cell geometry.  Quantities are plain reals in one
    consistent length unit (unit conversion is the subject of M_units). *)
From Verif Require Import Base Vec3.

(** util.py:437-442 _cell_vectors_to_volume: dot(a, cross(b, c)). Signed. *)
Definition cell_vectors_to_volume (cv : M3) : R :=
  dot (row cv 0) (cross (row cv 1) (row cv 2)).

(** crystal.py:126-135 Crystal.cell_volume. *)
Definition cell_volume (cv : M3) : R := cell_vectors_to_volume cv.

(** crystal.py:106-124 Crystal.reciprocal_cell.  A zero volume gives
    division by zero (inf/nan) in the code; theorems exclude it. *)
Definition reciprocal_cell (cv : M3) : M3 :=
  let bxc := cross (row cv 1) (row cv 2) in
  let cxa := cross (row cv 2) (row cv 0) in
  let axb := cross (row cv 0) (row cv 1) in
  let norm := 2 * PI / cell_volume cv in
  (vscal norm bxc, vscal norm cxa, vscal norm axb).

(** np.linalg.solve(A, b) for a 3x3 system in exact arithmetic (Cramer);
    None for LinAlgError (singular matrix). *)
Definition solve3 (a : M3) (b : V3) : option V3 :=
  let '((a1, a2, a3), (b1, b2, b3), (c1, c2, c3)) := a in
  let '(x, y, z) := b in
  let d := det3 a in
  if Req_EM_T d 0 then None else
  Some (det3 ((x, a2, a3), (y, b2, b3), (z, c2, c3)) / d,
        det3 ((a1, x, a3), (b1, y, b3), (c1, z, c3)) / d,
        det3 ((a1, a2, x), (b1, b2, y), (c1, c2, z)) / d).

(** powder.py:330-349 _qpts_cart_to_frac for one q-point:
    np.linalg.solve(lattice.T, q). *)
Definition qpt_cart_to_frac (cv : M3) (q : V3) : option V3 :=
  solve3 (transpose (reciprocal_cell cv)) q.

(** util.py:493-494 (and elsewhere): fractional q to Cartesian, q @ recip. *)
Definition qpt_frac_to_cart (cv : M3) (q : V3) : V3 := vmul q (reciprocal_cell cv).

(** Python math.ceil on a finite float. *)
Definition Rceil (x : R) : Z := (- Int_part (- x))%Z.

(** crystal.py:137-163 Crystal.get_mp_grid_spec, spacing in the unit of the
    reciprocal cell.  None: spacing 0 gives inf, on which math.ceil raises. *)
Definition get_mp_grid_spec (cv : M3) (spacing : R) : option (Z * Z * Z) :=
  if Req_EM_T spacing 0 then None else
  let lat := reciprocal_cell cv in
  Some (Rceil (norm (row lat 0) / spacing),
        Rceil (norm (row lat 1) / spacing),
        Rceil (norm (row lat 2) / spacing)).

(** np.cbrt: the real cube root, defined for negative arguments too. *)
Definition cbrt (x : R) : R :=
  if Rlt_dec 0 x then exp (ln x / 3)
  else if Rlt_dec x 0 then - exp (ln (- x) / 3) else 0.

(** util.py:264-299 mode_gradients_to_widths for one mode, vector gradient
    [g] (line 286-287 takes its norm), [nq] q-points; all in atomic units. *)
Definition q_spacing (nq : nat) (cv : M3) : R :=
  2 / cbrt (INR nq * cell_vectors_to_volume cv).
Definition mode_width (nq : nat) (cv : M3) (g : V3) : R := q_spacing nq cv * norm g.

(** c/util.c:24-30 det_array, transcribed as written:
    a[0]*(a[4]*a[8] - a[7]*a[5]) + a[1]*(a[3]*a[8] - a[6]*a[5])
    + a[2]*(a[3]*a[7] - a[6]*a[4]). *)
Definition c_det_array (m : M3) : R :=
  let '((a0, a1, a2), (a3, a4, a5), (a6, a7, a8)) := m in
  a0 * (a4 * a8 - a7 * a5) + a1 * (a3 * a8 - a6 * a5) + a2 * (a3 * a7 - a6 * a4).

(** np.linalg.det(dielectric) as used by force_constants.py:1016, 1071, 1197: exact
    determinant. *)
Definition np_linalg_det (m : M3) : R := det3 m.

(** c/util.c:47-61 cell_volume. *)
Definition c_cell_volume (m : M3) : R :=
  let '((v0, v1, v2), (v3, v4, v5), (v6, v7, v8)) := m in
  let b0 := v4 * v8 - v5 * v7 in
  let b1 := v5 * v6 - v3 * v8 in
  let b2 := v3 * v7 - v4 * v6 in
  0 + v0 * b0 + v1 * b1 + v2 * b2.
