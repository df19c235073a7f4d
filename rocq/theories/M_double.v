(** Model: some of Euphonic's arithmetic as it is carried out, in double
    precision with every operation rounded to nearest, ties to even.
    /repo/euphonic/util.py, /repo/euphonic/force_constants.py, /repo/c/util.c,
    /repo/c/dyn_mat.c and /repo/euphonic/cli/optimise_dipole_parameter.py.
    A double is represented by its value, so -0.0 is 0, and there is no
    overflow, infinity or NaN: the theorems bound their arguments so that none
    of these arises. *)
From Flocq Require Import Core.
From Verif Require Import Base Vec3 M_grid M_qpts M_cell.

(** IEEE 754 binary64: the nearest double, ties to even (Flocq) *)
Definition fl (x : R) : R := round radix2 (FLT_exp (-1074) 53) ZnearestE x.

(** util.py:90-98, one axis: np.true_divide of an int64 array by an int, which
    converts both to double and divides.  The integer arithmetic is exact
    (int64 does not wrap for the sizes the theorems allow). *)
Definition mp_axis_d (g : nat) : list R :=
  map (fun i => fl (fl (IZR (2 * (Z.of_nat i + 1) - Z.of_nat g - 1))
                    / fl (IZR (2 * Z.of_nat g)))) (seq 0 g).

(** util.py:75-100 mp_grid *)
Definition mp_grid_d (g0 g1 g2 : nat) : res (list (R * R * R)) grid_err :=
  let qh := np_repeat (mp_axis_d g0) (g1 * g2) in
  let qk := np_tile (np_repeat (mp_axis_d g1) g2) g0 in
  let ql := np_tile (mp_axis_d g2) (g0 * g1) in
  column_stack3 qh qk ql.

(** x - np.rint(x): rint of a double and the subtraction are both rounded *)
Definition reduce_d (x : R) : R := fl (x - fl (IZR (rint x))).

(** x - round(x) in C *)
Definition c_reduce_d (x : R) : R := fl (x - fl (IZR (c_round x))).

(** force_constants.py:499 qpts - np.rint(qpts), one q-point; also
    force_constants.py:1182 *)
Definition qnorm_d (q : V3) : V3 :=
  let '(x, y, z) := q in (reduce_d x, reduce_d y, reduce_d z).

(** c/dyn_mat.c:126-128 qpt_norm *)
Definition c_qnorm_d (q : V3) : V3 :=
  let '(x, y, z) := q in (c_reduce_d x, c_reduce_d y, c_reduce_d z).

(** the literal 1e-15, util.py:70 and c/util.c:33 *)
Definition gamma_tol_d : R := fl gamma_tol.

(** util.py:54-72 is_gamma of one q-point: np.sum of three values adds from the
    left *)
Definition is_gamma_d (q : V3) : bool :=
  let '(x, y, z) := q in
  Rltb (fl (fl (Rabs (reduce_d x) + Rabs (reduce_d y)) + Rabs (reduce_d z))) gamma_tol_d.

(** c/util.c:32-45 is_gamma: the sum starts at 0 *)
Definition c_is_gamma_d (q : V3) : bool :=
  let '(x, y, z) := q in
  Rltb (fl (fl (fl (0 + Rabs (c_reduce_d x)) + Rabs (c_reduce_d y))
            + Rabs (c_reduce_d z))) gamma_tol_d.

(** np.arange(start, stop, step) of doubles as NumPy fills it: the number of
    values is ceil((stop - start)/step) of the rounded difference and quotient;
    the first two values are start and start + step, and the rest are
    start + i*delta with delta the rounded difference of the first two. *)
Definition arange_d (start stop step : R) : list R :=
  let n := Z.to_nat (Rceil (fl (fl (stop - start) / step))) in
  let delta := fl (fl (start + step) - start) in
  map (fun i => match i with
                | O => start
                | 1%nat => fl (start + step)
                | _ => fl (start + fl (IZR (Z.of_nat i) * delta))
                end) (seq 0 n).

(** optimise_dipole_parameter.py:71-74 *)
Definition scan_d (lo hi step : R) : list R :=
  arange_d lo (fl (hi + fl (step / 100))) step.
