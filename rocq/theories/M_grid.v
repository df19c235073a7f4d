(** Model: regular grids of q-points and cell origins.
    Cites /repo/euphonic/util.py and /repo/euphonic/force_constants.py. *)
From Verif Require Import Base.

(** np.repeat(a, k) on a 1-d array: each element k times in place. *)
Definition np_repeat {A} (l : list A) (k : nat) : list A :=
  flat_map (fun x => repeat x k) l.

(** np.tile(a, k) on a 1-d array: the whole array k times. *)
Definition np_tile {A} (l : list A) (k : nat) : list A := concat (repeat l k).

(** Python range(start, stop, step) for step > 0; length
    max(0, ceil((stop-start)/step)).  step = 0 raises ValueError in Python and
    is handled by the callers below; negative steps are not modelled. *)
Definition py_range (start stop step : Z) : list Z :=
  map (fun i => (start + Z.of_nat i * step)%Z)
      (seq 0 (Z.to_nat ((stop - start + step - 1) / step))).

Inductive grid_err := ColumnLengthMismatch | RangeStepZero.

(** np.column_stack of three 1-d arrays: ValueError if the lengths differ. *)
Fixpoint zip3 {A B D} (a : list A) (b : list B) (c : list D) : list (A * B * D) :=
  match a, b, c with
  | x :: a', y :: b', z :: c' => (x, y, z) :: zip3 a' b' c'
  | _, _, _ => []
  end.

Definition column_stack3 {A} (a b c : list A) : res (list (A * A * A)) grid_err :=
  if (Nat.eqb (length a) (length b) && Nat.eqb (length b) (length c))%bool
  then Ok (zip3 a b c) else Err ColumnLengthMismatch.

(** util.py:90-91, 93-94, 96-97: the axis values u_r = (2r-q-1)/(2q),
    r = 1..q, written as the code does with arange(q)+1.  Floats are reals. *)
Definition mp_axis (g : nat) : list R :=
  map (fun i => (2 * (INR i + 1) - INR g - 1) / (2 * INR g)) (seq 0 g).

(** util.py:75-100 mp_grid. *)
Definition mp_grid (g0 g1 g2 : nat) : res (list (R * R * R)) grid_err :=
  let qh := np_repeat (mp_axis g0) (g1 * g2) in
  let qk := np_tile (np_repeat (mp_axis g1) g2) g0 in
  let ql := np_tile (mp_axis g2) (g0 * g1) in
  column_stack3 qh qk ql.

Notation Z3 := (Z * Z * Z)%type.

(** util.py:103-131 get_all_origins.  Python ints are unbounded Z; the
    negative-step case of range is not modelled. *)
Definition get_all_origins (mx mn : Z3) (step : Z) : res (list Z3) grid_err :=
  let '(mx0, mx1, mx2) := mx in
  let '(mn0, mn1, mn2) := mn in
  let d0 := Z.to_nat (Z.abs (mx0 - mn0)) in
  let d1 := Z.to_nat (Z.abs (mx1 - mn1)) in
  let d2 := Z.to_nat (Z.abs (mx2 - mn2)) in
  if (step =? 0)%Z then Err RangeStepZero else
  let nx := np_repeat (py_range mn0 mx0 step) (d1 * d2) in
  let ny := np_repeat (np_tile (py_range mn1 mx1 step) d0) d2 in
  let nz := np_tile (py_range mn2 mx2 step) (d0 * d1) in
  column_stack3 nx ny nz.

(** NumPy slice assignment buf[off:off+len(v)] = v. *)
Definition write_at {A} (off : nat) (v buf : list A) : list A :=
  firstn off buf ++ v ++ skipn (off + length v) buf.

Definition set_x (ni : Z) (p : Z3) : Z3 := let '(x, y, z) := p in (ni, y, z).
Definition set_y (ni : Z) (p : Z3) : Z3 := let '(x, y, z) := p in (x, ni, z).
Definition set_z (ni : Z) (p : Z3) : Z3 := let '(x, y, z) := p in (x, y, ni).

(** force_constants.py:1353-1362, one pass of the loop "for i, ni in
    enumerate([-n, n])": the six slice assignments, two per plane (whole rows,
    then one column). Writing the rows and then overwriting one column of the
    same rows is written as one assignment of the modified rows. *)
Definition shell_pass (xy xz yz : list Z3) (i : nat) (ni : Z) (buf : list Z3)
  : list Z3 :=
  let buf := write_at (i * length xy) (map (set_z ni) xy) buf in
  let io := (2 * length xy)%nat in
  let buf := write_at (io + i * length xz) (map (set_y ni) xz) buf in
  let io := (2 * (length xy + length xz))%nat in
  write_at (io + i * length yz) (map (set_x ni) yz) buf.

(** force_constants.py:1322-1364 _get_shell_origins.  int32 overflow is not
    modelled. *)
Definition get_shell_origins (n : Z) : res (list Z3) grid_err :=
  if (n =? 0)%Z then Ok [(0, 0, 0)%Z] else
  match get_all_origins (n+1, n+1, 1)%Z (-n, -n, 0)%Z 1,
        get_all_origins (n+1, 1, n)%Z (-n, 0, -n+1)%Z 1,
        get_all_origins (1, n, n)%Z (0, -n+1, -n+1)%Z 1 with
  | Ok xy, Ok xz, Ok yz =>
      let buf := repeat (0, 0, 0)%Z (Z.to_nat ((2*n+1)^3 - (2*n-1)^3)) in
      let buf := shell_pass xy xz yz 0 (- n) buf in
      Ok (shell_pass xy xz yz 1 n buf)
  | Err e, _, _ => Err e
  | _, Err e, _ => Err e
  | _, _, Err e => Err e
  end.
