(** Model of the sampling functions, /repo/euphonic/sampling.py 18-396, and of the powder
    sampling helpers, /repo/euphonic/powder.py 323-392.
    Generators are lists; consuming a generator that raises is an error.  The calls of
    np.random are the argument [rnd]: any numbers, one pair per point (per ring and
    position in [spherical_polar_improved]); np.random.random gives values in [0,1).
    Simplifications: real numbers, npts a natural number, Cartesian output
    (cartesian=True); nan is [None]. *)
From Coq Require Import String.
From Verif Require Import Base Vec3 M_qpts M_path.
Open Scope R_scope.

Inductive serr :=
  | ZeroDiv            (* ZeroDivisionError *)
  | IndexErr           (* IndexError: sequence[1] of a sequence of length 1 or 0 *)
  | TooFew             (* ValueError, sampling.py:284 *)
  | UnknownSampling.   (* ValueError, powder.py:382 *)

(** x % 1 *)
Definition mod1 (x : R) : R := x - IZR (Int_part x).
Definition golden_ratio : R := (1 + sqrt 5) / 2.

(** sampling.py:18-58 [golden_square] *)
Definition golden_square (npts : nat) (offset : bool) (rnd : option (nat -> R * R)) : res (list (R * R)) serr :=
  if (offset && Nat.eqb npts 0)%bool then Err ZeroDiv else
  let x_offset := if offset then 1 / (2 * INR npts) else 0 in
  Ok (map (fun i =>
    let '(dx, dy) := match rnd with
      | Some r => ((fst (r i) - 1 / 2) / sqrt (INR npts), (snd (r i) - 1 / 2) / sqrt (INR npts))
      | None => (0, 0) end in
    (mod1 (INR i / INR npts + dx + x_offset), mod1 (INR i / golden_ratio + dy))) (seq 0 npts)).

(** sampling.py:61-101 [regular_square]; product: the second index moves fastest *)
Definition regular_square (n_rows n_cols : nat) (offset : bool) (rnd : option (nat -> R * R)) : res (list (R * R)) serr :=
  if (Nat.eqb n_cols 0 || Nat.eqb n_rows 0)%bool then Err ZeroDiv else
  let xs := 1 / INR n_cols in let ys := 1 / INR n_rows in
  let '(xo, yo) := if offset then (xs / 2, ys / 2) else (0, 0) in
  Ok (map (fun k =>
    let i := (k / n_rows)%nat in let j := (k mod n_rows)%nat in
    let '(dx, dy) := match rnd with
      | Some r => ((fst (r k) - 1 / 2) * xs, (snd (r k) - 1 / 2) * ys)
      | None => (0, 0) end in
    (INR i * xs + xo + dx, INR j * ys + yo + dy)) (seq 0 (n_cols * n_rows))).

(** sampling.py:104-107 [_spherical_polar_to_cartesian] *)
Definition polar_to_cart (phi theta : R) : V3 := (cos phi * sin theta, sin phi * sin theta, cos theta).
(** np.arccos *)
Definition arccos (v : R) : option R := if (Rleb (-1) v && Rleb v 1)%bool then Some (acos v) else None.
(** sampling.py:110-114 [_square_to_spherical_polar] and the conversion after it *)
Definition square_to_sphere (p : R * R) : option V3 :=
  match arccos (2 * fst p - 1) with Some theta => Some (polar_to_cart (2 * PI * snd p) theta) | None => None end.

(** sampling.py:117-152 [golden_sphere], 155-187 [sphere_from_square_grid], 323-358 [random_sphere] *)
Definition map_ok {A B E} (f : A -> B) (r : res (list A) E) : res (list B) E :=
  match r with Ok l => Ok (map f l) | Err e => Err e end.
Definition golden_sphere (npts : nat) (rnd : option (nat -> R * R)) : res (list (option V3)) serr :=
  map_ok square_to_sphere (golden_square npts true rnd).
Definition sphere_from_square_grid (n_rows n_cols : nat) (rnd : option (nat -> R * R)) : res (list (option V3)) serr :=
  map_ok square_to_sphere (regular_square n_rows n_cols true rnd).
Definition random_sphere (npts : nat) (r : nat -> R * R) : res (list (option V3)) serr :=
  Ok (map (fun i => square_to_sphere (r i)) (seq 0 npts)).

(** np.linspace(a, b, n + 1)[:-1] *)
Definition open_linspace (a b : R) (n : nat) : list R := removelast (linspace a b (n + 1)).
(** s[1] - s[0] *)
Definition spacing (s : list R) : res R serr :=
  match s with a :: b :: _ => Ok (b - a) | _ => Err IndexErr end.
(** sampling.py:222-223, 290-291 *)
Definition theta_sequence (n : nat) : list R := map (fun t => t + PI / (2 * INR n)) (open_linspace 0 PI n).

(** sampling.py:190-237 [spherical_polar_grid] *)
Definition spherical_polar_grid (n_phi n_theta : nat) (rnd : option (nat -> R * R)) : res (list (option V3)) serr :=
  let phis := open_linspace (- PI) PI n_phi in
  match spacing phis with
  | Err e => Err e
  | Ok dphi =>
      if Nat.eqb n_theta 0 then Err ZeroDiv else
      match spacing (theta_sequence n_theta) with
      | Err e => Err e
      | Ok dtheta =>
          Ok (map (fun k =>
            let phi := nth (k / n_theta) phis 0 in let theta := nth (k mod n_theta) (theta_sequence n_theta) 0 in
            match rnd with
            | Some r => Some (polar_to_cart (phi + (fst (r k) - 1 / 2) * dphi) (theta + (snd (r k) - 1 / 2) * dtheta))
            | None => Some (polar_to_cart phi theta) end) (seq 0 (length phis * n_theta)))
      end
  end.

(** np.histogram(a, bins=edges): half-open bins, the last one closed *)
Definition histogram (a edges : list R) : list nat :=
  let n := (length edges - 1)%nat in
  map (fun i => length (filter (fun p =>
    (Rleb (nth i edges 0) p && (if Nat.eqb (S i) n then Rleb p (nth (S i) edges 0) else Rltb p (nth (S i) edges 0)))%bool) a)) (seq 0 n).

(** sampling.py:286-320, one ring *)
Definition ring (theta dtheta : R) (count : nat) (r : option (nat -> R * R)) : res (list (option V3)) serr :=
  let phis := open_linspace (- PI) PI count in
  match spacing phis with
  | Err e => Err e
  | Ok dphi => Ok (map (fun j =>
      match r with
      | Some r => Some (polar_to_cart (nth j phis 0 + (fst (r j) - 1 / 2) * dphi) (theta + (snd (r j) - 1 / 2) * dtheta))
      | None => Some (polar_to_cart (nth j phis 0) theta) end) (seq 0 (length phis)))
  end.

(** sampling.py:283-299: the rings' angles and their numbers of points *)
Definition n_theta_of (npts : nat) : nat := Z.to_nat (Int_part (sqrt (PI / 4 * INR npts))).
Definition circumferences (n : nat) : list R := map (fun t => 2 * PI * Rabs (sin t)) (theta_sequence n).
Definition ring_counts (npts : nat) : list nat :=
  let c := circumferences (n_theta_of npts) in
  histogram (linspace 0 (Rsum c) npts) (0 :: cumsum c).

(** sampling.py:240-320 [spherical_polar_improved] *)
Definition spherical_polar_improved (npts : nat) (rnd : option (nat -> nat -> R * R)) : res (list (option V3)) serr :=
  if Nat.ltb npts 6 then Err TooFew else
  let thetas := theta_sequence (n_theta_of npts) in
  match spacing thetas with
  | Err e => Err e
  | Ok dtheta =>
      match mapE (fun i => ring (nth i thetas 0) dtheta (nth i (ring_counts npts) 0%nat)
                             (match rnd with Some r => Some (r i) | None => None end)) (seq 0 (length thetas)) with
      | Err e => Err e
      | Ok rings => Ok (concat rings)
      end
  end.

(** sampling.py:360-396 [recurrence_sequence]; [phi] is the value scipy's fmin returns *)
Definition recurrence_sequence (phi : R) (npts order : nat) : list (list R) :=
  map (fun n => map (fun d => mod1 (INR n * (/ phi) ^ S d)) (seq 0 order)) (seq 0 npts).

(** powder.py:385-392 [_check_gridpts]: number of columns, and the number the message
    "rounding up to {npts}" names, if it is printed *)
Definition check_gridpts (npts : nat) : nat * option nat :=
  let n_cols := Z.to_nat (- Int_part (- sqrt (INR npts / 2))) in
  (n_cols, if Nat.eqb (n_cols ^ 2 * 2) npts then None else Some npts).

(** powder.py:352-382 [_get_qpts_sphere] *)
Definition get_qpts_sphere (npts : nat) (sampling : string) (rnd : option (nat -> R * R)) (rnd2 : option (nat -> nat -> R * R))
  (always : nat -> R * R) : res (list (option V3)) serr :=
  if String.eqb sampling "golden" then golden_sphere npts rnd
  else if String.eqb sampling "sphere-projected-grid" then
    let n := fst (check_gridpts npts) in sphere_from_square_grid (n * 2) n rnd
  else if String.eqb sampling "spherical-polar-grid" then
    let n := fst (check_gridpts npts) in spherical_polar_grid (n * 2) n rnd
  else if String.eqb sampling "spherical-polar-improved" then spherical_polar_improved npts rnd2
  else if String.eqb sampling "random-sphere" then random_sphere npts always
  else Err UnknownSampling.

(** powder.py:323-327 [_get_default_bins] *)
Definition default_bins (freqs : list R) (f0 : R) (nbins : nat) : list R :=
  linspace 0 (Rmax_list f0 freqs * (105 / 100)) (nbins + 1).

(** powder.py:86-88, 191-193, 306-309 and 330-349 [_qpts_cart_to_frac], where [solve m b]
    is np.linalg.solve: the x with m x = b; the q-points whose modes are averaged.  A nan
    sample gives a nan q-point. *)
Definition powder_qpts (solve : M3 -> V3 -> V3) (recip : M3) (mod_q : R) (npts : nat) (sampling : string)
  (rnd : option (nat -> R * R)) (rnd2 : option (nat -> nat -> R * R)) (always : nat -> R * R) : res (list (option V3)) serr :=
  map_ok (option_map (fun p => solve (transpose recip) (vscal mod_q p))) (get_qpts_sphere npts sampling rnd rnd2 always).
