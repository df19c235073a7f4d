(** Model of [apply_kinematic_constraints] and [_get_cos_range],
    /repo/euphonic/spectra.py 1971-2084.
    Simplifications: real numbers; the axes are in 1/angstrom and meV (units are the
    subject of M_units.v) and the two checks of their dimensions (2006-2017) are left
    out; [hm] is hbar^2/(2 m_n) in meV angstrom^2, positive; NaN is [None]. *)
From Verif Require Import Base M_qpts M_path M_dos M_bins.
Open Scope R_scope.

(** divmod(x, y) of floats, y > 0 *)
Definition py_divmod (x y : R) : Z * R := let n := Int_part (x / y) in (n, x - IZR n * y).

(** spectra.py:2066-2084 [_get_cos_range], angles in radians: (largest, smallest) *)
Definition cos_range (a b : R) : R * R :=
  let '(shift, lower) := py_divmod (Rmin a b) (PI * 2) in
  let upper := Rmax a b - IZR shift * 2 * PI in
  let l0 := [cos b] in
  let l1 := if (Rltb lower PI && Rltb PI upper)%bool then l0 ++ [-1] else l0 in
  let l2 := if (Rltb lower (2 * PI) && Rltb (2 * PI) upper)%bool then l1 ++ [1] else l1 in
  (Rmax_list (cos a) l2, Rmin_list (cos a) l2).

(** One of the two bounds, spectra.py:2046-2051: sqrt(k2_i + k2_f - 2 cos sqrt(k2_i k2_f))
    in complex numbers: None if the result has an imaginary part.  sqrt of a negative
    product is imaginary; sqrt of a complex number is real exactly if the number is real
    and not negative. *)
Definition q_bound (ki2 kf2 c : R) : option R :=
  let p := ki2 * kf2 in
  let re := ki2 + kf2 - 2 * c * (if Rltb p 0 then 0 else sqrt p) in
  let im := - (2 * c * (if Rltb p 0 then sqrt (- p) else 0)) in
  if (negb (Reqb im 0) || Rltb re 0)%bool then None else Some (sqrt re).

(** spectra.py:2053-2061, one bin: [lo, hi] its edges, (ki2, kf2) of its energy centre.
    An imaginary bound replaces both bounds by (Inf, -Inf), which masks every bin. *)
Definition masked (ki2 kf2 : R) (cr : R * R) (lo hi : R) : bool :=
  match q_bound ki2 kf2 (fst cr), q_bound ki2 kf2 (snd cr) with
  | Some q0, Some q1 => Rltb hi q0 || Rltb q1 lo
  | _, _ => true
  end.

Inductive kinerr := NotExactlyOne (* ValueError, 2022-2025 *) | Bins (e : binerr).

(** spectra.py:2022-2035: incident and final energy for each energy transfer *)
Definition energies (e_i e_f : option R) (w : R) : res (R * R) kinerr :=
  match e_i, e_f with
  | None, Some f => Ok (w + f, f)
  | Some i, None => Ok (i, i - w)
  | _, _ => Err NotExactlyOne
  end.

(** spectra.py:2037-2063; angle_range in degrees; z is nx by ny *)
Definition apply_kinematic_constraints (hm : R) (e_i e_f : option R) (ang : R * R) (nx ny : nat) (x y : list R)
  (z : nat -> nat -> R) : res (nat -> nat -> option R) kinerr :=
  match energies e_i e_f 0 with
  | Err e => Err e
  | Ok _ =>
      match get_bin_centres ny y, get_bin_edges nx x with
      | Err e, _ => Err (Bins e)
      | _, Err e => Err (Bins e)
      | Ok cs, Ok es =>
          let cr := cos_range (fst ang * PI / 180) (snd ang * PI / 180) in
          Ok (fun i j =>
            match energies e_i e_f (nth j cs 0) with
            | Err _ => None
            | Ok (ei, ef) => if masked (ei / hm) (ef / hm) cr (nth i es 0) (nth (S i) es 0) then None else Some (z i j)
            end)
      end
  end.
