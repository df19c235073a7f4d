(** Model of the interpolated variable-width broadening of
    /repo/euphonic/broadening.py.  Real numbers replace floats; FFT convolution
    is the exact discrete convolution; non-negative least squares and the cubic
    fit of [find_coeffs] (286-326) are outside the model: their result enters as
    the coefficient list [coeffs].  Warnings are not modelled. *)
From Verif Require Import Base Vec3 M_cell.
Open Scope R_scope.

Inductive kshape := Gauss | Lorentz.                        (* broadening.py:19 *)
Inductive kfit := ChebyLog | Cubic.                         (* broadening.py:18 *)
Inductive wconv := Fwhm | Std.                              (* broadening.py:27 *)
Inductive berr :=
  | ErrorOutOfRange            (* 196-198 ValueError *)
  | FitUnavailable             (* 200-203 ValueError *)
  | NoStdForLorentz            (* 75-77 ValueError *)
  | EmptyWidths                (* 238: max() of an empty array *)
  | NotMonotonic.              (* np.histogram ValueError *)

(** np.polyval, highest power first. *)
Definition polyval (p : list R) (x : R) : R := fold_left (fun acc c => acc * x + c) p 0.

(** numpy.polynomial.Chebyshev: series sum c_k T_k, argument mapped affinely from
    [domain] to [window] (off + scl*x with numpy's mapparms). *)
Fixpoint cheb_sum (c : list R) (t0 t1 x : R) : R :=
  match c with
  | [] => 0
  | a :: c' => a * t0 + cheb_sum c' t1 (2 * x * t1 - t0) x
  end.
Definition chebyshev (c : list R) (domain window : R * R) (x : R) : R :=
  let '(d0, d1) := domain in let '(w0, w1) := window in
  let scl := (w1 - w0) / (d1 - d0) in
  let off := (d1 * w0 - d0 * w1) / (d1 - d0) in
  cheb_sum c 1 (off + scl * x) (off + scl * x).

Definition e8 (n : Z) : R := IZR n / 10 ^ 8.
(** broadening.py:178-181 *)
Definition lorentz_coeffs : list R :=
  [e8 126039672; e8 39900457; e8 20392176; e8 8602507; e8 3337662; e8 878684; e8 619626].
(** broadening.py:187-190 *)
Definition gauss_coeffs : list R :=
  [e8 125885858; e8 39803148; e8 20311735; e8 8654827; e8 3447873; e8 894006; e8 715706].
Definition log10 (x : R) : R := ln x / ln 10.

(** broadening.py:165-203 [_get_spacing].  For [error] <= 0 numpy's log10 gives
    -inf or nan; the model is used with error > 0. *)
Definition get_spacing (error : R) (shape : kshape) (fit : kfit) : res R berr :=
  match fit, shape with
  | Cubic, Gauss => Ok (polyval [6127/10; -1227/10; 1540/100; 10831/10000] error)      (* 174-175 *)
  | ChebyLog, _ =>
    let '(c, domain, window, lo, hi) :=
      match shape with
      | Lorentz => (lorentz_coeffs, (e8 (-499146317), e8 (-134655197)), (1, 1), -4, -135/100)   (* 177-184 *)
      | Gauss => (gauss_coeffs, (e8 (-464180022), e8 (-100029948)), (-1, 1), -4, -1)           (* 186-193 *)
      end in
    let le := log10 error in
    if Rltb le lo || Rltb hi le then Err ErrorOutOfRange else Ok (chebyshev c domain window le)
  | Cubic, Lorentz => Err FitUnavailable
  end.

(** scipy.stats.norm.pdf(x, scale=s) and broadening.py:161-162 [_lorentzian]. *)
Definition norm_pdf (s x : R) : R := exp (- (x / s) ^ 2 / 2) / (s * sqrt (2 * PI)).
Definition lorentzian (g x : R) : R := g / (2 * PI * (x ^ 2 + (g / 2) ^ 2)).
Definition kernel_fun (shape : kshape) : R -> R -> R :=
  match shape with Gauss => norm_pdf | Lorentz => lorentzian end.

Definition np_diffR (l : list R) : list R := map (fun p => snd p - fst p) (combine l (tl l)).
Definition max_list (l : list R) : R := fold_left Rmax (tl l) (hd 0 l).
Definition min_list (l : list R) : R := fold_left Rmin (tl l) (hd 0 l).

(** np.searchsorted(samples, w, side="right") on an increasing array: the number
    of samples not exceeding w. *)
Definition searchsorted_right (samples : list R) (w : R) : nat :=
  length (filter (fun s => Rleb s w) samples).

(** np.histogram with explicit edges: half-open bins, the last one closed. *)
Definition in_bin (bins : list R) (j : nat) (x : R) : bool :=
  Rleb (nth j bins 0) x &&
  (if Nat.eqb (S (S j)) (length bins) then Rleb x (nth (S j) bins 0) else Rltb x (nth (S j) bins 0)).
Definition nondecreasing (l : list R) : bool := forallb (fun p => Rleb (fst p) (snd p)) (combine l (tl l)).
Definition histogram (bins : list R) (xw : list (R * R)) : list R :=
  map (fun j => Sum xw (fun p => if in_bin bins j (fst p) then snd p else 0)) (seq 0 (length bins - 1)).

(** scipy.signal.convolve(a, k, mode="same"): the central part, of the length of
    [a], of the full convolution. *)
Definition convolve_full (a k : list R) (m : nat) : R :=
  sumn (length a) (fun j => if (Nat.leb j m && Nat.ltb (m - j) (length k))%bool
                            then nth j a 0 * nth (m - j) k 0 else 0).
Definition convolve_same (a k : list R) : list R :=
  let start := ((length a + length k - 1 - length a) / 2)%nat in
  map (fun i => convolve_full a k (i + start)) (seq 0 (length a)).

(** broadening.py:244-247: positions at which the kernels are evaluated. *)
Definition kernel_positions (n : nat) (bin_width : R) : list R :=
  if Nat.even n
  then map (fun i => (- (INR n / 2) + 1 + INR i) * bin_width) (seq 0 (n - 1))
  else map (fun i => (- INR (n / 2) + INR i) * bin_width) (seq 0 (n / 2 + n / 2 + 1)).

(** Points are triples (position, width, weight): the three ravelled arrays. *)
Notation point := (R * R * R)%type.
Definition px (p : point) : R := fst (fst p).
Definition pwidth (p : point) : R := snd (fst p).
Definition pweight (p : point) : R := snd p.

(** broadening.py:262-281: one pass of the loop.  The state is (previous block
    with its upper weights, spectrum).  The i == 1 branch is the general one with
    an empty previous block. *)
Definition broaden_step (bins : list R) (bin_width : R) (samples : list R) (kernels : list (list R))
  (lower_coeffs : list R) (pts : list point) (st : list (R * R) * list R) (i : nat) : list (R * R) * list R :=
  let '(prev, spectrum) := st in
  let block := filter (fun p => Nat.eqb (searchsorted_right samples (pwidth p)) i) pts in      (* 263 *)
  let lower p := polyval lower_coeffs (pwidth p / nth (i - 1) samples 0) * pweight p in         (* 264-266 *)
  let hist := histogram bins (map (fun xw => (fst xw, snd xw / bin_width))                      (* 268-276 *)
                                  (prev ++ map (fun p => (px p, lower p)) block)) in
  (map (fun p => (px p, pweight p - lower p)) block,                                            (* 278-279 *)
   map (fun ab => fst ab + snd ab) (combine spectrum (convolve_same hist (nth (i - 1) kernels [])))). (* 281 *)

(** broadening.py:206-283 [_width_interpolated_broadening]; [coeffs spacing] is the
    result of [find_coeffs] (line 259). *)
Definition n_kernels (spacing : R) (widths : list R) : nat :=                                   (* 237-238 *)
  Z.to_nat (Rceil (ln (max_list widths / min_list widths) / ln spacing)).
Definition width_samples (spacing : R) (widths : list R) : list R :=                            (* 239 *)
  map (fun k => spacing ^ k * min_list widths) (seq 0 (n_kernels spacing widths + 1)).
Definition interpolated_broadening (coeffs : R -> list R) (bins : list R) (pts : list point)
  (error : R) (shape : kshape) (fit : kfit) : res (list R) berr :=
  match get_spacing error shape fit with
  | Err e => Err e
  | Ok spacing =>
    match pts with
    | [] => Err EmptyWidths
    | _ =>
      let bin_width := hd 0 (np_diffR bins) in                                                  (* 228-235 *)
      let widths := map pwidth pts in
      let samples := width_samples spacing widths in
      let xs := kernel_positions (length bins) bin_width in
      let kernels := map (fun s => map (fun x => kernel_fun shape s x * bin_width) xs) samples in  (* 249-254 *)
      let lower_coeffs := if Nat.eqb (length kernels) 1 then [1] else coeffs spacing in         (* 258-262 *)
      if nondecreasing bins then
        Ok (snd (fold_left (broaden_step bins bin_width samples kernels lower_coeffs pts)
                           (seq 1 (length samples)) ([], repeat 0 (length bins - 1))))
      else Err NotMonotonic
    end
  end.

(** broadening.py:21-101 [variable_width_broadening]: FWHM converted to sigma for
    Gaussians, widths bounded below (default: the widest bin).  Everything is in
    the unit of [bins]; the returned density carries the weights' unit. *)
Definition sigma_function (conv : wconv) (shape : kshape) (w : R -> R) : res (R -> R) berr :=   (* 73-83 *)
  match conv, shape with
  | Fwhm, Gauss => Ok (fun x => w x / sqrt (8 * ln 2))
  | Std, Lorentz => Err NoStdForLorentz
  | _, _ => Ok w
  end.
Definition variable_width_broadening (coeffs : R -> list R) (bins : list R) (xw : list (R * R))
  (w : R -> R) (lower_limit : option R) (conv : wconv) (error : R) (shape : kshape) (fit : kfit)
  : res (list R) berr :=
  match sigma_function conv shape w with
  | Err e => Err e
  | Ok s =>
    let lim := match lower_limit with Some l => l | None => max_list (np_diffR bins) end in     (* 87-90 *)
    interpolated_broadening coeffs bins (map (fun p => (fst p, Rmax (s (fst p)) lim, snd p)) xw) error shape fit
  end.
