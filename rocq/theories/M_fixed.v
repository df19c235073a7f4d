(** Model of fixed-width broadening and of the [broaden] methods of the spectrum
    classes: /repo/euphonic/spectra.py 221-304 ([_broaden_data], [_gfwhm_to_sigma]),
    596-671 (Spectrum1D), 1313-1396 (Spectrum1DCollection), 1528-1688 (Spectrum2D) and
    2087-2113 (the Lorentzian kernel).
    Simplifications: axes and widths are magnitudes in the axis' displayed unit; the
    scipy functions gaussian_filter and correlate1d (mode='constant', zeros beyond the
    ends) are modelled by their documented formulas; real numbers replace floats.
    An array filled with NaN is [None].  In [broaden2d] spectra live in a store, so that
    "new object" and "the same object" can be told apart; tick labels and metadata,
    which are copied, are left out. *)
From Coq Require Import String.
From Verif Require Import Base M_cell M_path M_broad M_dos M_bins.
Open Scope R_scope.

Inductive fwerr :=
  | BadShapeName          (* ValueError 236-238 *)
  | BadMethodName         (* ValueError 239-242 *)
  | UnequalBins           (* ValueError 259-264 *)
  | OneBin                (* IndexError 253: bin_widths[0] of a single bin *)
  | InfiniteSigma         (* OverflowError in gaussian_filter: all centres coincide *)
  | NotAWidth             (* TypeError 668, 1396 *)
  | BinsErr (e : binerr)
  | InterpErr (e : berr).

(** ** scipy.ndimage *)

(** correlate1d(a, w, mode='constant'): zeros beyond both ends, [w] of odd length. *)
Definition at0 (a : list R) (z : Z) : R := if (z <? 0)%Z then 0 else nth (Z.to_nat z) a 0.
Definition correlate (a w : list R) : list R :=
  map (fun i => sumn (length w) (fun k =>
         nth k w 0 * at0 a (Z.of_nat i + Z.of_nat k - Z.of_nat (length w / 2))))
      (seq 0 (length a)).

(** dist / np.sum(dist) *)
Definition normalised (w : list R) : list R := map (fun x => x / Rsum w) w.

(** gaussian_filter's kernel: exp(-x^2/2 sigma^2) for |x| <= int(4 sigma + 0.5), normalised. *)
Definition gauss_radius (sigma : R) : nat := Z.to_nat (Int_part (4 * sigma + 1 / 2)).
Definition gauss_weights (sigma : R) : list R :=
  let lw := gauss_radius sigma in
  normalised (map (fun k => exp (- (1 / 2) / sigma ^ 2 * (INR k - INR lw) ^ 2)) (seq 0 (2 * lw + 1))).

(** What happens along one axis: nothing, a correlation, or only NaNs. *)
Inductive kern := Skip | Weights (w : list R) | Nans.

(** spectra.py:286-304 [_gfwhm_to_sigma]: sigma in units of the mean bin size, for a
    non-zero mean. *)
Definition mean_diff (c : list R) : R := Rsum (np_diffR c) / INR (length (np_diffR c)).
Definition gfwhm_to_sigma (fwhm : R) (c : list R) : R := fwhm / (2 * sqrt (2 * ln 2)) / mean_diff c.

(** spectra.py:267-274, and gaussian_filter's rule that an axis with sigma <= 1e-15 is
    left alone.  All centres equal: sigma is +inf (int(inf) raises), -inf or nan. *)
Definition gauss_kern (fwhm : R) (c : list R) : res kern fwerr :=
  if Reqb (mean_diff c) 0 then (if Rltb 0 fwhm then Err InfiniteSigma else Ok Skip)
  else let s := gfwhm_to_sigma fwhm c in
       if Rltb (1 / 10 ^ 15) s then Ok (Weights (gauss_weights s)) else Ok Skip.

(** spectra.py:2101-2108 [_get_dist_bins]: np.linspace(-range, range, 2 n + 1) *)
Definition dist_bins (c : list R) : list R :=
  let r := last c 0 - hd 0 c in
  map (fun k => - r + INR k * (2 * r / INR (2 * length c))) (seq 0 (2 * length c + 1)).

(** spectra.py:2087-2098 [_distribution_1d].  For a zero width the value at 0 is 0/0. *)
Definition lorentz_kern (w : R) (c : list R) : kern :=
  if Reqb w 0 then Nans else Weights (normalised (map (lorentzian w) (dist_bins c))).

(** spectra.py:249-254: the check of one axis that is to be broadened. *)
Definition unequal (c : list R) : res bool fwerr :=
  match np_diffR c with
  | [] => Err OneBin
  | w0 :: ws => Ok (negb (forallb (fun w => isclose (1 / 10 ^ 8) w w0) (w0 :: ws)))
  end.

(** spectra.py:235-242 *)
Definition shape_of (s : string) : res kshape fwerr :=
  if String.eqb s "gauss" then Ok Gauss else if String.eqb s "lorentz" then Ok Lorentz else Err BadShapeName.
Definition method_ok (m : option string) : bool :=
  match m with None => true | Some m => String.eqb m "convolve" end.

(** spectra.py:246-267: the axes are checked in turn; with method=None unequal bins are
    refused, with method='convolve' a warning is given ([true]). *)
Fixpoint any_unequal (axes : list (option R * list R)) : res bool fwerr :=
  match axes with
  | [] => Ok false
  | (None, _) :: rest => any_unequal rest
  | (Some _, c) :: rest =>
      match unequal c with
      | Err e => Err e
      | Ok b => match any_unequal rest with Err e => Err e | Ok b' => Ok (orb b b') end
      end
  end.
Definition checked (axes : list (option R * list R)) (shape : string) (method : option string)
  : res (kshape * bool) fwerr :=
  match shape_of shape with
  | Err e => Err e
  | Ok sh =>
    if method_ok method then
      match any_unequal axes with
      | Err e => Err e
      | Ok true => match method with None => Err UnequalBins | Some _ => Ok (sh, true) end
      | Ok false => Ok (sh, false)
      end
    else Err BadMethodName
  end.

(** spectra.py:269-282: what is done along one axis. *)
Definition axis_kern (sh : kshape) (width : option R) (c : list R) : res kern fwerr :=
  match width with
  | None => Ok Skip
  | Some w => match sh with Gauss => gauss_kern w c | Lorentz => Ok (lorentz_kern w c) end
  end.
Definition apply (k : kern) (a : list R) : option (list R) :=
  match k with Skip => Some a | Weights w => Some (correlate a w) | Nans => None end.

(** [_broaden_data] for one axis: (warned, data). *)
Definition broaden_data1 (data c : list R) (width : R) (shape : string) (method : option string)
  : res (bool * option (list R)) fwerr :=
  match checked [(Some width, c)] shape method with
  | Err e => Err e
  | Ok (sh, warned) =>
    match axis_kern sh (Some width) c with
    | Err e => Err e
    | Ok k => Ok (warned, apply k data)
    end
  end.

(** A 2-D array as its rows; [columns n] swaps the axes of an array with rows of length n. *)
Definition columns (n : nat) (z : list (list R)) : list (list R) :=
  map (fun j => map (fun r => nth j r 0) z) (seq 0 n).
Definition along_y (k : kern) (z : list (list R)) : option (list (list R)) :=
  match k with Skip => Some z | Weights w => Some (map (fun r => correlate r w) z) | Nans => None end.
Definition along_x (k : kern) (ny : nat) (z : list (list R)) : option (list (list R)) :=
  match k with
  | Skip => Some z
  | Weights w => Some (columns (length z) (map (fun r => correlate r w) (columns ny z)))
  | Nans => None
  end.

(** [_broaden_data] for two axes: first x (axis 0), then y (axis 1). *)
Definition broaden_data2 (z : list (list R)) (ny : nat) (cx cy : list R) (wx wy : option R)
  (shape : string) (method : option string) : res (bool * option (list (list R))) fwerr :=
  match checked [(wx, cx); (wy, cy)] shape method with
  | Err e => Err e
  | Ok (sh, warned) =>
    match axis_kern sh wx cx, axis_kern sh wy cy with
    | Err e, _ => Err e
    | _, Err e => Err e
    | Ok kx, Ok ky =>
      Ok (warned, match along_x kx ny z with None => None | Some z' => along_y ky z' end)
    end
  end.

(** A width argument: absent, a Quantity, or a function of the axis value. *)
Inductive width := NoWidth | Fixed (w : R) | Varying (f : R -> R).

Definition lift {A} (r : res A binerr) : res A fwerr := match r with Ok a => Ok a | Err e => Err (BinsErr e) end.
Definition liftb {A} (r : res A berr) : res A fwerr := match r with Ok a => Ok a | Err e => Err (InterpErr e) end.

(** spectra.py:596-671 Spectrum1D.broaden, on the x axis and the y values; [None] data
    are NaNs. *)
Definition broaden1d (coeffs : R -> list R) (x y : list R) (wd : width) (shape : string) (method : option string)
  (lower : option R) (conv : wconv) (error : R) (fit : kfit) : res (bool * option (list R)) fwerr :=
  match wd with
  | Fixed w =>
    match lift (get_bin_centres (length y) x) with
    | Err e => Err e
    | Ok c => broaden_data1 y c w shape method
    end
  | Varying f =>
    match lift (assert_regular_bins regular_rtol 0 (length y) x),
          lift (get_bin_edges (length y) x), lift (get_bin_centres (length y) x) with
    | Ok _, Ok e, Ok c =>
      match shape_of shape with
      | Err er => Err er
      | Ok sh =>
        let bw := hd 0 (np_diffR e) in
        match liftb (variable_width_broadening coeffs e (combine c (map (fun v => v * bw) y)) f lower conv error sh fit) with
        | Err er => Err er
        | Ok out => Ok (false, Some out)
        end
      end
    | Err er, _, _ => Err er
    | _, Err er, _ => Err er
    | _, _, Err er => Err er
    end
  | NoWidth => Err NotAWidth
  end.

(** spectra.py:1371-1396 Spectrum1DCollection.broaden: every line on its own; the first
    failure is raised.  [warned] is true if some line warned. *)
Fixpoint lines_broadened (f : list R -> res (bool * option (list R)) fwerr) (ys : list (list R))
  : res (bool * list (option (list R))) fwerr :=
  match ys with
  | [] => Ok (false, [])
  | y :: ys' =>
    match f y with
    | Err e => Err e
    | Ok (b, d) =>
      match lines_broadened f ys' with Err e => Err e | Ok (b', ds) => Ok (orb b b', d :: ds) end
    end
  end.
Definition broaden_lines (coeffs : R -> list R) (x : list R) (ys : list (list R)) (wd : width) (shape : string)
  (method : option string) (lower : option R) (conv : wconv) (error : R) (fit : kfit) :=
  lines_broadened (fun y => broaden1d coeffs x y wd shape method lower conv error fit) ys.

(** ** Spectrum2D *)

(** x axis, y axis, intensities ([None]: NaNs). *)
Record spec2 := mk2 { sx : list R; sy : list R; sz : option (list (list R)) }.

(** Number of y values of a map: the length of its first row (np shape). *)
Definition ncols (z : list (list R)) : nat := length (hd [] z).

(** The loop 1669-1679: the rows one after the other, the first failure is raised. *)
Fixpoint rows_broadened (g : list R -> res (list R) berr) (rows : list (list R)) : res (list (list R)) fwerr :=
  match rows with
  | [] => Ok []
  | r :: rows' =>
    match liftb (g r) with
    | Err e => Err e
    | Ok out => match rows_broadened g rows' with Err e => Err e | Ok outs => Ok (out :: outs) end
    end
  end.

(** spectra.py:1637-1688 [_broaden_spectrum2d_with_function] along y, on rows. *)
Definition varying_rows (coeffs : R -> list R) (n : nat) (axis : list R) (rows : list (list R)) (f : R -> R)
  (lower : option R) (conv : wconv) (error : R) (sh : kshape) (fit : kfit) : res (list (list R)) fwerr :=
  match lift (get_bin_edges n axis), lift (get_bin_centres n axis) with
  | Ok e, Ok c =>
    let d := np_diffR e in
    let bw := if forallb (fun w => isclose (1 / 10 ^ 8) w (hd 0 d)) d then hd 0 d
              else Rsum d / INR (length d) in                                          (* 1655-1658 *)
    rows_broadened (fun r =>
      variable_width_broadening coeffs e (combine c (map (fun v => v * bw) r)) f lower conv error sh fit) rows
  | Err er, _ => Err er
  | _, Err er => Err er
  end.

(** One pass of the loop 1623-1633. NaN intensities stay NaN. *)
Definition varying_axis (coeffs : R -> list R) (isx : bool) (s : spec2) (f : R -> R)
  (lower : option R) (conv : wconv) (error : R) (sh : kshape) (fit : kfit) : res spec2 fwerr :=
  match sz s with
  | None => Ok s
  | Some z =>
    if isx then
      match varying_rows coeffs (length z) (sx s) (columns (ncols z) z) f lower conv error sh fit with
      | Err e => Err e
      | Ok t => Ok (mk2 (sx s) (sy s) (Some (columns (length z) t)))
      end
    else
      match varying_rows coeffs (ncols z) (sy s) z f lower conv error sh fit with
      | Err e => Err e
      | Ok t => Ok (mk2 (sx s) (sy s) (Some t))
      end
  end.

(** The objects that exist, by number. *)
Notation store := (list spec2).
Definition get (st : store) (r : nat) : spec2 := nth r st (mk2 [] [] None).
Definition put (st : store) (r : nat) (s : spec2) : store := firstn r st ++ [s] ++ skipn (S r) st.
(** spectra.py:1505-1508 [__imul__] *)
Definition imul (st : store) (r : nat) (k : R) : store :=
  let s := get st r in put st r (mk2 (sx s) (sy s) (option_map (map (map (fun v => v * k))) (sz s))).

Definition fixed_part (w : width) : option R := match w with Fixed v => Some v | _ => None end.
(** Python's truth value of a list entry: None and 0.0 are false. *)
Definition truthy (w : option R) : bool := match w with None => false | Some v => negb (Reqb v 0) end.

(** spectra.py:1598-1618: the fixed widths of both axes in one go.  The result is the
    number of the object holding the outcome: the same object if there is nothing to do.
    [z] is the intensity of the spectrum itself. *)
Definition fixed_stage (st : store) (r : nat) (z : list (list R)) (wx wy : option R) (shape : string) (method : option string)
  : res (store * nat) fwerr :=
  if (truthy wx || truthy wy)%bool then
    match lift (get_bin_centres (length z) (sx (get st r))), lift (get_bin_centres (ncols z) (sy (get st r))) with
    | Ok cx, Ok cy =>
      match broaden_data2 z (ncols z) cx cy wx wy shape method with
      | Err e => Err e
      | Ok (_, z') => Ok (st ++ [mk2 (sx (get st r)) (sy (get st r)) z'], length st)
      end
    | Err e, _ => Err e
    | _, Err e => Err e
    end
  else Ok (st, r).

(** The loop 1621-1633 for one axis: a function makes a further new object. *)
Definition varying_stage (coeffs : R -> list R) (isx : bool) (wd : width) (shape : string) (lower : option R) (conv : wconv)
  (error : R) (fit : kfit) (sr : store * nat) : res (store * nat) fwerr :=
  match wd with
  | Varying f =>
    match shape_of shape with
    | Err e => Err e
    | Ok sh =>
      match varying_axis coeffs isx (get (fst sr) (snd sr)) f lower conv error sh fit with
      | Err e => Err e
      | Ok s => Ok (fst sr ++ [s], length (fst sr))
      end
    end
  | _ => Ok sr
  end.

(** spectra.py:1528-1635 Spectrum2D.broaden of object [r].  The regularity check of the
    x axis (1602-1606) only gives a warning, which is left out; its errors (an axis of
    the wrong length) are those of the bin getters that follow. *)
Definition broaden2d (coeffs : R -> list R) (st : store) (r : nat) (wx wy : width) (shape : string) (method : option string)
  (lowx lowy : option R) (conv : wconv) (error : R) (fit : kfit) : res (store * nat) fwerr :=
  match sz (get st r) with
  | None => Ok (st, r)                             (* intensities are numbers on entry *)
  | Some z =>
    match fixed_stage st r z (fixed_part wx) (fixed_part wy) shape method with
    | Err e => Err e
    | Ok sr =>
      match varying_stage coeffs true wx shape lowx conv error fit sr with
      | Err e => Err e
      | Ok sr' => varying_stage coeffs false wy shape lowy conv error fit sr'
      end
    end
  end.
