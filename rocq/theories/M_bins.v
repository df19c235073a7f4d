(** Model of the bin axes and of [split] of the spectrum classes:
    /repo/euphonic/spectra.py 152-219, 306-392 (base class), 471-481, 1195-1206,
    1516-1526 (the three [_split_by_indices]) and 1699-1770 (the 2-D versions of
    the bin getters, which differ only in which axis and which data length they use).
    Simplifications: axes are the magnitudes in the displayed unit (units are the
    subject of M_units.v); an axis is described by its values and the length [n] of
    the intensity data along it. *)
From Coq Require Import String.
From Verif Require Import Base M_qpts M_path M_broad M_dos.
Open Scope R_scope.

Inductive binerr :=
  | UnexpectedLength     (* ValueError, spectra.py:323-327 *)
  | EmptyAxis            (* IndexError: bin_centres[0] of an empty axis, or widths[0] *)
  | NotRegular           (* AssertionError, spectra.py:390-392 *)
  | BothGiven            (* ValueError, spectra.py:217 *)
  | BadShape.            (* ValueError from _check_constructor_inputs, spectra.py:448-451 *)

(** spectra.py:317-327 [_is_bin_edge] *)
Definition is_bin_edge (data_length bin_length : nat) : res bool binerr :=
  if Nat.eqb bin_length (data_length + 1) then Ok true
  else if Nat.eqb bin_length data_length then Ok false
  else Err UnexpectedLength.

(** spectra.py:310-315 [_bin_centres_to_edges] *)
Definition centres_to_edges (c : list R) : res (list R) binerr :=
  match c with
  | [] => Err EmptyAxis
  | c0 :: rest =>
      Ok ([c0] ++ map (fun p => (fst p + snd p) / 2) (combine rest (removelast c)) ++ [last c c0])
  end.

(** spectra.py:329-345 and 1699-1723 [get_bin_edges] *)
Definition get_bin_edges (n : nat) (x : list R) : res (list R) binerr :=
  match is_bin_edge n (length x) with
  | Err e => Err e
  | Ok true => Ok x
  | Ok false => centres_to_edges x
  end.

(** spectra.py:347-361 and 1725-1745 [get_bin_centres] *)
Definition get_bin_centres (n : nat) (x : list R) : res (list R) binerr :=
  match is_bin_edge n (length x) with
  | Err e => Err e
  | Ok true => Ok (edges_to_centres x)
  | Ok false => Ok x
  end.

(** spectra.py:363-367 [get_bin_widths] *)
Definition get_bin_widths (n : nat) (x : list R) : res (list R) binerr :=
  match get_bin_edges n x with Err e => Err e | Ok e => Ok (np_diffR e) end.

(** np.isclose with explicit tolerances *)
Definition isclose_tol (rtol atol a b : R) : bool := Rleb (Rabs (a - b)) (atol + rtol * Rabs b).

(** spectra.py:369-392 [assert_regular_bins] *)
Definition assert_regular_bins (rtol atol : R) (n : nat) (x : list R) : res unit binerr :=
  match get_bin_widths n x with
  | Err e => Err e
  | Ok [] => Err EmptyAxis
  | Ok (w0 :: ws) =>
      if forallb (fun w => isclose_tol rtol atol w w0) (w0 :: ws) then Ok tt else Err NotRegular
  end.
Definition regular_rtol : R := 1 / 10 ^ 5.

(** Python slicing l[a:b] with step 1: negative positions count from the end, both
    ends are clipped. *)
Definition clip (n : nat) (i : Z) : nat :=
  Z.to_nat (if (i <? 0)%Z then Z.max 0 (i + Z.of_nat n) else Z.min i (Z.of_nat n)).
Definition pyslice {A} (l : list A) (a : Z) (b : option Z) : list A :=
  let lo := clip (length l) a in
  let hi := match b with None => length l | Some b => clip (length l) b end in
  firstn (hi - lo) (skipn lo l).

(** spectra.py:159-171 [_ranges_from_indices] *)
Fixpoint pairs_from (a : Z) (l : list Z) : list (Z * option Z) :=
  match l with
  | [] => [(a, None)]
  | b :: l' => (a, Some b) :: pairs_from b l'
  end.
Definition ranges_from_indices (indices : list Z) : list (Z * option Z) := pairs_from 0 indices.

Notation ticks := (list (Z * string)).
(** spectra.py:173-183 [_cut_x_ticks] *)
Definition cut_x_ticks (t : option ticks) (x0 : Z) (x1 : option Z) : option ticks :=
  match t with
  | None => None
  | Some t =>
      Some (map (fun p => ((fst p - x0)%Z, snd p))
             (filter (fun p => ((x0 <=? fst p)%Z && match x1 with None => true | Some x1 => (fst p <? x1)%Z end)%bool) t))
  end.

(** One spectrum as [split] sees it: x axis, one datum per x position (a number for
    Spectrum1D, a column of lines for Spectrum1DCollection, a row z[i,:] for
    Spectrum2D, a slab z[:,i,:] for Spectrum2DCollection) and tick labels.
    The metadata object and, in 2-D, the y axis are handed on unchanged. *)
Record xspec (A : Type) := mkX { xs : list R; ys : list A; xticks : option ticks }.
Arguments mkX {A}. Arguments xs {A}. Arguments ys {A}. Arguments xticks {A}.

(** The constructor's check of the x axis, spectra.py:444-451, 1182-1185, 1477-1485, 1881-1889 *)
Definition mk_xspec {A} (x : list R) (y : list A) (t : option ticks) : res (xspec A) binerr :=
  if (Nat.eqb (length x) (length y) || Nat.eqb (length x) (length y + 1))%bool then Ok (mkX x y t) else Err BadShape.

(** spectra.py:471-481, 1195-1206, 1516-1526, 1897-1909 [_split_by_indices] *)
Definition split_by_indices {A} (s : xspec A) (indices : list Z) : res (list (xspec A)) binerr :=
  mapE (fun r => mk_xspec (pyslice (xs s) (fst r) (snd r)) (pyslice (ys s) (fst r) (snd r))
                          (cut_x_ticks (xticks s) (fst r) (snd r)))
       (ranges_from_indices indices).

(** np.median; None stands for the nan of an empty array. *)
Fixpoint insert_sorted (a : R) (l : list R) : list R :=
  match l with
  | [] => [a]
  | b :: l' => if Rleb a b then a :: l else b :: insert_sorted a l'
  end.
Definition sortR (l : list R) : list R := fold_right insert_sorted [] l.
Definition median (l : list R) : option R :=
  match l with
  | [] => None
  | _ => let s := sortR l in let n := length l in
         Some (if Nat.odd n then nth (n / 2) s 0 else (nth (n / 2 - 1) s 0 + nth (n / 2) s 0) / 2)
  end.

(** spectra.py:152-156: np.where((diff / median) > btol)[0] + 1.  A zero median gives
    +inf for positive gaps, nan for zero gaps and -inf for negative ones; for an
    axis with fewer than two points there is no gap at all. *)
Definition breakpoints (btol : R) (x : list R) : list Z :=
  let d := np_diffR x in
  match median d with
  | None => []
  | Some m =>
      map (fun i => (Z.of_nat i + 1)%Z)
        (where_true (map (fun g => if Reqb m 0 then Rltb 0 g else Rltb btol (g / m)) d))
  end.

(** spectra.py:185-219 [split] *)
Definition split {A} (s : xspec A) (indices : option (list Z)) (btol : option R) : res (list (xspec A)) binerr :=
  match indices with
  | None => split_by_indices s (breakpoints (match btol with None => 10 | Some b => b end) (xs s))
  | Some idx => match btol with Some _ => Err BothGiven | None => split_by_indices s idx end
  end.
