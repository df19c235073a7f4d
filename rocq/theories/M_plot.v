(** Model of what euphonic.plot hands to Matplotlib: /repo/euphonic/plot.py 21-95
    [plot_1d_to_axis], 98-195 [plot_1d], 198-245 [plot_2d_to_axis], 248-324 [plot_2d],
    327-339 [_set_x_tick_labels], 342-365 [_get_gridspec_kw].
    Simplifications: Matplotlib is what it is given: an axes object is its lines or its image,
    limits and ticks; titles, labels of the axes, legends, styles and the keyword arguments
    for lines are left out.  A colour is its number in the colour cycle.  A Spectrum1D is a
    collection of one line (from_spectra, 46-48).  Numbers are magnitudes in the unit
    displayed. *)
From Coq Require Import String.
From Verif Require Import Base M_qpts M_path M_broad M_dos M_bins.
Open Scope R_scope.

Inductive plerr :=
  | LabelCount               (* ValueError 58-61 *)
  | NoTicks                  (* ValueError 331: nothing to unpack *)
  | TickIndex                (* IndexError 333 *)
  | UnitsDiffer              (* ValueError 167-172 *)
  | NothingToPlot            (* min of an empty array, or no spectra at all *)
  | AxisErr (e : binerr).

(** x_data, the values and the label in the metadata of every line, tick labels *)
Record coll1 := mkC1 { c1_x : list R; c1_lines : list (list R * option string); c1_ticks : option ticks }.
(** One call of Axes.plot *)
Record segment := mkSeg { sg_x : list R; sg_y : list R; sg_label : option string; sg_colour : nat }.
Record tickset := mkTk { tk_at : list R; tk_labels : list string; tk_upright : bool }.
Record axes1 := mkA1 { ax_segs : list segment; ax_left : R; ax_right : R; ax_ticks : option tickset }.

(** 64-66 without the [0] and [None] *)
Definition restarts (x : list R) : list Z :=
  map (fun i => (Z.of_nat i + 1)%Z) (where_true (map (fun p => Reqb (fst p) (snd p)) (combine (removelast x) (tl x)))).

(** x_values[locs]: numpy indexing by a list, negative numbers count from the end *)
Definition np_take (x : list R) (locs : list Z) : res (list R) plerr :=
  mapE (fun i => let n := Z.of_nat (List.length x) in
     if ((i <? - n) || (n <=? i))%Z%bool then Err TickIndex
     else match nth_error x (Z.to_nat (if (i <? 0)%Z then i + n else i)%Z) with Some v => Ok v | None => Err TickIndex end) locs.
(** 327-339 *)
Definition set_x_tick_labels (t : option ticks) (x : list R) : res (option tickset) plerr :=
  match t with
  | None => Ok None
  | Some [] => Err NoTicks
  | Some l =>
    match np_take x (map fst l) with
    | Err e => Err e
    | Ok v => Ok (Some (mkTk v (map snd l) (existsb (fun s => Nat.leb 11 (String.length s)) (map snd l))))
    end
  end.

(** 73-85: the segments of one line; [colour] is what the cycle gives next *)
Definition line_segments (centres y : list R) (label : option string) (colour : nat) (ranges : list (Z * option Z)) : list segment :=
  map (fun r => mkSeg (pyslice centres (fst r) (snd r)) (pyslice y (fst r) (snd r)) (if Z.eqb (fst r) 0 then label else None) colour) ranges.
(** 71-85; the cycle moves on by one for every line *)
Fixpoint all_segments (x : list R) (lines : list (list R * option string)) (colour : nat) : res (list segment) plerr :=
  match lines with
  | [] => Ok []
  | (y, label) :: lines =>
    match get_bin_centres (List.length y) x with
    | Err e => Err (AxisErr e)
    | Ok c =>
      match all_segments x lines (S colour) with
      | Err e => Err e
      | Ok s => Ok (line_segments c y label colour (ranges_from_indices (restarts x)) ++ s)
      end
    end
  end.
(** 21-95 *)
Definition plot_1d_to_axis (s : coll1) (labels : option (list string)) (colour : nat) : res axes1 plerr :=
  match (match labels with
         | None => Ok (c1_lines s)
         | Some l => if Nat.eqb (List.length l) (List.length (c1_lines s))
                     then Ok (map (fun p => (fst (snd p), Some (fst p))) (combine l (c1_lines s))) else Err LabelCount
         end) with
  | Err e => Err e
  | Ok lines =>
    match all_segments (c1_x s) lines colour with
    | Err e => Err e
    | Ok segs =>
      match c1_x s with
      | [] => Err NothingToPlot
      | x0 :: xr =>
        match set_x_tick_labels (c1_ticks s) (c1_x s) with
        | Err e => Err e
        | Ok t => Ok (mkA1 segs (Rmin_list x0 xr) (Rmax_list x0 xr) t)
        end
      end
    end
  end.

(** 342-365; None: nan, where the range of the first is zero *)
Definition x_range (x : list R) : res R plerr :=
  match x with [] => Err NothingToPlot | x0 :: xr => Ok (Rmax_list x0 xr - Rmin_list x0 xr) end.
Definition gridspec_kw (spectra : list coll1) : res (list (option R)) plerr :=
  match mapE (fun s => x_range (c1_x s)) spectra with
  | Err e => Err e
  | Ok [] => Ok []
  | Ok (w0 :: ws) => Ok (map (fun w => if Reqb w0 0 then None else Some (w / w0)) (w0 :: ws))
  end.

(** 98-195.  A unit is its name; the subplots with their widths and the limits of y. *)
Record u1 := mkU1 { u1_x : string; u1_y : string; u1_data : coll1 }.
Record fig1 := mkF1 { fg_axes : list axes1; fg_widths : list (option R); fg_ymin : option R; fg_ymax : option R }.
Definition plot_1d (spectra : list u1) (labels : option (list string)) (ymin ymax : option R) : res fig1 plerr :=
  match spectra with
  | [] => Err NothingToPlot
  | s0 :: rest =>
    if negb (forallb (fun s => (String.eqb (u1_x s) (u1_x s0) && String.eqb (u1_y s) (u1_y s0))%bool) rest) then Err UnitsDiffer else
    match gridspec_kw (map u1_data spectra) with
    | Err e => Err e
    | Ok w =>
      match mapE (fun s => plot_1d_to_axis (u1_data s) labels 0) spectra with
      | Err e => Err e
      | Ok a => Ok (mkF1 a w ymin ymax)
      end
    end
  end.

(** A Spectrum2D: x_data, y_data and z_data (a row for every x; None: nan) with tick labels, and
    the values of its three units in some common ones *)
Record s2 := mkS2 { s2_x : list R; s2_y : list R; s2_z : list (list (option R)); s2_ticks : option ticks; s2_ux : R; s2_uy : R; s2_uz : R }.
(** NonUniformImage.set_data(x, y, A): A has a row for every y *)
Record image := mkIm { im_x : list R; im_y : list R; im_a : list (list (option R)); im_extent : R * R * (R * R); im_vmin : option R; im_vmax : option R; im_ticks : option tickset }.
Definition n_columns (z : list (list (option R))) : nat := List.length (hd [] z).
Definition transpose2 (z : list (list (option R))) : list (list (option R)) :=
  map (fun j => map (fun r => nth j r None) z) (seq 0 (n_columns z)).
(** 198-245 with the norm of 315 *)
Definition plot_2d_to_axis (s : s2) (vmin vmax : option R) : res image plerr :=
  match get_bin_edges (List.length (s2_z s)) (s2_x s), get_bin_edges (n_columns (s2_z s)) (s2_y s),
        get_bin_centres (List.length (s2_z s)) (s2_x s), get_bin_centres (n_columns (s2_z s)) (s2_y s) with
  | Ok (x0 :: xe), Ok (y0 :: ye), Ok xc, Ok yc =>
    match set_x_tick_labels (s2_ticks s) (s2_x s) with
    | Err e => Err e
    | Ok t => Ok (mkIm xc yc (transpose2 (s2_z s)) (Rmin_list x0 xe, Rmax_list x0 xe, (Rmin_list y0 ye, Rmax_list y0 ye)) vmin vmax t)
    end
  | Err e, _, _, _ | _, Err e, _, _ | _, _, Err e, _ | _, _, _, Err e => Err (AxisErr e)
  | _, _, _, _ => Err NothingToPlot
  end.

(** np.nanmin, np.nanmax: None is nan, if there is nothing else *)
Definition finite (l : list (option R)) : list R := flat_map (fun v => match v with Some r => [r] | None => [] end) l.
Definition nanmin (l : list (option R)) : option R := match finite l with [] => None | a :: r => Some (Rmin_list a r) end.
Definition nanmax (l : list (option R)) : option R := match finite l with [] => None | a :: r => Some (Rmax_list a r) end.
(** Python's min and max of a tuple: a comparison with nan is false *)
Definition py_min (a b : option R) : option R := match a, b with Some x, Some y => if Rltb y x then b else a | _, _ => a end.
Definition py_max (a b : option R) : option R := match a, b with Some x, Some y => if Rltb x y then b else a | _, _ => a end.
(** z_data.to(intensity_unit), x_data.to(x_unit) *)
Definition in_unit (u u0 : R) (v : R) : R := v * u / u0.
Definition z_in (u0 : R) (s : s2) : list (option R) := map (option_map (in_unit (s2_uz s) u0)) (List.concat (s2_z s)).
(** 289-292 *)
Definition q_range (u0 : R) (s : s2) : res R plerr :=
  match s2_x s with [] => Err NothingToPlot | x0 :: xr => Ok (in_unit (s2_ux s) u0 (last xr x0) - in_unit (s2_ux s) u0 x0) end.
Record fig2 := mkF2 { f2_images : list image; f2_widths : list R }.
(** 248-324 *)
Definition plot_2d (spectra : list s2) (vmin vmax : option R) : res fig2 plerr :=
  match spectra with
  | [] => Err NothingToPlot
  | s0 :: rest =>
    match mapE (q_range (s2_ux s0)) spectra with
    | Err e => Err e
    | Ok w =>
      if existsb (fun s => match List.concat (s2_z s) with [] => true | _ => false end) spectra then Err NothingToPlot else
      let lo := fold_left py_min (map (fun s => nanmin (z_in (s2_uz s0) s)) rest) (nanmin (z_in (s2_uz s0) s0)) in
      let hi := fold_left py_max (map (fun s => nanmax (z_in (s2_uz s0) s)) rest) (nanmax (z_in (s2_uz s0) s0)) in
      let vmin' := match vmin with Some v => Some v | None => lo end in
      let vmax' := match vmax with Some v => Some v | None => hi end in
      match mapE (fun s => plot_2d_to_axis s vmin' vmax') spectra with
      | Err e => Err e
      | Ok im => Ok (mkF2 im w)
      end
    end
  end.
