(** C86: what euphonic.plot draws. *)
From Coq Require Import String Sorted.
From Verif Require Import Base M_bins M_plot S_plot S_intmap L_plot L_plot2.
Open Scope R_scope.

(** C86.  Every line is drawn in pieces that together hold all its points, a new one wherever
    two x values in a row are the same; all pieces of a line have its colour, and only the
    first its label. *)
Theorem C86_lines : forall s labels colour a n, (forall p, In p (c1_lines s) -> length (fst p) = n) -> plot_1d_to_axis s labels colour = Ok a ->
  exists idx, repeats (c1_x s) idx /\ length (ax_segs a) = (length (c1_lines s) * S (length idx))%nat /\
  forall i y b, nth_error (c1_lines s) i = Some (y, b) -> exists c, shown_at (c1_x s) n c /\
  forall m, (m <= length idx)%nat -> exists g, nth_error (ax_segs a) (i * S (length idx) + m) = Some g /\
    let lo := start_of idx m in let hi := end_of idx n m in (lo <= hi <= n)%nat /\ piece_of c lo hi (sg_x g) /\ piece_of y lo hi (sg_y g) /\
    sg_label g = (if Nat.eqb m 0 then label_of (c1_lines s) labels i else None) /\ sg_colour g = (colour + i)%nat.
Proof. exact lines_drawn. Qed.
Print Assumptions C86_lines.

(** C86.  The frame reaches from the least to the greatest x value and holds every point. *)
Theorem C86_frame : forall s labels colour a n, (forall p, In p (c1_lines s) -> length (fst p) = n) -> plot_1d_to_axis s labels colour = Ok a ->
  least (ax_left a) (c1_x s) /\ greatest (ax_right a) (c1_x s) /\
  forall g v, In g (ax_segs a) -> In v (sg_x g) -> ax_left a <= v <= ax_right a.
Proof. exact frame_spec. Qed.
Print Assumptions C86_frame.

(** C86.  Each tick stands at the x value its number names, and the names are turned upright
    if one of them is longer than ten characters. *)
Theorem C86_ticks : forall s labels colour a, plot_1d_to_axis s labels colour = Ok a ->
  match c1_ticks s with
  | None => ax_ticks a = None
  | Some l => l <> [] /\ exists k, ax_ticks a = Some k /\ ticks_at (c1_x s) l (tk_at k) (tk_labels k) /\
      (tk_upright k = true <-> exists s, In s (map snd l) /\ (10 < String.length s)%nat)
  end.
Proof. exact axis_ticks. Qed.
Print Assumptions C86_ticks.

(** C86.  There is a plot if the numbers of values and labels fit and the tick numbers are
    those of x values; wrong numbers of labels and wrong tick numbers are refused. *)
Theorem C86_runs : forall s labels colour n, (forall p, In p (c1_lines s) -> length (fst p) = n) ->
  (length (c1_x s) = n \/ length (c1_x s) = S n) -> c1_x s <> [] ->
  (forall l, labels = Some l -> length l = length (c1_lines s)) ->
  (forall l, c1_ticks s = Some l -> l <> [] /\ forall p, In p l -> (- Z.of_nat (length (c1_x s)) <= fst p < Z.of_nat (length (c1_x s)))%Z) ->
  exists a, plot_1d_to_axis s labels colour = Ok a.
Proof. exact plot_runs. Qed.
Print Assumptions C86_runs.
Theorem C86_labels_refused : forall s l colour, length l <> length (c1_lines s) -> plot_1d_to_axis s (Some l) colour = Err LabelCount.
Proof. exact labels_refused. Qed.
Print Assumptions C86_labels_refused.
Theorem C86_tick_refused : forall s labels colour n l p, (forall p, In p (c1_lines s) -> length (fst p) = n) ->
  (length (c1_x s) = n \/ length (c1_x s) = S n) -> c1_x s <> [] ->
  (forall l, labels = Some l -> length l = length (c1_lines s)) -> c1_ticks s = Some l -> In p l ->
  ~ (- Z.of_nat (length (c1_x s)) <= fst p < Z.of_nat (length (c1_x s)))%Z -> plot_1d_to_axis s labels colour = Err TickIndex.
Proof. exact bad_tick_refused. Qed.
Print Assumptions C86_tick_refused.
Example C86_lines_meets : (exists a, plot_1d_to_axis (mkC1 [0; 1; 1; 2] [([5; 6; 7; 8], Some "a"%string); ([4; 3; 2; 1], None)]
    (Some [(0%Z, "G"%string); (3%Z, "X"%string)])) None 0 = Ok a) /\ repeats [0; 1; 1; 2] [2%nat].
Proof.
  split.
  - apply (plot_runs _ _ _ 4); cbn [c1_lines c1_x c1_ticks]; [|left; reflexivity|discriminate|discriminate|].
    + intros p [<-|[<-|[]]]; reflexivity.
    + intros l E. injection E as <-. split; [discriminate|]. intros p [<-|[<-|[]]]; cbn; lia.
  - split; [repeat constructor|]. intros b. split.
    + intros [<-|[]]. split; [cbn; lia|reflexivity].
    + intros [Hb E]. cbn [length] in Hb. destruct b as [|[|[|[|b]]]]; cbn in E; try lia; [lra|left; reflexivity|lra].
Qed.

(** C86, refuted for spectra cut into regions: a region without a labelled point cannot be
    plotted, although the whole spectrum can. *)
Theorem C86_unlabelled_region_refuted : forall (s : xspec R) idx ts m, length (xs s) = length (ys s) -> StronglySorted lt idx ->
  (forall b, In b idx -> (0 < b < length (ys s))%nat) -> ys s <> [] -> xticks s = Some ts -> (m <= length idx)%nat ->
  (forall z l, In (z, l) ts -> (z < Z.of_nat (start_of idx m))%Z \/ (m < length idx)%nat /\ (Z.of_nat (end_of idx (length (ys s)) m) <= z)%Z) ->
  exists segs g, split s (Some (map Z.of_nat idx)) None = Ok segs /\ nth_error segs m = Some g /\
  forall label colour, plot_1d_to_axis (mkC1 (xs g) [(ys g, label)] (xticks g)) None colour = Err NoTicks.
Proof. exact unlabelled_region. Qed.
Print Assumptions C86_unlabelled_region_refuted.
Example C86_unlabelled_meets : let s := mkX [0; 1; 2; 20; 21; 22; 40; 41; 42] [1; 2; 3; 4; 5; 6; 7; 8; 9] (Some [(0%Z, "G"%string); (8%Z, "X"%string)]) in
  (exists a, plot_1d_to_axis (mkC1 (xs s) [(ys s, None)] (xticks s)) None 0 = Ok a) /\
  (forall z l, In (z, l) [(0%Z, "G"%string); (8%Z, "X"%string)] -> (z < Z.of_nat (start_of [3; 6]%nat 1))%Z \/ (1 < 2)%nat /\ (Z.of_nat (end_of [3; 6]%nat 9 1) <= z)%Z).
Proof.
  split.
  - apply (plot_runs _ _ _ 9); cbn [c1_lines c1_x c1_ticks xs ys xticks]; [|left; reflexivity|discriminate|discriminate|].
    + intros p [<-|[]]; reflexivity.
    + intros l E. injection E as <-. split; [discriminate|]. intros p [<-|[<-|[]]]; cbn; lia.
  - intros z l [E|[E|[]]]; injection E as <- <-; cbn; lia.
Qed.

(** C86.  Several regions: one subplot each, all with the same limits of y, and as wide as
    their x axes are long, relative to the first. *)
Theorem C86_regions : forall spectra labels ymin ymax f, plot_1d spectra labels ymin ymax = Ok f ->
  length (fg_axes f) = length spectra /\ length (fg_widths f) = length spectra /\ fg_ymin f = ymin /\ fg_ymax f = ymax /\
  (forall i s, nth_error spectra i = Some s -> exists a, nth_error (fg_axes f) i = Some a /\ plot_1d_to_axis (u1_data s) labels 0 = Ok a) /\
  forall i s s0 w w0, nth_error spectra i = Some s -> nth_error spectra 0 = Some s0 -> span (c1_x (u1_data s)) w -> span (c1_x (u1_data s0)) w0 ->
  w0 <> 0 -> nth_error (fg_widths f) i = Some (Some (w / w0)).
Proof.
  intros spectra labels ymin ymax f E. destruct (figure_spec _ _ _ _ _ E) as (A & B & C & D & F & G).
  split; [exact A|]. split; [exact B|]. split; [exact C|]. split; [exact D|]. split; [exact F|].
  intros i s s0 w w0 E1 E2 S1 S2 N. rewrite (G i s s0 w w0 E1 E2 S1 S2). destruct (Reqb_spec w0 0); [contradiction|reflexivity].
Qed.
Print Assumptions C86_regions.
Theorem C86_regions_run : forall s0 rest labels ymin ymax, (forall s, In s rest -> u1_x s = u1_x s0 /\ u1_y s = u1_y s0) ->
  (forall s, In s (s0 :: rest) -> exists a, plot_1d_to_axis (u1_data s) labels 0 = Ok a) -> exists f, plot_1d (s0 :: rest) labels ymin ymax = Ok f.
Proof. exact figure_runs. Qed.
Print Assumptions C86_regions_run.
(** C86.  Regions in different units are refused. *)
Theorem C86_units_refused : forall s0 rest s labels ymin ymax, In s rest -> u1_x s <> u1_x s0 \/ u1_y s <> u1_y s0 ->
  plot_1d (s0 :: rest) labels ymin ymax = Err UnitsDiffer.
Proof. exact units_refused. Qed.
Print Assumptions C86_units_refused.
(** C86, refuted: if the x axis of the first region has no length, no region gets a width. *)
Theorem C86_zero_range_refuted : forall spectra labels ymin ymax f s0 i s, plot_1d spectra labels ymin ymax = Ok f ->
  nth_error spectra 0 = Some s0 -> span (c1_x (u1_data s0)) 0 -> nth_error spectra i = Some s -> (exists w, span (c1_x (u1_data s)) w) ->
  nth_error (fg_widths f) i = Some None.
Proof.
  intros spectra labels ymin ymax f s0 i s E E0 S0 Ei [w Sw]. destruct (figure_spec _ _ _ _ _ E) as (_ & _ & _ & _ & _ & G).
  rewrite (G i s s0 w 0 Ei E0 Sw S0). destruct (Reqb_spec 0 0); [reflexivity|congruence].
Qed.
Print Assumptions C86_zero_range_refuted.
Example C86_zero_range_meets : let a := mkU1 "1/A" "meV" (mkC1 [3] [([1], None)] None) in let b := mkU1 "1/A" "meV" (mkC1 [4; 6] [([1; 2], None)] None) in
  (exists f, plot_1d [a; b] None None None = Ok f) /\ span [3] 0 /\ span [4; 6] 2.
Proof.
  cbv zeta. split; [|split].
  - apply figure_runs; [intros s [<-|[]]; split; reflexivity|]. intros s [<-|[<-|[]]]; cbn [u1_data].
    + apply (plot_runs _ _ _ 1); cbn [c1_lines c1_x c1_ticks]; [intros p [<-|[]]; reflexivity|left; reflexivity|discriminate|discriminate|discriminate].
    + apply (plot_runs _ _ _ 2); cbn [c1_lines c1_x c1_ticks]; [intros p [<-|[]]; reflexivity|left; reflexivity|discriminate|discriminate|discriminate].
  - exists 3, 3. split; [split; [left; reflexivity|intros u [<-|[]]; lra]|]. split; [split; [left; reflexivity|intros u [<-|[]]; lra]|lra].
  - exists 4, 6. split; [split; [left; reflexivity|intros u [<-|[<-|[]]]; lra]|]. split; [split; [right; left; reflexivity|intros u [<-|[<-|[]]]; lra]|lra].
Qed.

(** C86.  A map: the value of x number i and y number j is drawn in row j and column i, at the
    points or in the middle of the bins, and the frame reaches over both axes. *)
Theorem C86_image : forall s vmin vmax im ny, even_rows ny (s2_z s) -> s2_z s <> [] -> rising (s2_x s) -> rising (s2_y s) -> plot_2d_to_axis s vmin vmax = Ok im ->
  shown_at (s2_x s) (length (s2_z s)) (im_x im) /\ shown_at (s2_y s) ny (im_y im) /\ length (im_a im) = ny /\
  (forall i j, (i < length (s2_z s))%nat -> (j < ny)%nat -> value_at (im_a im) j i = value_at (s2_z s) i j) /\
  im_extent im = (nth 0 (s2_x s) 0, nth (length (s2_x s) - 1) (s2_x s) 0, (nth 0 (s2_y s) 0, nth (length (s2_y s) - 1) (s2_y s) 0)) /\
  im_vmin im = vmin /\ im_vmax im = vmax /\
  match s2_ticks s with
  | None => im_ticks im = None
  | Some l => l <> [] /\ exists k, im_ticks im = Some k /\ ticks_at (s2_x s) l (tk_at k) (tk_labels k) /\
      (tk_upright k = true <-> exists s, In s (map snd l) /\ (10 < String.length s)%nat)
  end.
Proof.
  intros s vmin vmax im ny A B C D E. destruct (image_spec _ _ _ _ _ A B C D E) as (P1 & P2 & P3 & P4 & P5 & P6 & P7 & P8).
  split; [exact P1|]. split; [exact P2|]. split; [exact P3|]. split; [exact P4|]. split; [exact P5|]. split; [exact P6|]. split; [exact P7|]. exact (ticks_spec _ _ _ P8).
Qed.
Print Assumptions C86_image.
Theorem C86_image_runs : forall s vmin vmax ny, even_rows ny (s2_z s) -> s2_z s <> [] -> s2_x s <> [] -> s2_y s <> [] ->
  (length (s2_x s) = length (s2_z s) \/ length (s2_x s) = S (length (s2_z s))) -> (length (s2_y s) = ny \/ length (s2_y s) = S ny) ->
  (forall l, s2_ticks s = Some l -> l <> [] /\ forall p, In p l -> (- Z.of_nat (length (s2_x s)) <= fst p < Z.of_nat (length (s2_x s)))%Z) ->
  exists im, plot_2d_to_axis s vmin vmax = Ok im.
Proof. exact image_runs. Qed.
Print Assumptions C86_image_runs.

(** C86.  Several maps: one subplot each, as wide as its x axis is long.  All have the same
    colour scale: the limits asked for, else the least and the greatest intensity of all of
    them in the unit of the first, provided the first has a value. *)
Theorem C86_maps_partial : forall s0 rest vmin vmax f, plot_2d (s0 :: rest) vmin vmax = Ok f ->
  exists lo hi, length (f2_images f) = S (length rest) /\ length (f2_widths f) = S (length rest) /\
  (forall i s, nth_error (s0 :: rest) i = Some s -> exists im, nth_error (f2_images f) i = Some im /\ plot_2d_to_axis s lo hi = Ok im) /\
  (forall v, vmin = Some v -> lo = Some v) /\ (forall v, vmax = Some v -> hi = Some v) /\
  (vmin = None -> (exists v, numbers (s2_z s0) v) -> exists m, lo = Some m /\ least_of (intensity (s2_uz s0) (s0 :: rest)) m) /\
  (vmax = None -> (exists v, numbers (s2_z s0) v) -> exists m, hi = Some m /\ greatest_of (intensity (s2_uz s0) (s0 :: rest)) m) /\
  (forall i s, nth_error (s0 :: rest) i = Some s ->
     nth_error (f2_widths f) i = Some ((nth (length (s2_x s) - 1) (s2_x s) 0 - nth 0 (s2_x s) 0) * s2_ux s / s2_ux s0)).
Proof.
  intros s0 rest vmin vmax f E. destruct (map_figure _ _ _ _ _ E) as (lo & hi & A & B & C & D & F & G & H & _ & _ & K). exists lo, hi.
  split; [exact A|]. split; [exact B|]. split; [exact C|]. split; [exact D|]. split; [exact F|]. split; [exact G|]. split; [exact H|exact K].
Qed.
Print Assumptions C86_maps_partial.
Theorem C86_maps_run : forall s0 rest vmin vmax, (forall s, In s (s0 :: rest) -> s2_x s <> [] /\ (exists row v, In row (s2_z s) /\ In v row) /\
    forall lo hi, exists im, plot_2d_to_axis s lo hi = Ok im) -> exists f, plot_2d (s0 :: rest) vmin vmax = Ok f.
Proof. exact map_runs. Qed.
Print Assumptions C86_maps_run.


(** C86, refuted: maps in different intensity units are drawn on one colour scale with the
    numbers of their own units, so that equal intensities get different colours and values
    lie off the scale. *)
Theorem C86_map_units_refuted : forall v k, 0 < v -> 1 < k -> exists f m0 m1,
  plot_2d [pixel (Some v) 1; pixel (Some (v * k)) (1 / k)] None None = Ok f /\
  (forall w, intensity 1 [pixel (Some v) 1; pixel (Some (v * k)) (1 / k)] w <-> w = v) /\
  f2_images f = [m0; m1] /\ im_vmin m0 = Some v /\ im_vmax m0 = Some v /\ im_vmin m1 = Some v /\ im_vmax m1 = Some v /\
  value_at (im_a m0) 0 0 = Some v /\ value_at (im_a m1) 0 0 = Some (v * k) /\ v < v * k.
Proof. exact pixel_units. Qed.
Print Assumptions C86_map_units_refuted.
(** C86, refuted: if the first map is all gaps, there is no colour scale, whatever the others hold. *)
Theorem C86_gap_first_refuted : forall s0 rest f, plot_2d (s0 :: rest) None None = Ok f -> (forall v, ~ numbers (s2_z s0) v) ->
  forall im, In im (f2_images f) -> im_vmin im = None /\ im_vmax im = None.
Proof. exact gap_first. Qed.
Print Assumptions C86_gap_first_refuted.
Example C86_gap_meets : (exists f, plot_2d [pixel None 1; pixel (Some 2) 1] None None = Ok f) /\ (forall v, ~ numbers (s2_z (pixel None 1)) v).
Proof.
  split.
  - destruct (pixels_run None (Some 2) 1 1) as [f E]. exists f. exact E.
  - intros v (row & [<-|[]] & [E|[]]). discriminate.
Qed.
Example C86_image_meets : even_rows 1 (s2_z (pixel (Some 2) 1)) /\ rising (s2_x (pixel (Some 2) 1)) /\ exists im, plot_2d_to_axis (pixel (Some 2) 1) None None = Ok im.
Proof.
  split; [intros row [<-|[]]; reflexivity|]. split; [|apply (image_runs _ _ _ 1); [intros row [<-|[]]; reflexivity|discriminate|discriminate|discriminate|right; reflexivity|right; reflexivity|discriminate]].
  intros i j Hij Hj. cbn [s2_x pixel length] in *. destruct i as [|[|i]], j as [|[|j]]; cbn; try lia; lra.
Qed.
