(** C29, C30: bin edges and centres, splitting. *)
From Coq Require Import String.
From Verif Require Import Base M_qpts M_path M_broad M_dos M_bins S_broad S_bins L_bins L_bins2 L_tight2.
Open Scope R_scope.

(** C29.  [x] has one more value than the data: it is returned as the edges, and the
    centres are the midpoints, one per datum and inside their bins. *)
Theorem C29_edge_axis : forall n x, length x = (n + 1)%nat -> increasing x ->
  get_bin_edges n x = Ok x /\
  exists c, get_bin_centres n x = Ok c /\ length c = n /\
  forall i, (i < n)%nat -> nth i c 0 = (nth i x 0 + nth (S i) x 0) / 2 /\ nth i x 0 < nth i c 0 < nth (S i) x 0.
Proof. exact edges_axis. Qed.
Print Assumptions C29_edge_axis.

(** C29.  [x] has one value per datum: it is returned as the centres; there is one more
    edge than centres, the edges bracket every centre, increase, stay within the data
    and lie half-way between neighbouring centres. *)
Theorem C29_centre_axis : forall n x, length x = n -> (0 < n)%nat -> increasing x ->
  get_bin_centres n x = Ok x /\
  exists e, get_bin_edges n x = Ok e /\ length e = (n + 1)%nat /\
  nth 0 e 0 = nth 0 x 0 /\ nth n e 0 = nth (n - 1) x 0 /\
  (forall i, (0 < i < n)%nat -> nth i e 0 = (nth (i - 1) x 0 + nth i x 0) / 2) /\
  (forall i, (i < n)%nat -> nth i e 0 <= nth i x 0 <= nth (S i) e 0) /\
  ((2 <= n)%nat -> forall i, (i < n)%nat -> nth i e 0 < nth (S i) e 0).
Proof. exact centres_axis. Qed.
Print Assumptions C29_centre_axis.

(** C29.  Any other length is refused. *)
Theorem C29_other_lengths_refused : forall n x, length x <> n -> length x <> (n + 1)%nat ->
  get_bin_edges n x = Err UnexpectedLength /\ get_bin_centres n x = Err UnexpectedLength.
Proof. exact wrong_length. Qed.
Print Assumptions C29_other_lengths_refused.

(** C29, the round trip for regular spacing.  The property asks that all centres come
    back.  Every interior centre does; the first and the last move inwards by a quarter
    of the spacing, whatever the axis, because the end bins are half-size.  So the
    claim as stated fails for every axis of two or more points. *)
Theorem C29_regular_round_trip_refuted : forall a h n x, 0 < h -> (2 <= n)%nat -> regular a h n x ->
  exists e, get_bin_edges n x = Ok e /\ length (edges_to_centres e) = n /\
  (forall i, (0 < i < n - 1)%nat -> nth i (edges_to_centres e) 0 = nth i x 0) /\
  nth 0 (edges_to_centres e) 0 = nth 0 x 0 + h / 4 /\
  nth (n - 1) (edges_to_centres e) 0 = nth (n - 1) x 0 - h / 4.
Proof. exact regular_back. Qed.
Print Assumptions C29_regular_round_trip_refuted.

(** C29.  The evenness check on an edge axis accepts exactly the axes whose widths are
    within one part in 10^5 of the first. *)
Theorem C29_evenness_check : forall n x, length x = (n + 1)%nat -> (0 < n)%nat ->
  (assert_regular_bins regular_rtol 0 n x = Ok tt <->
   forall i, (i < n)%nat -> Rabs ((nth (S i) x 0 - nth i x 0) - (nth 1 x 0 - nth 0 x 0)) <= 1 / 100000 * Rabs (nth 1 x 0 - nth 0 x 0)).
Proof. exact regular_check. Qed.
Print Assumptions C29_evenness_check.

(** C29.  On a point axis the same check refuses every evenly spaced axis of three or
    more points, so variable-width broadening of such data is never possible. *)
Theorem C29_even_points_rejected_refuted : forall a h n x, 0 < h -> (3 <= n)%nat -> regular a h n x ->
  assert_regular_bins regular_rtol 0 n x = Err NotRegular.
Proof. exact regular_centres_rejected. Qed.
Print Assumptions C29_even_points_rejected_refuted.

(** C29.  An axis without bins is refused by the evenness check. *)
Theorem C29_no_bins_refused : forall rtol atol x, (length x <= 1)%nat -> assert_regular_bins rtol atol 0 x = Err EmptyAxis.
Proof. exact no_bins_refused. Qed.
Print Assumptions C29_no_bins_refused.

Example C29_nonvacuous : increasing [0; 1; 3] /\ regular 2 (1/2) 4 [2; 5/2; 3; 7/2] /\
  get_bin_edges 3 [0; 1; 3] = Ok [0; (1 + 0) / 2; (3 + 1) / 2; 3].
Proof. exact C29_example. Qed.

(** C30.  Splitting at ordered breakpoints within the data, for a point axis (k = 0) or
    an edge axis (k = 1) and for any kind of data per x position: there is one segment
    more than breakpoints; the segments' axes and data, concatenated, are the original
    ones, segment j covering the positions between breakpoints j-1 and j; the tick labels,
    moved back by the start of their segment, are the original ones, each exactly once, and
    each lies within its own segment.  (For an edge axis see the next theorem.) *)
Theorem C30_split_loses_nothing : forall (A : Type) (s : xspec A) k idx,
  length (xs s) = (length (ys s) + k)%nat -> (k <= 1)%nat ->
  ordered_within (length (ys s)) idx ->
  (forall p, In p (own_ticks s) -> (0 <= fst p)%Z) ->
  exists segs, split s (Some idx) None = Ok segs /\ length segs = S (length idx) /\
    concat (map xs segs) = xs s /\ concat (map ys segs) = ys s /\
    (forall j, (j < length idx)%nat -> length (xs (nth j segs s)) = length (ys (nth j segs s)) /\
               length (ys (nth j segs s)) = Z.to_nat (nth j idx 0%Z - nth j (0%Z :: idx) 0%Z)) /\
    length (xs (nth (length idx) segs s)) = (length (ys (nth (length idx) segs s)) + k)%nat /\
    Permutation (glued_ticks 0 segs) (own_ticks s) /\
    (forall j p, (j < length segs)%nat -> In p (own_ticks (nth j segs s)) ->
        (0 <= fst p)%Z /\ ((j < length idx)%nat -> (fst p < Z.of_nat (length (xs (nth j segs s))))%Z)) /\
    (forall j, (j < length segs)%nat -> (xticks (nth j segs s) = None <-> xticks s = None)).
Proof. exact @split_parts. Qed.
Print Assumptions C30_split_loses_nothing.

(** C30.  With an edge axis the segments before the last lose their closing edge and
    are read as point data from then on: for every such spectrum and every interior
    breakpoint, the bin centres of the first segment are the left edges of its bins, strictly
    left of the original centres, and its bins no longer reach the breakpoint. *)
Theorem C30_edge_axis_refuted : forall (A : Type) (s : xspec A) i,
  length (xs s) = (length (ys s) + 1)%nat -> increasing (xs s) -> (0 < i < length (ys s))%nat ->
  exists s1 s2 c, split s (Some [Z.of_nat i]) None = Ok [s1; s2] /\
  get_bin_centres (length (ys s)) (xs s) = Ok c /\
  length (ys s1) = i /\
  get_bin_centres (length (ys s1)) (xs s1) = Ok (firstn i (xs s)) /\
  (forall k, (k < i)%nat -> nth k (firstn i (xs s)) 0 < nth k c 0) /\
  (forall e, get_bin_edges (length (ys s1)) (xs s1) = Ok e -> last e 0 < nth i (xs s) 0).
Proof. exact @split_edges_shift. Qed.
Print Assumptions C30_edge_axis_refuted.

(** C30.  Without explicit breakpoints the spectrum is split exactly at the gaps wider
    than [btol] (10 by default) times the median gap. *)
Theorem C30_automatic_breakpoints : forall (A : Type) (s : xspec A) btol,
  increasing (xs s) -> (2 <= length (xs s))%nat ->
  (length (xs s) = length (ys s) \/ length (xs s) = (length (ys s) + 1)%nat) ->
  exists idx m, split s None btol = split s (Some idx) None /\
  ordered_within (length (ys s)) idx /\ NoDup idx /\
  is_median m (gaps (xs s)) /\ 0 < m /\
  forall b, In b idx <-> exists i, (S i < length (xs s))%nat /\ b = Z.of_nat (S i) /\
    (match btol with None => 10 | Some r => r end) * m < nth (S i) (xs s) 0 - nth i (xs s) 0.
Proof. exact @split_auto. Qed.
Print Assumptions C30_automatic_breakpoints.

(** C30.  Breakpoints out of order are accepted and duplicate data. *)
Theorem C30_unordered_refuted : exists (s : xspec R) idx segs, length (xs s) = length (ys s) /\
  (forall i, In i idx -> (0 <= i <= Z.of_nat (length (ys s)))%Z) /\
  split s (Some idx) None = Ok segs /\ concat (map ys segs) <> ys s.
Proof. exact split_unsorted. Qed.
Print Assumptions C30_unordered_refuted.

Example C30_nonvacuous : let s := mkX [0; 1; 2; 5; 6] [10; 11; 12; 13; 14] (Some [(0%Z, "G"%string); (3%Z, "X"%string)]) in
  ordered_within (length (ys s)) [3%Z] /\ increasing (xs s) /\
  split s (Some [3%Z]) None = Ok [mkX [0; 1; 2] [10; 11; 12] (Some [(0%Z, "G"%string)]);
                                  mkX [5; 6] [13; 14] (Some [(0%Z, "X"%string)])].
Proof. exact C30_example. Qed.

(** C30.  Giving both breakpoints and a tolerance is refused. *)
Theorem C30_both_refused : forall (A : Type) (s : xspec A) idx b, split s (Some idx) (Some b) = Err BothGiven.
Proof. exact @split_both. Qed.
Print Assumptions C30_both_refused.

(** C30 fails for breakpoints counted from the end, which numpy slicing accepts: axis and
    data are cut at the right place, but the first segment loses all its tick labels and
    the second gets all labels of the spectrum, moved up by m. *)
Theorem C30_negative_index_refuted : forall (A : Type) (s : xspec A) (t : ticks) m, length (xs s) = length (ys s) -> xticks s = Some t ->
  (forall p, In p t -> (0 <= fst p)%Z) -> (0 < m <= Z.of_nat (length (ys s)))%Z ->
  let n := Z.to_nat (Z.of_nat (length (ys s)) - m) in
  split s (Some [(- m)%Z]) None =
  Ok [mkX (firstn n (xs s)) (firstn n (ys s)) (Some []);
      mkX (skipn n (xs s)) (skipn n (ys s)) (Some (map (fun p => ((fst p + m)%Z, snd p)) t))].
Proof. exact @split_negative. Qed.
Print Assumptions C30_negative_index_refuted.
