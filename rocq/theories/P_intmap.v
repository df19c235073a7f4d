(** Property C83: the intensity map tool. *)
From Coq Require Import String Sorted.
From Verif Require Import Base M_path M_broad S_broad M_dos S_dos M_bins S_bins M_fixed S_fixed S_powder M_intmap S_intmap L_intmap2 L_intmap4 L_intmap5 L_intmap6.
Open Scope R_scope.

(** C83.  Of force constants, with --weighting dos and no broadening, the map has one row per
    q-point of the path and one column per energy bin; entry times bin width is (times
    --scale, if given) 3/(number of modes) times the number of modes of that q-point in that
    bin.  It is drawn in regions, which are the parts of the path between its breaks. *)
Theorem C83_map : forall coeffs k room wmin a labels p bins, 0 < k -> (1 <= ia_ebins a)%nat -> path_data p -> length labels = nq (pd_t p) -> i_bins k room a (pd_t p) = Ok bins ->
  ia_weighting a = "dos"%string -> ia_qb a = None -> ia_eb a = None ->
  exists s segs idx, intensity_tool coeffs k room wmin a (IForce labels p) = Ok (bins, s, segs) /\ xs s = pd_x p /\ length (ys s) = nq (pd_t p) /\
  region_starts labels idx /\ cut_at s idx segs /\
  forall i j, (i < nq (pd_t p))%nat -> (j < ia_ebins a)%nat -> exists v, shows s i j v /\
    v * (nth (S j) bins 0 - nth j bins 0) = factor a * (3 / INR (nm (pd_t p)) * modes_in k (pd_t p) (nth j bins 0) (nth (S j) bins 0) i).
Proof. exact force_map. Qed.
Print Assumptions C83_map.

(** C83.  Of precalculated modes or frequencies the entries are the same; a new region starts
    where the step of the x axis is more than --btol times the median step. *)
Theorem C83_map_of_modes : forall coeffs k room wmin a d bins, 0 < k -> (1 <= ia_ebins a)%nat -> path_data (path_of d) -> (forall l p, d <> IForce l p) ->
  climbs (pd_x (path_of d)) -> (2 <= length (pd_x (path_of d)))%nat -> i_bins k room a (pd_t (path_of d)) = Ok bins ->
  ia_weighting a = "dos"%string -> ia_qb a = None -> ia_eb a = None ->
  exists s segs idx m, intensity_tool coeffs k room wmin a d = Ok (bins, s, segs) /\ xs s = pd_x (path_of d) /\ length (ys s) = nq (pd_t (path_of d)) /\
  is_median m (gaps (xs s)) /\ StronglySorted lt idx /\ (forall b, In b idx <-> (0 < b < length (xs s))%nat /\ big_gap (ia_btol a) m (nth b (xs s) 0 - nth (b - 1) (xs s) 0)) /\
  cut_at s idx segs /\
  forall i j, (i < nq (pd_t (path_of d)))%nat -> (j < ia_ebins a)%nat -> exists v, shows s i j v /\
    v * (nth (S j) bins 0 - nth j bins 0) = factor a * (3 / INR (nm (pd_t (path_of d))) * modes_in k (pd_t (path_of d)) (nth j bins 0) (nth (S j) bins 0) i).
Proof. exact modes_map. Qed.
Print Assumptions C83_map_of_modes.

(** C83.  The energy axis: --ebins equal bins, from --e-min to --e-max where given. *)
Theorem C83_energy_axis : forall k room a t bins, (1 <= ia_ebins a)%nat -> i_bins k room a t = Ok bins ->
  exists lo hi, lo < hi /\ even_bins lo hi (ia_ebins a) bins /\ increasing bins /\ (forall e, ia_emin a = Some e -> lo = e) /\ (forall e, ia_emax a = Some e -> hi = e).
Proof. exact i_bins_spec. Qed.
Print Assumptions C83_energy_axis.

(** C83.  With neither given every mode of the path is inside, if one of them is positive. *)
Theorem C83_covers : forall k room a t, 0 < room -> (1 <= ia_ebins a)%nat -> ia_emin a = None -> ia_emax a = None ->
  (exists q m, (q < nq t)%nat /\ (m < nm t)%nat /\ 0 < freq t q m * k) ->
  exists bins, i_bins k room a t = Ok bins /\ forall q m, (q < nq t)%nat -> (m < nm t)%nat -> nth 0 bins 0 < freq t q m * k < nth (ia_ebins a) bins 0.
Proof. exact i_bins_cover. Qed.
Print Assumptions C83_covers.

(** C83.  --scale multiplies every intensity, of the map and of its regions, and changes
    nothing else. *)
Theorem C83_scale : forall coeffs k room wmin a d c bins s segs, ia_scale a = None -> intensity_tool coeffs k room wmin a d = Ok (bins, s, segs) ->
  let f := option_map (map (fun v => v * c)) in
  intensity_tool coeffs k room wmin (with_options a (ia_qb a) (ia_eb a) (Some c)) d
  = Ok (bins, mkX (xs s) (map f (ys s)) (xticks s), map (fun g => mkX (xs g) (map f (ys g)) (xticks g)) segs).
Proof. exact scale_only. Qed.
Print Assumptions C83_scale.

(** C83.  --q-broadening and one --energy-broadening value, for either weighting: every
    entry is shared out with Gaussian weights of total one.  Partial: the weights along the
    energy axis have the requested width (up to their spacing, C76), those along the path
    depend on the number of points between two entries, each counted as one average step. *)
Theorem C83_broadening_partial : forall coeffs k room wmin a d bins s0 segs0 qb eb hy, 0 < k -> (2 <= ia_ebins a)%nat -> path_data (path_of d) -> (1 <= length (pd_x (path_of d)))%nat ->
  ia_shape a = "gauss"%string -> intensity_tool coeffs k room wmin (with_options a None None None) d = Ok (bins, s0, segs0) ->
  hy = (nth (ia_ebins a) bins 0 - nth 0 bins 0) / INR (ia_ebins a) ->
  (qb = None \/ exists w, qb = Some w /\ 0 < w /\ 0 < mean_step (xs s0) /\ (2 <= length (xs s0))%nat /\ mean_step (xs s0) < 10 ^ 14 * w) ->
  (eb = None \/ exists w r, eb = Some (w, r) /\ 0 < w /\ hy < 10 ^ 14 * w) ->
  exists s segs z z' Kx Ky, intensity_tool coeffs k room wmin (with_options a qb eb None) d = Ok (bins, s, segs) /\
  xs s = xs s0 /\ xticks s = xticks s0 /\ ys s0 = map Some z /\ ys s = map Some z' /\ length z = length (xs s0) /\ length z' = length z /\ rect (ia_ebins a) z /\ rect (ia_ebins a) z' /\
  ((qb = None /\ untouched Kx) \/ exists w M, qb = Some w /\ shares Kx M /\ gaussian_of_fwhm w (mean_step (xs s0)) Kx M /\ (mean_step (xs s0) <= 3 * w -> (1 <= M)%nat)) /\
  ((eb = None /\ untouched Ky) \/ exists w r M, eb = Some (w, r) /\ shares Ky M /\ gaussian_of_fwhm w hy Ky M) /\
  forall i j, (i < length z)%nat -> (j < ia_ebins a)%nat -> cell z' i j =
    sumn (ia_ebins a) (fun j' => sumn (length z) (fun i' => cell z i' j' * Kx (Z.of_nat i - Z.of_nat i')%Z) * Ky (Z.of_nat j - Z.of_nat j')%Z).
Proof. exact gauss_tool. Qed.
Print Assumptions C83_broadening_partial.

(** C83 is false of several --energy-broadening values, which the help describes as the
    coefficients of a polynomial in energy: only the first has an effect. *)
Theorem C83_polynomial_refuted : forall coeffs k room wmin a d qb w r r' sc,
  intensity_tool coeffs k room wmin (with_options a qb (Some (w, r)) sc) d = intensity_tool coeffs k room wmin (with_options a qb (Some (w, r')) sc) d.
Proof. exact first_only. Qed.
Print Assumptions C83_polynomial_refuted.

(** C83 is false of --q-broadening of a path with a break: intensity crosses it.  Whenever
    a mode of the last point before the break is in an energy bin in which the first point
    after it has none, and the width is at least a third of the average step, the first point
    of the next region shows zero there without --q-broadening and something positive with
    it, however far apart the two q-points are. *)
Theorem C83_break_refuted : forall coeffs k room wmin a labels p bins w b j m, 0 < k -> (2 <= ia_ebins a)%nat -> path_data p -> length labels = nq (pd_t p) ->
  i_bins k room a (pd_t p) = Ok bins -> ia_weighting a = "dos"%string -> ia_shape a = "gauss"%string ->
  0 < mean_step (pd_x p) -> mean_step (pd_x p) <= 3 * w -> starts_region labels b -> (j < ia_ebins a)%nat ->
  (m < nm (pd_t p))%nat -> inside (nth j bins 0) (nth (S j) bins 0) (k * freq (pd_t p) (b - 1) m) = true ->
  (forall m', (m' < nm (pd_t p))%nat -> inside (nth j bins 0) (nth (S j) bins 0) (k * freq (pd_t p) b m') = false) ->
  exists s0 segs0 s segs m g0 g v,
    intensity_tool coeffs k room wmin (with_options a None None None) (IForce labels p) = Ok (bins, s0, segs0) /\
    intensity_tool coeffs k room wmin (with_options a (Some w) None None) (IForce labels p) = Ok (bins, s, segs) /\
    nth_error segs0 (S m) = Some g0 /\ nth_error segs (S m) = Some g /\ xs g = xs g0 /\ nth_error (xs g) 0 = nth_error (pd_x p) b /\
    shows g0 0 j 0 /\ shows g 0 j v /\ 0 < v.
Proof. exact leak_dos. Qed.
Print Assumptions C83_break_refuted.

(** C83.  What is refused: coherent weighting of frequencies without eigenvectors, and a
    temperature for precalculated modes. *)
Theorem C83_refused : forall coeffs k room wmin a p, ia_weighting a = "coherent"%string ->
  intensity_tool coeffs k room wmin a (IFreqs p) = Err NeedsEigenvectors /\
  forall t, ia_temperature a = Some t -> intensity_tool coeffs k room wmin a (IModes p) = Err NeedsForceConstants.
Proof. intros coeffs k room wmin a p E. split; [exact (needs_evecs coeffs k room wmin a p E)|intros t; exact (needs_force coeffs k room wmin a p t E)]. Qed.
Print Assumptions C83_refused.

(** C83.  The labels of the axis are those of the path of the force constants, each at its own
    q-point; of precalculated data, those of the data. *)
Theorem C83_ticks : forall coeffs k room wmin a d bins s segs, intensity_tool coeffs k room wmin a d = Ok (bins, s, segs) ->
  exists ts, xticks s = Some ts /\
  match d with
  | IForce labels p => ((exists i, (i < length labels)%nat /\ nth i labels ""%string <> ""%string) -> labels_of_path labels ts) /\
      ((forall i, (i < length labels)%nat -> nth i labels ""%string = ""%string) -> ts = pd_ticks p)
  | _ => ts = pd_ticks (path_of d)
  end.
Proof. exact tick_axis. Qed.
Print Assumptions C83_ticks.

(** Non-vacuity: a path GAMMA-X|U-L of six q-points with modes at 3 before the break and at
    9 after it; and the same frequencies on an axis with one long step and a repeated point. *)
Example C83_meets : forall coeffs room wmin, path_data two_path /\ starts_region two_regions 3 /\
  exists s0 segs0 s segs m g0 g v,
    intensity_tool coeffs 1 room wmin (with_options two_args None None None) (IForce two_regions two_path) = Ok ([0; 2; 4; 6; 8; 10], s0, segs0) /\
    intensity_tool coeffs 1 room wmin (with_options two_args (Some 1) None None) (IForce two_regions two_path) = Ok ([0; 2; 4; 6; 8; 10], s, segs) /\
    nth_error segs0 (S m) = Some g0 /\ nth_error segs (S m) = Some g /\ xs g = xs g0 /\ nth_error (xs g) 0 = nth_error (pd_x two_path) 3 /\
    shows g0 0 1 0 /\ shows g 0 1 v /\ 0 < v.
Proof. intros coeffs room wmin. split; [exact two_data|]. split; [exact two_start|exact (two_leak coeffs room wmin)]. Qed.
Example C83_modes_meet : path_data long_step /\ climbs (pd_x long_step) /\ (2 <= length (pd_x long_step))%nat /\
  forall k room, exists bins, i_bins k room two_args (pd_t long_step) = Ok bins /\ bins = [0; 2; 4; 6; 8; 10].
Proof. destruct long_meets as (A & B & C). split; [exact A|]. split; [exact B|]. split; [exact C|exact two_bins]. Qed.
