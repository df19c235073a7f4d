(** Sampling of the square, the sphere and powder q-points (C38, C39, C60, C61, C62). *)
From Coq Require Import String.
From Verif Require Import Base Vec3 M_sample S_sample L_sample L_sample2 L_sample3 L_sample4 L_tight3.
Open Scope R_scope.

(** C39: golden_square and regular_square give the promised number of points, all in the
    unit square, with and without jitter; recurrence_sequence likewise in any dimension, where
    coordinate d of point n is the fractional part of n / phi^(d+1). *)
Theorem C39_golden_square : forall npts offset rnd, (offset = false \/ (0 < npts)%nat) ->
  exists l, golden_square npts offset rnd = Ok l /\ length l = npts /\ forall p, In p l -> in_square p.
Proof. exact golden_square_spec. Qed.
Print Assumptions C39_golden_square.
Theorem C39_regular_square_partial : forall n_rows n_cols rnd, (0 < n_rows)%nat -> (0 < n_cols)%nat -> jitter_ok rnd ->
  exists l, regular_square n_rows n_cols true rnd = Ok l /\ length l = (n_cols * n_rows)%nat /\ forall p, In p l -> in_square p.
Proof. exact regular_square_in. Qed.
Print Assumptions C39_regular_square_partial.
(** Each jittered point stays in its own cell of the grid. *)
Theorem C39_own_cell : forall n_rows n_cols rnd, (0 < n_rows)%nat -> (0 < n_cols)%nat -> jitter_ok rnd ->
  exists l, regular_square n_rows n_cols true rnd = Ok l /\ length l = (n_cols * n_rows)%nat /\
  forall i j, (i < n_cols)%nat -> (j < n_rows)%nat -> let p := nth (i * n_rows + j) l (0, 0) in
  INR i / INR n_cols <= fst p < INR (S i) / INR n_cols /\ INR j / INR n_rows <= snd p < INR (S j) / INR n_rows /\
  (rnd = None -> fst p = (INR i + 1 / 2) / INR n_cols /\ snd p = (INR j + 1 / 2) / INR n_rows).
Proof. exact regular_square_spec. Qed.
Print Assumptions C39_own_cell.
(** Without the offset, jitter takes points out of the square, for every grid. *)
Theorem C39_regular_square_refuted : forall n_rows n_cols, (0 < n_rows)%nat -> (0 < n_cols)%nat -> exists r l p,
  unit_random r /\ regular_square n_rows n_cols false (Some r) = Ok l /\ In p l /\ fst p < 0 /\ snd p < 0.
Proof. exact regular_square_escapes. Qed.
Print Assumptions C39_regular_square_refuted.
Theorem C39_recurrence : forall phi npts order, length (recurrence_sequence phi npts order) = npts /\
  (forall p, In p (recurrence_sequence phi npts order) -> length p = order /\ forall x, In x p -> 0 <= x < 1) /\
  forall n d, (n < npts)%nat -> (d < order)%nat ->
    exists k, nth d (nth n (recurrence_sequence phi npts order) []) 0 = INR n * (1 / phi) ^ (d + 1) - IZR k.
Proof. exact recurrence_all. Qed.
Print Assumptions C39_recurrence.
(** Without jitter the golden square's x coordinates are the midpoints of npts equal intervals. *)
Theorem C39_golden_columns : forall npts l i, golden_square npts true None = Ok l -> (i < npts)%nat ->
  fst (nth i l (0, 0)) = (2 * INR i + 1) / (2 * INR npts).
Proof. intros npts l i E Hi. rewrite (golden_square_x npts l i E Hi). reflexivity. Qed.
Print Assumptions C39_golden_columns.
Example C39_witness : unit_random (fun _ => (1 / 4, 3 / 4)).
Proof. intros i. cbn. lra. Qed.

(** C38: sphere sampling.  Every method gives points on the unit sphere; golden, improved
    polar and random sampling give exactly npts points, *)
Theorem C38_exact_count : forall npts sampling rnd rnd2 always, (6 <= npts)%nat -> jitter_ok rnd -> unit_random always ->
  In sampling ["golden"; "spherical-polar-improved"; "random-sphere"]%string ->
  exists l, get_qpts_sphere npts sampling rnd rnd2 always = Ok l /\ length l = npts /\ forall p, In p l -> on_sphere p.
Proof. exact sphere_exact. Qed.
Print Assumptions C38_exact_count.
(** golden and random sampling for every positive npts, *)
Theorem C38_exact_count_small : forall npts sampling rnd rnd2 always, (1 <= npts)%nat -> unit_random always ->
  In sampling ["golden"; "random-sphere"]%string ->
  exists l, get_qpts_sphere npts sampling rnd rnd2 always = Ok l /\ length l = npts /\ forall p, In p l -> on_sphere p.
Proof. exact sphere_exact_any. Qed.
Print Assumptions C38_exact_count_small.
(** the grids at least npts, and the fewest with twice as many rows as columns.  The polar
    grid only from npts = 3 on. *)
Theorem C38_grid_partial : forall npts sampling rnd rnd2 always, (1 <= npts)%nat -> jitter_ok rnd ->
  sampling = "sphere-projected-grid"%string \/ (sampling = "spherical-polar-grid"%string /\ (3 <= npts)%nat) ->
  exists l n, get_qpts_sphere npts sampling rnd rnd2 always = Ok l /\ length l = (2 * n * n)%nat /\ (npts <= 2 * n * n)%nat /\
  (forall m, (npts <= 2 * m * m)%nat -> (n <= m)%nat) /\ forall p, In p l -> on_sphere p.
Proof. exact sphere_grid. Qed.
Print Assumptions C38_grid_partial.
(** One or two points: the polar grid raises IndexError. *)
Theorem C38_polar_grid_refuted : forall npts rnd rnd2 always, (1 <= npts <= 2)%nat ->
  get_qpts_sphere npts "spherical-polar-grid" rnd rnd2 always = Err IndexErr.
Proof. exact sphere_polar_small. Qed.
Print Assumptions C38_polar_grid_refuted.
(** The improved polar sampling refuses fewer than six points, as documented. *)
Theorem C38_improved_minimum : forall npts rnd rnd2 always, get_qpts_sphere npts "spherical-polar-improved" rnd rnd2 always = Err TooFew <-> (npts < 6)%nat.
Proof.
  intros npts rnd rnd2 always. split; [|exact (improved_few npts rnd2)]. intros E. apply Nat.nle_gt. intros H.
  destruct (improved_spec npts rnd2 H) as (l & E' & _). change (spherical_polar_improved npts rnd2 = Err TooFew) in E. congruence.
Qed.
Print Assumptions C38_improved_minimum.
(** Other names are refused, although the documentation says the names are
    case-insensitive. *)
Theorem C38_unknown_method : forall npts sampling rnd rnd2 always, ~ In sampling methods ->
  get_qpts_sphere npts sampling rnd rnd2 always = Err UnknownSampling.
Proof. exact sphere_unknown. Qed.
Print Assumptions C38_unknown_method.
Theorem C38_case_insensitive_refuted : forall npts rnd rnd2 always, get_qpts_sphere npts "Golden" rnd rnd2 always = Err UnknownSampling.
Proof. exact sphere_case. Qed.
Print Assumptions C38_case_insensitive_refuted.
(** Whenever npts is rounded up the message names the requested number, not the number
    used. *)
Theorem C38_message_refuted : forall npts, (forall n, npts <> (2 * n * n)%nat) -> exists k, snd (check_gridpts npts) = Some npts /\
  k = (2 * fst (check_gridpts npts) * fst (check_gridpts npts))%nat /\ (npts < k)%nat.
Proof. exact sphere_message. Qed.
Print Assumptions C38_message_refuted.
(** The functions in euphonic.sampling with their own numbers of rows and columns. *)
Theorem C38_projected_grid : forall n_rows n_cols rnd, (0 < n_rows)%nat -> (0 < n_cols)%nat -> jitter_ok rnd ->
  exists l, sphere_from_square_grid n_rows n_cols rnd = Ok l /\ length l = (n_cols * n_rows)%nat /\ forall p, In p l -> on_sphere p.
Proof. exact grid_sphere_spec. Qed.
Print Assumptions C38_projected_grid.
Theorem C38_polar_grid : forall n_phi n_theta rnd, (2 <= n_phi)%nat -> (2 <= n_theta)%nat ->
  exists l, spherical_polar_grid n_phi n_theta rnd = Ok l /\ length l = (n_phi * n_theta)%nat /\ forall p, In p l -> on_sphere p.
Proof. exact polar_grid_spec. Qed.
Print Assumptions C38_polar_grid.
Example C38_witness : In "spherical-polar-improved"%string methods /\ ~ In "Golden"%string methods /\ forall n, 7%nat <> (2 * n * n)%nat.
Proof.
  split; [cbn; tauto|]. split; [|intros n; lia]. unfold methods. cbn. intros H. decompose [or] H; try discriminate; assumption.
Qed.

(** C60: the samples are spread evenly over the sphere's area: the number of samples above
    any height is the area's share of them, up to one point for golden sampling *)
Theorem C60_golden : forall npts h, (0 < npts)%nat -> -1 <= h <= 1 -> exists l c, golden_sphere npts None = Ok l /\ length l = npts /\
  count_of (above h) l c /\ Rabs (INR c - INR npts * cap_share h) <= 1.
Proof. exact golden_even. Qed.
Print Assumptions C60_golden.
(** and one grid column for the projected grid, also with jitter; *)
Theorem C60_projected_grid : forall n_rows n_cols rnd h, (0 < n_rows)%nat -> (0 < n_cols)%nat -> jitter_ok rnd -> -1 <= h <= 1 ->
  exists l c, sphere_from_square_grid n_rows n_cols rnd = Ok l /\ length l = (n_cols * n_rows)%nat /\
  count_of (above h) l c /\ Rabs (INR c - INR (n_cols * n_rows) * cap_share h) <= INR n_rows.
Proof. exact grid_even. Qed.
Print Assumptions C60_projected_grid.
(** in the improved polar sampling every ring has its circumference's share, up to one
    point, and at least two points. *)
Theorem C60_improved : forall npts, (6 <= npts)%nat -> exists l n total, spherical_polar_improved npts None = Ok l /\ length l = npts /\ (2 <= n)%nat /\
  total = sumn n (fun i => sin ((2 * INR i + 1) * (PI / (2 * INR n)))) /\ 0 < total /\
  (forall p, In p l -> exists i, (i < n)%nat /\ height p (cos ((2 * INR i + 1) * (PI / (2 * INR n))))) /\
  forall i, (i < n)%nat -> exists c, count_of (fun p => height p (cos ((2 * INR i + 1) * (PI / (2 * INR n))))) l c /\ (2 <= c)%nat /\
  Rabs (INR c - INR (npts - 1) * (sin ((2 * INR i + 1) * (PI / (2 * INR n))) / total)) <= 1.
Proof. exact improved_rings. Qed.
Print Assumptions C60_improved.
(** The golden samples wind round the axis by the golden ratio of a turn from one to the next;
    those of the projected grid stand in rings of n_rows points evenly all the way round;
    random-sphere puts the pair of random numbers (u, v) at height 2u - 1 and v turns. *)
Theorem C60_golden_places : forall npts, (0 < npts)%nat -> exists l, golden_sphere npts None = Ok l /\ length l = npts /\
  forall i, (i < npts)%nat -> at_place (nth i l None) ((2 * INR i + 1) / INR npts - 1) (2 * PI * (INR i / ((1 + sqrt 5) / 2))).
Proof. exact golden_places. Qed.
Print Assumptions C60_golden_places.
Theorem C60_grid_places : forall n_rows n_cols, (0 < n_rows)%nat -> (0 < n_cols)%nat ->
  exists l, sphere_from_square_grid n_rows n_cols None = Ok l /\ length l = (n_cols * n_rows)%nat /\
  forall i j, (i < n_cols)%nat -> (j < n_rows)%nat ->
    at_place (nth (i * n_rows + j) l None) ((2 * INR i + 1) / INR n_cols - 1) ((INR j + 1 / 2) * (2 * PI / INR n_rows)).
Proof. exact grid_places. Qed.
Print Assumptions C60_grid_places.
Theorem C60_random_places : forall npts r, (forall i, 0 <= fst (r i) < 1) -> exists l, random_sphere npts r = Ok l /\ length l = npts /\
  forall i, (i < npts)%nat -> at_place (nth i l None) (2 * fst (r i) - 1) (2 * PI * snd (r i)).
Proof. exact random_places. Qed.
Print Assumptions C60_random_places.
(** The plain polar grid puts a third too many samples in the polar cap above height 1/2,
    however fine the grid; *)
Theorem C60_polar_grid_refuted : forall n_phi m, (2 <= n_phi)%nat -> (1 <= m)%nat -> exists l c, spherical_polar_grid n_phi (3 * m) None = Ok l /\
  length l = (n_phi * (3 * m))%nat /\ count_of (above (1 / 2)) l c /\ INR c = 4 / 3 * (INR (length l) * cap_share (1 / 2)).
Proof. exact polar_grid_poles. Qed.
Print Assumptions C60_polar_grid_refuted.
(** its latitude lines are not evenly spaced in z, although the documentation says so. *)
Theorem C60_even_latitudes_refuted : forall n_phi n_theta, (2 <= n_phi)%nat -> (4 <= n_theta)%nat -> exists l z0 z1 z2, spherical_polar_grid n_phi n_theta None = Ok l /\
  height (nth 0 l None) z0 /\ height (nth 1 l None) z1 /\ height (nth 2 l None) z2 /\ z1 < z0 /\ z2 < z1 /\ z0 - z1 < z1 - z2.
Proof. exact polar_grid_uneven. Qed.
Print Assumptions C60_even_latitudes_refuted.
Example C60_witness : count_of (above (1 / 2)) [Some (0, 0, 1); Some (1, 0, 0); None] 1.
Proof.
  apply count_in; [exists 1; split; [exists 0, 0; reflexivity|lra]|]. apply count_out; [intros (z & (x & y & E) & L); injection E as _ _ E; lra|].
  apply count_out; [intros (z & (x & y & E) & L); discriminate|constructor].
Qed.

(** C61: the q-points of the powder functions lie on the sphere of radius mod_q in
    Cartesian space, one for each direction, whatever the (regular) cell. *)
Theorem C61_on_shell : forall solve recip mod_q npts sampling rnd rnd2 always l, solves solve -> det3 recip <> 0 -> 0 <= mod_q ->
  get_qpts_sphere npts sampling rnd rnd2 always = Ok l -> (forall p, In p l -> on_sphere p) ->
  exists qs, powder_qpts solve recip mod_q npts sampling rnd rnd2 always = Ok qs /\ length qs = length l /\
  forall i, (i < length l)%nat -> exists q p, nth i qs None = Some q /\ nth i l None = Some p /\ vmul q recip = vscal mod_q p /\ norm (vmul q recip) = mod_q.
Proof. exact powder_shell. Qed.
Print Assumptions C61_on_shell.
(** A triclinic cell's reciprocal vectors, and the regular systems have a solver. *)
Example C61_witness : det3 ((1, 0, 0), (1 / 2, 1, 0), (0, 1 / 4, 2)) <> 0 /\ exists solve, solves solve.
Proof. split; [unfold det3, cross, dot; cbn; lra|exact solver_exists]. Qed.

(** C62: the default energy bins of the powder functions start at zero, increase, and
    hold every mode of non-negative energy, if any mode has a positive energy. *)
Theorem C62_cover : forall freqs f0 nbins, (0 < nbins)%nat -> (exists f, In f (f0 :: freqs) /\ 0 < f) ->
  let e := default_bins freqs f0 nbins in length e = S nbins /\ nth 0 e 0 = 0 /\ (forall i, (i < nbins)%nat -> nth i e 0 < nth (S i) e 0) /\
  forall f, In f (f0 :: freqs) -> 0 <= f -> exists i, (i < nbins)%nat /\ nth i e 0 <= f < nth (S i) e 0.
Proof. exact default_bins_cover. Qed.
Print Assumptions C62_cover.
(** If every sampled mode is imaginary (negative) the bins decrease. *)
Theorem C62_all_imaginary_refuted : forall freqs f0 nbins, (0 < nbins)%nat -> (forall f, In f (f0 :: freqs) -> f < 0) ->
  forall i, (i < nbins)%nat -> nth (S i) (default_bins freqs f0 nbins) 0 < nth i (default_bins freqs f0 nbins) 0.
Proof. exact default_bins_decreasing. Qed.
Print Assumptions C62_all_imaginary_refuted.
Example C62_witness : exists f, In f [-1; 3; 2] /\ 0 < f.
Proof. exists 3. split; [cbn; tauto|lra]. Qed.
