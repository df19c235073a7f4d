(** Properties C40, C41, C50, C54, C55: paths through reciprocal space. *)
From Coq Require Import String Sorting.
From Verif Require Import Base Vec3 M_grid M_cell M_qpts M_dynmat M_path S_path L_path L_path2.
Open Scope R_scope.

(** C40.  One x value per q-point, starting at 0; neighbours are separated by
    their Cartesian distance, or not at all when they differ by a (non-zero)
    reciprocal lattice vector. *)
Theorem C40_abscissa_steps : forall recip k qpts,
  let x j := nth j (calc_abscissa recip k qpts) 0 in
  ((0 < length qpts)%nat -> length (calc_abscissa recip k qpts) = length qpts) /\ x 0%nat = 0 /\
  forall i, (S i < length qpts)%nat ->
    let d := vsub (nth (S i) qpts vzero) (nth i qpts vzero) in
    (lattice_jump d -> x (S i) = x i) /\
    (~ lattice_jump d -> x (S i) = x i + norm (vmul d recip) * k).
Proof.
  intros recip k qpts x. split; [exact (abscissa_length recip k qpts)|]. split; [exact (abscissa_first recip k qpts)|].
  exact (abscissa_step recip k qpts).
Qed.
Print Assumptions C40_abscissa_steps.

Theorem C40_abscissa_monotone : forall recip k qpts i j, 0 <= k -> (i <= j)%nat -> (j < length qpts)%nat ->
  nth i (calc_abscissa recip k qpts) 0 <= nth j (calc_abscissa recip k qpts) 0.
Proof. exact abscissa_monotone. Qed.
Print Assumptions C40_abscissa_monotone.

(** Non-vacuity: both kinds of step occur. *)
Example C40_nonvacuous : lattice_jump (1, 0, 0) /\ ~ lattice_jump (1/2, 0, 0).
Proof.
  split.
  - split; [unfold taxi, vzero; rewrite !Rminus_0_r, Rabs_R0, Rabs_R1; lra|]. exists (1, 0, 0)%Z.
    cbn [zvec taxi]. rewrite !Rminus_diag_eq by reflexivity. rewrite Rabs_R0. lra.
  - intros H. apply calc_modq_false in H. unfold calc_modq, abs_sum, delta_rem, abscissa_tol in H.
    rewrite (Rltb_false (_ + _ + _)) in H; [rewrite andb_false_r in H; discriminate|].
    rewrite (L_scidx.frac_dist_int 0). unfold frac_dist. rewrite L_qpts.rint_small by (rewrite Rabs_right; lra). rewrite Rabs_right; lra.
Qed.

(** C41.  The labelled positions are strictly increasing, contain the first and
    the last q-point, every gamma point, every q-point equal to its successor,
    and every q-point where |d0||d1| - |d0.d1| exceeds 5e-6; nothing else.
    Partial: direction changes below that threshold, see below. *)
Theorem C41_labelled_positions_partial : forall points show qpts,
  let idx := map fst (get_qpoint_labels points show qpts) in
  StronglySorted lt idx /\
  forall i, In i idx <-> (i < length qpts)%nat /\
   (i = 0%nat \/ i = (length qpts - 1)%nat \/
   ((0 < i)%nat /\ (i < length qpts - 1)%nat /\
    (turns qpts i \/ is_gamma (nth i qpts vzero) = true \/ nth (i + 1) qpts vzero = nth i qpts vzero))).
Proof. intros points show qpts idx. unfold idx. rewrite qpoint_labels_positions. exact (labels_spec qpts). Qed.
Print Assumptions C41_labelled_positions_partial.

(** Non-vacuity: an ordinary corner is labelled. *)
Example C41_corner : turns [(1/8,0,0); (1/4,0,0); (1/4,1/8,0)] 1.
Proof.
  unfold turns, dir_tol. cbn [nth Nat.sub Nat.add].
  replace (vsub (1/4, 0, 0) (1/8, 0, 0)) with ((1/8, 0, 0) : V3) by (cbn; f_equal; [f_equal|]; lra).
  replace (vsub (1/4, 1/8, 0) (1/4, 0, 0)) with ((0, 1/8, 0) : V3) by (cbn; f_equal; [f_equal|]; lra).
  rewrite norm_axis_x, norm_axis_y by lra. cbn [dot].
  replace (0 * (1/8) + 1/8 * 0 + 0 * 0) with 0 by ring. rewrite Rabs_R0.
  replace (5 / 10 ^ 6) with (5 / 1000000) by (f_equal; ring). lra.
Qed.

(** C41, refuted as stated: a right-angle turn with steps of 0.001, and a path
    that turns back on itself, are not labelled. *)
Theorem C41_direction_change_refuted : exists qpts i d0 d1,
  (0 < i < length qpts - 1)%nat /\
  d0 = vsub (nth i qpts vzero) (nth (i - 1) qpts vzero) /\ d1 = vsub (nth (i + 1) qpts vzero) (nth i qpts vzero) /\
  d0 <> vzero /\ d1 <> vzero /\ dot d0 d1 = 0 /\ ~ In i (qpts_with_labels qpts).
Proof.
  exists small_turn, 1%nat, (vsub (251/1000, 0, 0) (1/4, 0, 0)), (vsub (251/1000, 1/1000, 0) (251/1000, 0, 0)).
  split; [cbn; lia|]. split; [reflexivity|]. split; [reflexivity|].
  split; [intros H; injection H as H; lra|]. split; [intros H; injection H; intros; lra|].
  split; [cbn; lra|exact small_turn_unlabelled].
Qed.
Print Assumptions C41_direction_change_refuted.

Theorem C41_reversal_refuted : exists qpts i, (0 < i < length qpts - 1)%nat /\
  vsub (nth (i + 1) qpts vzero) (nth i qpts vzero) = vopp (vsub (nth i qpts vzero) (nth (i - 1) qpts vzero)) /\
  nth (i + 1) qpts vzero <> nth i qpts vzero /\ ~ In i (qpts_with_labels qpts).
Proof.
  exists there_and_back, 1%nat. split; [cbn; lia|]. split; [cbn; f_equal; [f_equal|]; lra|].
  split; [intros H; injection H as H; lra|exact there_and_back_unlabelled].
Qed.
Print Assumptions C41_reversal_refuted.

(** C54.  A non-empty label names a listed point whose coordinates agree, modulo
    integers, with a cyclic permutation of the q-point's coordinates. *)
Theorem C54_label_sound_partial : forall points q s, get_qpt_label points q = s -> s <> ""%string ->
  exists n c, (n < 3)%nat /\ In (s, c) points /\ same_mod_integers (11 / 10 ^ 6) c (rolln n q).
Proof. exact label_sound. Qed.
Print Assumptions C54_label_sound_partial.

(** C54, refuted: the cyclic permutation is not a symmetry of, for example,
    hexagonal cells; the M-type point (0, 1/2, 0) is labelled A = (0, 0, 1/2). *)
Theorem C54_wrong_label_refuted : exists points q s,
  get_qpt_label points q = s /\ s <> ""%string /\ NoDup (map fst points) /\
  forall c, In (s, c) points -> ~ same_mod_integers (11 / 10 ^ 6) c q.
Proof.
  exists hex_points, (0, 1/2, 0), "A"%string. split; [exact hex_wrong_label|]. split; [discriminate|].
  split; [unfold hex_points; cbn; repeat constructor; cbn; intuition discriminate|].
  intros c Hc. cbn in Hc. repeat (destruct Hc as [Hc|Hc]; [try (injection Hc; discriminate)|]); try contradiction.
  injection Hc as <-. exact hex_not_A.
Qed.
Print Assumptions C54_wrong_label_refuted.

(** C54, refuted: a q-point accepted as gamma (a rounding error below zero) gets
    no label although GAMMA is listed. *)
Theorem C54_gamma_label_refuted : exists points q,
  In ("GAMMA"%string, vzero) points /\ is_gamma q = true /\ get_qpt_label points q = ""%string.
Proof.
  exists hex_points, gamma_noise. split; [left; reflexivity|]. split; [exact gamma_noise_is_gamma|exact gamma_noise_unlabelled].
Qed.
Print Assumptions C54_gamma_label_refuted.

(** C54, refuted: a listed point with a negative coordinate is never
    recognised, not even at its own coordinates. *)
Theorem C54_negative_point_refuted : exists s q, s <> ""%string /\ get_qpt_label [(s, q)] q = ""%string.
Proof.
  exists "S_0"%string, (-(1/4), 1/4, 1/4). split; [discriminate|exact negative_point_unlabelled].
Qed.
Print Assumptions C54_negative_point_refuted.

(** C50.  Gamma insertion doubles exactly the interior points labelled GAMMA
    (the inserted copy is exactly 0) and keeps every other point with its
    label. *)
Theorem C50_insert_gamma : forall kpts labels, length kpts = length labels ->
  let r := cli_insert_gamma kpts labels in
  length (fst r) = length (snd r) /\
  combine (fst r) (snd r)
  = concat (map (fun i => if interior_gamma_label labels i
                          then [(vzero, "GAMMA"%string); (nth i kpts vzero, "GAMMA"%string)]
                          else [(nth i kpts vzero, nth i labels ""%string)]) (seq 0 (length labels))).
Proof. exact cli_insert_spec. Qed.
Print Assumptions C50_insert_gamma.

(** C50.  Break points are the positions whose label and preceding label are
    both present and different ... *)
Theorem C50_break_points : forall labels i, In i (cli_break_points labels) <->
  (0 < i)%nat /\ (i < length labels)%nat /\ nth (i - 1) labels ""%string <> ""%string /\ nth i labels ""%string <> ""%string /\
  nth (i - 1) labels ""%string <> nth i labels ""%string.
Proof. exact break_points_spec. Qed.
Print Assumptions C50_break_points.

(** ... and inserting gamma points moves each of them to the new position of
    the same q-point, without adding or losing any. *)
Theorem C50_breaks_follow_insertion : forall kpts labels, length kpts = length labels ->
  cli_break_points (snd (cli_insert_gamma kpts labels)) = map (shifted labels) (cli_break_points labels).
Proof. exact breaks_preserved. Qed.
Print Assumptions C50_breaks_follow_insertion.

Theorem C50_tick_labels : forall labels,
  StronglySorted lt (map fst (cli_tick_labels labels)) /\
  forall i s, In (i, s) (cli_tick_labels labels) <->
    (i < length labels)%nat /\ nth i labels ""%string <> ""%string /\ s = gamma_label (nth i labels ""%string).
Proof. exact tick_labels_spec. Qed.
Print Assumptions C50_tick_labels.

Open Scope string_scope.
Example C50_nonvacuous :
  cli_break_points ["X"; ""; "GAMMA"; ""; "L"; "K"; "GAMMA"; "U"] = [5; 6; 7]%nat /\
  snd (cli_insert_gamma (repeat vzero 8) ["X"; ""; "GAMMA"; ""; "L"; "K"; "GAMMA"; "U"])
  = ["X"; ""; "GAMMA"; "GAMMA"; ""; "L"; "K"; "GAMMA"; "GAMMA"; "U"] /\
  cli_break_points (snd (cli_insert_gamma (repeat vzero 8) ["X"; ""; "GAMMA"; ""; "L"; "K"; "GAMMA"; "U"])) = [6; 7; 9]%nat.
Proof. repeat split. Qed.
Close Scope string_scope.

(** C55.  When some frequency is positive the default energy bins are strictly
    increasing and every frequency lies strictly inside. *)
Theorem C55_default_bins_cover_partial : forall f0 freqs n headroom room, (2 <= n)%nat -> 1 < headroom -> 0 < room ->
  (exists f, In f (f0 :: freqs) /\ 0 < f) ->
  exists bins, get_energy_bins f0 freqs n None None headroom room = Ok bins /\ length bins = n /\
    (forall i, (S i < n)%nat -> nth i bins 0 < nth (S i) bins 0) /\
    forall f, In f (f0 :: freqs) -> nth 0 bins 0 < f < nth (n - 1) bins 0.
Proof. exact default_bins_cover. Qed.
Print Assumptions C55_default_bins_cover_partial.

Example C55_nonvacuous : exists f, In f [-1; 0; 5] /\ 0 < f.
Proof. exists 5. split; [cbn; tauto|lra]. Qed.

(** C55, refuted when every frequency is negative (imaginary modes): the head
    room moves the upper limit below the largest frequency. *)
Theorem C55_negative_refuted : exists f0 freqs f bins,
  In f (f0 :: freqs) /\ get_energy_bins f0 freqs 3 None None (105/100) (1/100) = Ok bins /\ nth 2 bins 0 < f.
Proof.
  destruct default_bins_miss as [bins [H1 H2]]. exists (-2), [-1], (-1), bins. split; [cbn; tauto|]. split; [exact H1|exact H2].
Qed.
Print Assumptions C55_negative_refuted.
