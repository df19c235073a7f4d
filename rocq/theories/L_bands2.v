(** Lemmas for C84: what euphonic-dispersion draws. *)
From Coq Require Import String Sorted.
From Verif Require Import Base L_util Cpx Vec3 M_grid M_cell M_qpts L_qpts L_path L_path2 M_dynmat M_dipole M_struct M_asr M_calc M_path M_dos M_reorder M_bins M_brille M_bands
  S_qpts S_path S_dynmat S_dipole S_asr S_calc S_bins S_reorder S_intmap S_bands L_reorder L_calc2 L_calc7 L_bins2 L_intmap L_intmap2 L_intmap5 L_brille L_bands.
Open Scope R_scope.

(** ** Ticks *)
Lemma flat_position {A} (f : nat -> list A) n i x : nth_error (flat_map f (seq 0 n)) i = Some x ->
  exists t j, (t < n)%nat /\ i = (length (flat_map f (seq 0 t)) + j)%nat /\ nth_error (f t) j = Some x.
Proof.
  induction n as [|n IH]; [destruct i; discriminate|]. rewrite seq_S, flat_map_app. cbn [flat_map Nat.add]. rewrite app_nil_r. intros H.
  destruct (Nat.lt_ge_cases i (length (flat_map f (seq 0 n)))) as [C|C].
  - rewrite nth_error_app1 in H by exact C. destruct (IH H) as (t & j & Ht & E & N). exists t, j. split; [lia|]. split; [exact E|exact N].
  - rewrite nth_error_app2 in H by exact C. exists n, (i - length (flat_map f (seq 0 n)))%nat. split; [lia|]. split; [lia|exact H].
Qed.
Lemma flat_at {A} (f : nat -> list A) n t j x : (t < n)%nat -> nth_error (f t) j = Some x -> nth_error (flat_map f (seq 0 n)) (length (flat_map f (seq 0 t)) + j) = Some x.
Proof.
  intros Ht E. replace n with (t + S (n - t - 1))%nat by lia. rewrite seq_app, flat_map_app. cbn [seq flat_map Nat.add].
  rewrite nth_error_app2 by lia. replace (_ + j - _)%nat with j by lia. rewrite nth_error_app1 by (apply nth_error_Some; congruence). exact E.
Qed.
Definition lcopies (labels : list string) (t : nat) : list string :=
  if interior_gamma_label labels t then ["GAMMA"%string; nth t labels ""%string] else [nth t labels ""%string].
Lemma interior_is labels t : interior_gamma_label labels t = true -> nth t labels ""%string = "GAMMA"%string.
Proof. unfold interior_gamma_label. rewrite !andb_true_iff. intros [_ H]. apply String.eqb_eq. exact H. Qed.
Lemma insert_labels kpts labels : length kpts = length labels -> snd (cli_insert_gamma kpts labels) = flat_map (lcopies labels) (seq 0 (length labels)).
Proof.
  intros L. destruct (cli_insert_spec kpts labels L) as [E1 E2].
  assert (F : forall (l : list V3) (m : list string), length l = length m -> map snd (combine l m) = m).
  { induction l as [|x l IH]; intros [|y m] H; cbn in *; try discriminate; [reflexivity|]. rewrite IH by lia. reflexivity. }
  rewrite <- (F _ _ E1), E2, concat_map, map_map, <- flat_map_concat_map. apply flat_map_ext. intros t. unfold lcopies. destruct (interior_gamma_label labels t) eqn:G; [rewrite (interior_is _ _ G)|]; reflexivity.
Qed.
Lemma lshifted_len labels t : length (flat_map (lcopies labels) (seq 0 t)) = shifted labels t.
Proof.
  induction t as [|t IH]; [reflexivity|]. unfold shifted in *. rewrite seq_S, flat_map_app, app_length, IH, filter_app, app_length. cbn [Nat.add flat_map filter].
  unfold lcopies. destruct (interior_gamma_label labels t); cbn [app length]; lia.
Qed.
Lemma inserted_ticks kpts labels : length kpts = length labels ->
  forall i s, In (i, s) (cli_tick_labels (snd (cli_insert_gamma kpts labels))) <->
    exists t, (t < length labels)%nat /\ nth t labels ""%string <> ""%string /\ s = gamma_label (nth t labels ""%string) /\
      (i = shifted labels t \/ (interior_gamma_label labels t = true /\ i = S (shifted labels t))).
Proof.
  intros L i s. rewrite (proj2 (tick_labels_spec _) i s), (insert_labels kpts labels L). split.
  - intros (Hi & Ne & ->). destruct (nth_error (flat_map (lcopies labels) (seq 0 (length labels))) i) as [x|] eqn:E.
    2:{ apply nth_error_None in E. lia. }
    rewrite (nth_error_nth _ _ _ E) in *. destruct (flat_position _ _ _ _ E) as (t & j & Ht & Ei & N). rewrite lshifted_len in Ei.
    exists t. split; [exact Ht|]. unfold lcopies in N. destruct (interior_gamma_label labels t) eqn:G.
    + pose proof (interior_is _ _ G) as Q. rewrite Q in *. destruct j as [|[|j]]; cbn in N; [| |destruct j; discriminate]; injection N as <-; (split; [discriminate|split; [reflexivity|]]); [left; lia|right; split; [reflexivity|lia]].
    + destruct j as [|j]; cbn in N; [|destruct j; discriminate]. injection N as <-. split; [exact Ne|]. split; [reflexivity|left; lia].
  - intros (t & Ht & Ne & -> & C).
    assert (E : nth_error (flat_map (lcopies labels) (seq 0 (length labels))) i = Some (nth t labels ""%string)).
    { destruct C as [->|[G ->]].
      - rewrite <- (lshifted_len labels t), <- (Nat.add_0_r (length (flat_map (lcopies labels) (seq 0 t)))). apply flat_at; [exact Ht|]. unfold lcopies. destruct (interior_gamma_label labels t) eqn:G; [rewrite (interior_is _ _ G)|]; reflexivity.
      - rewrite <- (lshifted_len labels t). rewrite <- Nat.add_1_r. apply flat_at; [exact Ht|]. unfold lcopies. rewrite G. reflexivity. }
    rewrite (nth_error_nth _ _ _ E). split; [apply nth_error_Some; congruence|]. split; [exact Ne|reflexivity].
Qed.
Lemma shifted_ge labels t : (t <= shifted labels t)%nat. Proof. unfold shifted. lia. Qed.

(** ** Drawing *)
Lemma draw_rows found tol kx a cell qpts e labels : da_reorder a = false -> (0 < length qpts)%nat -> length qpts = nq (et e) ->
  exists s, xs s = calc_abscissa (reciprocal_cell cell) kx qpts /\ ys s = map (fun q => map (freq (et e) q) (seq 0 (nm (et e)))) (seq 0 (nq (et e))) /\
  length (xs s) = length (ys s) /\
  xticks s = Some (match labels with [] => found qpts | l => map (fun q => (Z.of_nat (fst q), snd q)) l end) /\
  (forall idx, StronglySorted lt idx -> (forall b, In b idx -> (0 < b < length qpts)%nat) -> exists segs, draw found tol kx a cell qpts e labels (Some idx) = Ok (s, segs) /\ cut_at s idx segs).
Proof.
  intros Hr H0 Hn. unfold draw. rewrite Hr. set (s := match labels with [] => dispersion found kx cell qpts (et e) | _ => _ end). exists s.
  assert (Ex : xs s = calc_abscissa (reciprocal_cell cell) kx qpts) by (subst s; destruct labels; reflexivity).
  assert (Ey : ys s = map (fun q => map (freq (et e) q) (seq 0 (nm (et e)))) (seq 0 (nq (et e)))) by (subst s; destruct labels; reflexivity).
  assert (Le : length (xs s) = length (ys s)) by (rewrite Ex, Ey, map_length, seq_length, abscissa_length by exact H0; exact Hn).
  split; [exact Ex|]. split; [exact Ey|]. split; [exact Le|]. split; [subst s; destruct labels; reflexivity|].
  intros idx St Hb. destruct (split_cut s idx Le St) as (segs & E & C).
  - intros b I. apply Hb in I. rewrite Ey, map_length, seq_length. lia.
  - exists segs. rewrite E. split; [reflexivity|exact C].
Qed.
Lemma abscissa_climbs recip k qpts : 0 <= k -> (0 < length qpts)%nat -> climbs (calc_abscissa recip k qpts).
Proof. intros Hk H0 i Hi. rewrite abscissa_length in Hi by exact H0. apply abscissa_monotone; [exact Hk|lia|lia]. Qed.
Lemma abscissa_along recip k qpts : (0 < length qpts)%nat -> along_path recip k qpts (calc_abscissa recip k qpts).
Proof. intros H0. split; [apply abscissa_length; exact H0|]. split; [apply abscissa_first|]. intros i Hi. exact (abscissa_step recip k qpts i Hi). Qed.
Lemma gap_draw found tol kx a cell qpts e e' : (if da_reorder a then reorder_frequencies tol true qpts e else Ok e) = Ok e' ->
  0 <= kx -> (2 <= length qpts)%nat -> length qpts = nq (et e') ->
  exists s segs idx m, draw found tol kx a cell qpts e [] None = Ok (s, segs) /\ xs s = calc_abscissa (reciprocal_cell cell) kx qpts /\
  ys s = map (fun q => map (freq (et e') q) (seq 0 (nm (et e')))) (seq 0 (nq (et e'))) /\ xticks s = Some (found qpts) /\
  is_median m (gaps (xs s)) /\ StronglySorted lt idx /\
  (forall b, In b idx <-> (0 < b < length (xs s))%nat /\ big_gap (da_btol a) m (nth b (xs s) 0 - nth (b - 1) (xs s) 0)) /\ cut_at s idx segs.
Proof.
  intros E Hk H2 Hn. unfold draw. rewrite E. set (s := dispersion found kx cell qpts (et e')).
  assert (Lx : length (xs s) = length qpts) by (unfold s, dispersion; cbn [xs]; apply abscissa_length; lia).
  destruct (split_gaps s (da_btol a)) as (segs & idx & m & Es & M & St & I & C).
  - rewrite Lx. unfold s, dispersion. cbn [ys]. rewrite map_length, seq_length. exact Hn.
  - unfold s, dispersion. cbn [xs]. apply abscissa_climbs; [exact Hk|lia].
  - rewrite Lx. exact H2.
  - exists s, segs, idx, m. cbv zeta. rewrite Es. split; [reflexivity|]. split; [reflexivity|]. split; [reflexivity|]. split; [reflexivity|].
    split; [exact M|]. split; [exact St|]. split; [exact I|exact C].
Qed.

(** ** The tool *)
Section T.
Variable seekpath : M3 -> list V3 -> list nat -> R -> bpath.
Variables (erfc : R -> R) (reigh : real_eigh) (ceigh : complex_eigh) (argsort : list R -> list nat) (chunk : nat).
Notation tool := (dispersion_tool seekpath erfc reigh ceigh argsort chunk).

Lemma force_inv junk lookup found tol k kx a u types x s segs : tool junk lookup found tol k kx a (DForce u types x) = Ok (s, segs) ->
  exists l qpts w ms, lookup (da_unit a) = Some l /\
  let b := band_path seekpath u types x (da_spacing a / l) true in
  result erfc reigh ceigh argsort chunk junk (band_options b (da_asr a) (da_param a)) x = Ok (qpts, w, ms) /\
  draw found tol kx a (f_cell (o_d x)) qpts (mode_table k (M_dynmat.n_atoms (o_d x)) w ms) (cli_tick_labels (bp_labels b)) (Some (cli_break_points (bp_labels b))) = Ok (s, segs).
Proof.
  unfold dispersion_tool, q_distance. destruct (lookup (da_unit a)) as [l|]; [|discriminate]. unfold bands_from_force_constants.
  destruct (result _ _ _ _ _ _ _ _) as [[[qpts w] ms]|e] eqn:E; [|discriminate]. intros H. exists l, qpts, w, ms. split; [reflexivity|]. split; [exact E|exact H].
Qed.
Lemma force_runs junk lookup found tol k kx a u types x l qpts w ms :
  lookup (da_unit a) = Some l ->
  let b := band_path seekpath u types x (da_spacing a / l) true in
  result erfc reigh ceigh argsort chunk junk (band_options b (da_asr a) (da_param a)) x = Ok (qpts, w, ms) ->
  tool junk lookup found tol k kx a (DForce u types x) =
  draw found tol kx a (f_cell (o_d x)) qpts (mode_table k (M_dynmat.n_atoms (o_d x)) w ms) (cli_tick_labels (bp_labels b)) (Some (cli_break_points (bp_labels b))).
Proof. intros El b E. unfold dispersion_tool, q_distance. rewrite El. unfold bands_from_force_constants. fold b. rewrite E. reflexivity. Qed.

Variables (d : fcdata) (mass : nat -> R) (born : option (nat -> M3)) (diel : M3).
Hypothesis Hh : home_first d.
Hypothesis Hc : search_complete d.
Hypothesis Hd : det3 (zrows (f_sc d)) <> 0.
Hypothesis Hf : fc_symmetric d.
Hypothesis He : symmetric3 diel.
Hypothesis Hs : csolves ceigh.
Lemma bands_drawn : exists L, shares_images d L /\
  forall junk lookup found tol k kx a u types s segs,
  da_reorder a = false -> da_asr a = None -> labelled_path seekpath ->
  tool junk lookup found tol k kx a (DForce u types (new_fc d mass born diel)) = Ok (s, segs) ->
  exists l, lookup (da_unit a) = Some l /\
  let b := seekpath (cell_in u (f_cell d)) (f_atom_r d) types (da_spacing a / l) in
  let qpts := doubled (bp_k b) (bp_labels b) in
  along_path (reciprocal_cell (f_cell d)) kx qpts (xs s) /\ length (ys s) = length qpts /\
  (forall i q, nth_error qpts i = Some q -> exists md, nth_error (ys s) i = Some (map (fun m => m_freq md m * k) (seq 0 (3 * M_dynmat.n_atoms d))) /\
     modes_of (3 * M_dynmat.n_atoms d) mass (whole_matrix erfc d born diel true (da_param a) L q (if is_gamma q then Some (approach qpts i) else None)) md) /\
  ((exists t, (t < length (bp_labels b))%nat /\ nth t (bp_labels b) ""%string <> ""%string) -> exists ts, xticks s = Some ts /\ forall z name, In (z, name) ts <-> exists t, (t < length (bp_labels b))%nat /\ nth t (bp_labels b) ""%string <> ""%string /\
     name = written (nth t (bp_labels b) ""%string) /\ (z = Z.of_nat (shifted (bp_labels b) t) \/ (interior_gamma_label (bp_labels b) t = true /\ z = Z.of_nat (S (shifted (bp_labels b) t))))) /\
  exists idx, StronglySorted lt idx /\ (forall i, In i idx <-> exists t, starts_region (bp_labels b) t /\ i = shifted (bp_labels b) t) /\ cut_at s idx segs.
Proof.
  destruct (modes_fourier erfc reigh ceigh argsort chunk d mass born diel Hh Hc Hd Hf He Hs) as (L & HL & HF). exists L. split; [exact HL|].
  intros junk lookup found tol k kx a u types s segs Hr Ha Hp H. destruct (force_inv _ _ _ _ _ _ _ _ _ _ _ _ H) as (l & qp & w & ms & El & Er & Ed).
  exists l. split; [exact El|]. set (b := seekpath (cell_in u (f_cell d)) (f_atom_r d) types (da_spacing a / l)). cbv zeta.
  assert (Hp1 : length (bp_k b) = length (bp_labels b)) by apply Hp. assert (Hp0 : (0 < length (bp_k b))%nat) by apply Hp.
  change (band_path seekpath u types (new_fc d mass born diel) (da_spacing a / l) true) with (mkBP (fst (cli_insert_gamma (bp_k b) (bp_labels b))) (snd (cli_insert_gamma (bp_k b) (bp_labels b)))) in Er, Ed.
  destruct (insert_doubled _ _ Hp1) as [Q1 Q2]. cbn [bp_labels] in Ed.
  set (qpts := doubled (bp_k b) (bp_labels b)) in *.
  destruct (HF [] junk _ qp w ms (eq_trans (eq_refl : p_asr (band_options _ (da_asr a) (da_param a)) = da_asr a) Ha) Er) as (Eq & Lm & K).
  assert (Eqp : qp = qpts).
  { rewrite Eq. unfold the_qpts. cbn [band_options p_insert p_qpts bp_k]. rewrite Bool.andb_false_r. exact Q1. }
  clear Eq. subst qp. cbn [band_options p_reduce p_splitting p_param p_dipole andb] in K. cbn [o_d new_fc] in Ed.
  assert (H0 : (0 < length qpts)%nat).
  { unfold qpts. rewrite doubled_length. pose proof (shifted_ge (bp_labels b) (length (bp_labels b))). lia. }
  destruct (shifted_regions _ _ Hp1) as [St Si].
  assert (Hb : forall i, In i (cli_break_points (snd (cli_insert_gamma (bp_k b) (bp_labels b)))) -> (0 < i < length qpts)%nat).
  { intros i I. apply Si in I. destruct I as (t & (T1 & T2 & _) & ->). pose proof (shifted_ge (bp_labels b) t). pose proof (shifted_mono (bp_labels b) t (length (bp_labels b)) T2).
    unfold qpts. rewrite doubled_length. lia. }
  destruct (draw_rows found tol kx a (f_cell d) qpts (mode_table k (M_dynmat.n_atoms d) w ms) (cli_tick_labels (snd (cli_insert_gamma (bp_k b) (bp_labels b)))) Hr H0) as (s' & Ex & Ey & Lxy & Et & Cut).
  { cbn [mode_table et nq]. symmetry. exact Lm. }
  destruct (Cut _ St Hb) as (segs' & E' & C). rewrite E' in Ed. injection Ed as <- <-.
  split; [rewrite Ex; apply abscissa_along; exact H0|]. split; [rewrite <- Lxy, Ex; apply abscissa_length; exact H0|]. split.
  { intros i q Hi. destruct (K i q Hi) as (md & Em & M). exists md. split; [|exact M]. rewrite Ey. cbn [mode_table et nq nm freq].
    assert (Ii : (i < length ms)%nat) by (apply nth_error_Some; congruence).
    rewrite (map_nth_error _ i (seq 0 (length ms)) (d := i)).
    - f_equal. apply map_ext. intros m. rewrite (nth_error_nth _ _ _ Em). reflexivity.
    - rewrite (nth_error_nth' _ 0%nat) by (rewrite seq_length; exact Ii). rewrite seq_nth by exact Ii. reflexivity. }
  split.
  { intros (t & Ht & Hne). assert (Hin : In (shifted (bp_labels b) t, gamma_label (nth t (bp_labels b) ""%string)) (cli_tick_labels (snd (cli_insert_gamma (bp_k b) (bp_labels b))))).
    { apply inserted_ticks; [exact Hp1|]. exists t. split; [exact Ht|]. split; [exact Hne|]. split; [reflexivity|left; reflexivity]. }
    pose proof (inserted_ticks _ _ Hp1) as IT. destruct (cli_tick_labels (snd (cli_insert_gamma (bp_k b) (bp_labels b)))) as [|p0 ps] eqn:Elab; [destruct Hin|].
    eexists. split; [exact Et|]. intros z name. rewrite in_map_iff. split.
    - intros ((i & nm') & Ez & I). cbn [fst snd] in Ez. injection Ez as <- <-. apply IT in I. destruct I as (t' & T1 & T2 & T3 & T4). exists t'. split; [exact T1|]. split; [exact T2|]. split; [exact T3|].
      destruct T4 as [->|[T4 ->]]; [left; reflexivity|right; split; [exact T4|reflexivity]].
    - intros (t' & T1 & T2 & T3 & T4). destruct T4 as [->|[T4 ->]].
      + exists (shifted (bp_labels b) t', name). split; [reflexivity|]. apply IT. exists t'. split; [exact T1|]. split; [exact T2|]. split; [exact T3|left; reflexivity].
      + exists (S (shifted (bp_labels b) t'), name). split; [reflexivity|]. apply IT. exists t'. split; [exact T1|]. split; [exact T2|]. split; [exact T3|right; split; [exact T4|reflexivity]]. }
  exists (cli_break_points (snd (cli_insert_gamma (bp_k b) (bp_labels b)))). split; [exact St|]. split; [exact Si|exact C].
Qed.
End T.
