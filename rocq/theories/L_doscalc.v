(** Lemmas for C96: euphonic-dos from force constants as a whole. *)
From Coq Require Import String.
From Verif Require L_qpts L_brconv3.
From Verif Require Import Base Cpx Vec3 M_path M_broad M_dos M_bins M_coll M_fixed M_clidos M_grid M_cell M_qpts M_dynmat M_dipole M_struct M_asr M_calc M_doscalc
  S_coll S_dos S_fixed S_clidos S_qpts S_dynmat S_dipole S_asr S_calc S_unique S_doscalc L_util L_grid L_dos L_dos2 L_dos3 L_path2 L_clidos2 L_clidos3 L_calc L_calc2 L_calc7 L_unique2 L_unique3.
Open Scope R_scope.

Lemma table_same n qpts w ms : run_table n qpts w ms = table_of n (qpts, w, ms).
Proof. reflexivity. Qed.
Lemma no_insert d mass born diel qs asr param ad : the_qpts (new_fc d mass born diel) (grid_options qs asr param ad) = qs.
Proof. unfold the_qpts, use_splitting, use_dipole. cbn. rewrite Bool.andb_false_r. reflexivity. Qed.
Lemma grid_points_spec g qs : grid_points g = Some qs -> qs <> [] ->
  exists g0 g1 g2, g = (Z.of_nat g0, Z.of_nat g1, Z.of_nat g2) /\ (0 < g0)%nat /\ (0 < g1)%nat /\ (0 < g2)%nat /\ mp_grid g0 g1 g2 = Ok qs /\ length qs = (g0 * g1 * g2)%nat.
Proof.
  destruct g as [[n0 n1] n2]. unfold grid_points. destruct (Z.ltb_spec n0 0), (Z.ltb_spec n1 0), (Z.ltb_spec n2 0); cbn [orb]; try discriminate.
  destruct (mp_grid (Z.to_nat n0) (Z.to_nat n1) (Z.to_nat n2)) as [l|] eqn:E; [|discriminate]. intros Q N. injection Q as <-.
  exists (Z.to_nat n0), (Z.to_nat n1), (Z.to_nat n2). split; [rewrite !Z2Nat.id by assumption; reflexivity|].
  pose proof E as E'. rewrite mp_grid_prod in E'. injection E' as E'.
  assert (Lg : length l = (Z.to_nat n0 * Z.to_nat n1 * Z.to_nat n2)%nat).
  { rewrite <- E'. unfold prod3. rewrite (length_flat_map_const _ _ (length (mp_axis (Z.to_nat n1)) * length (mp_axis (Z.to_nat n2)))%nat).
    - rewrite !mp_axis_length. lia.
    - intros x _. rewrite (length_flat_map_const _ _ (length (mp_axis (Z.to_nat n2)))); [reflexivity|]. intros y _. apply map_length. }
  assert (length l <> 0)%nat by (destruct l; [contradiction|discriminate]).
  split; [|split; [|split; [|split; [exact E|exact Lg]]]].
  - destruct (Z.to_nat n0); lia.
  - destruct (Z.to_nat n1); [rewrite Nat.mul_0_r in Lg; cbn in Lg; lia|lia].
  - destruct (Z.to_nat n2); lia.
Qed.

Lemma grid_listed g0 g1 g2 l : mp_grid g0 g1 g2 = Ok l -> length l = (g0 * g1 * g2)%nat -> l = map (mp_point g0 g1 g2) (seq 0 (g0 * g1 * g2)).
Proof.
  intros E L. apply (nth_ext _ _ (0, 0, 0) (0, 0, 0)); [rewrite map_length, seq_length; exact L|]. intros j Hj. rewrite L in Hj.
  rewrite (map_nth_indep _ _ _ 0%nat) by (rewrite seq_length; exact Hj). rewrite nth_seq_id by exact Hj.
  assert (g1 <> 0)%nat by (intros ->; rewrite Nat.mul_0_r in Hj; cbn in Hj; lia). assert (g2 <> 0)%nat by (intros ->; lia).
  assert (B0 : (j / (g1 * g2) < g0)%nat) by (apply Nat.div_lt_upper_bound; nia).
  pose proof (Nat.mod_upper_bound (j / g2) g1 ltac:(assumption)) as B1. pose proof (Nat.mod_upper_bound j g2 ltac:(assumption)) as B2.
  assert (Ej : j = ((j / (g1 * g2) * g1 + (j / g2) mod g1) * g2 + j mod g2)%nat).
  { rewrite (Nat.mul_comm g1 g2), <- Nat.div_div by assumption. pose proof (Nat.div_mod j g2 ltac:(assumption)). pose proof (Nat.div_mod (j / g2) g1 ltac:(assumption)). nia. }
  pose proof (mp_grid_order g0 g1 g2 _ _ _ l E B0 B1 B2) as P. rewrite <- Ej in P. rewrite P. unfold mp_point.
  assert (V : forall g r, (r < g)%nat -> (INR r + 1 / 2) / INR g - 1 / 2 = (2 * (INR r + 1) - INR g - 1) / (2 * INR g)).
  { intros g r Hr. assert (0 < INR g) by (apply lt_0_INR; lia). field. lra. }
  rewrite !V by assumption. reflexivity.
Qed.

Lemma even_total n qpts ms : qpts <> [] -> total_weight (et (run_table n qpts (repeat (1 / INR (length qpts)) (length qpts)) ms)) = 1.
Proof.
  intros N. assert (P : INR (length qpts) <> 0) by (apply not_0_INR; destruct qpts; [contradiction|discriminate]).
  unfold total_weight. cbn [run_table et nq wt]. rewrite (Sum_ext _ _ (fun _ => 1 / INR (length qpts))).
  - rewrite Sum_const, seq_length. field. exact P.
  - intros q Iq. apply in_seq in Iq. rewrite (@nth_indep _ _ q 0 (1 / INR (length qpts))) by (rewrite repeat_length; lia). apply nth_repeat.
Qed.
Lemma even_mean n qpts ms (f : nat -> R) : qpts <> [] -> let t := et (run_table n qpts (repeat (1 / INR (length qpts)) (length qpts)) ms) in
  wmean t f = Sum (seq 0 (length qpts)) f / INR (length qpts).
Proof.
  intros N t. assert (P : INR (length qpts) <> 0) by (apply not_0_INR; destruct qpts; [contradiction|discriminate]).
  assert (W : forall q, (q < length qpts)%nat -> wt t q = 1 / INR (length qpts)).
  { intros q Hq. unfold t. cbn [run_table et wt]. rewrite (@nth_indep _ _ q 0 (1 / INR (length qpts))) by (rewrite repeat_length; exact Hq). apply nth_repeat. }
  unfold wmean, total_weight. change (nq t) with (length qpts).
  rewrite (Sum_ext (seq 0 (length qpts)) (wt t) (fun _ => 1 / INR (length qpts))) by (intros q Iq; apply in_seq in Iq; apply W; lia).
  rewrite (Sum_ext (seq 0 (length qpts)) (fun q => wt t q * f q) (fun q => 1 / INR (length qpts) * f q)) by (intros q Iq; apply in_seq in Iq; rewrite W by lia; reflexivity).
  rewrite Sum_scal, Sum_const, seq_length. field. exact P.
Qed.

(** The whole line counts three modes per atom *)
Lemma plain_area coeffs k wmin room src a cell e widths bins ls y : 0 < k -> (1 <= a_ebins a)%nat -> 0 < room ->
  a_weighting a = "dos"%string -> a_pdos a = None -> a_adaptive a = false -> a_inst a = None -> a_eb a = None -> a_emin a = None -> a_emax a = None ->
  total_weight (et e) <> 0 -> (exists q m, (q < nq (et e))%nat /\ (m < nm (et e))%nat /\ 0 < freq (et e) q m) ->
  dos_tool coeffs k wmin room src a (ForceConsts cell (fun _ => e) widths) = Ok (bins, ls) -> ls = [Some y] ->
  sumn (a_ebins a) (fun i => nth i y 0 * (nth (S i) bins 0 - nth i bins 0)) = 3 * factor (a_scale a).
Proof.
  intros Hk Hn Hr Ew Ep Ea Ei Ee E1 E2 Hw (q0 & m0 & Q0 & M0 & F0) T Ls. unfold dos_tool, resolve in T. rewrite Ew, Ep, Ea, Ee in T.
  cbn [String.eqb Ascii.eqb Bool.eqb andb negb has_evecs is_force] in T. rewrite Ei in T. unfold M_clidos.modes_of in T.
  destruct (grid_spec cell (a_grid a) (a_spacing a)) as [g|]; [|discriminate]. rewrite Ea in T. cbv zeta in T.
  destruct (energy_bins k room a (et e)) as [b|] eqn:Eb; [|discriminate]. destruct (bins_inc _ _ _ _ _ Eb) as [Lb Ib].
  unfold dos_lines in T. rewrite Ew, Ep in T. cbn [String.eqb Ascii.eqb Bool.eqb andb] in T.
  destruct (calculate_dos k b (et e) None wmin (a_method a)) as [z|] eqn:Ez; [|discriminate]. cbn [broaden_stage lines_of s_data map] in T.
  assert (Eb' : b = bins) by congruence. subst b. assert (Ey : [scaled (a_scale a) (Some z)] = ls) by congruence. rewrite Ls in Ey.
  pose proof (dos_bins_count k bins (et e) wmin (a_method a) Hk (incr_of_steps bins Ib) ltac:(lia) Hw) as (z' & Z1 & Z2 & _). rewrite Ez in Z1. assert (z' = z) by congruence. subst z'.
  assert (Ay : forall i, (i < a_ebins a)%nat -> nth i y 0 = nth i z 0 * factor (a_scale a)).
  { intros i Hi. unfold scaled in Ey. destruct (a_scale a) as [c|]; cbn [factor].
    - assert (y = map (fun v => v * c) z) as -> by congruence. rewrite (map_nth_indep _ _ _ 0 0) by lia. reflexivity.
    - assert (y = z) as -> by congruence. ring. }
  assert (A : area bins z = 3).
  { apply (full_range_area k bins (et e) wmin (a_method a) z Hk (incr_of_steps bins Ib)); [lia|lia|exact Hw| |exact Ez].
    intros q m Hq Hm. unfold energy_bins in Eb.
    assert (Iall : forall q m, (q < nq (et e))%nat -> (m < nm (et e))%nat -> In (freq (et e) q m * k) (all_freqs k (et e))).
    { intros q' m' Hq' Hm'. unfold all_freqs. apply in_map_iff. exists (q', m'). split; [reflexivity|]. apply in_prod_iff. split; apply in_seq; lia. }
    destruct (all_freqs k (et e)) as [|f0 fs] eqn:Ef; [discriminate|]. rewrite E1, E2 in Eb.
    destruct (default_bins_cover f0 fs (a_ebins a + 1) (105 / 100) room ltac:(lia) ltac:(lra) Hr) as (b' & B1 & B2 & _ & B4).
    { exists (freq (et e) q0 m0 * k). split; [apply Iall; assumption|]. apply Rmult_lt_0_compat; assumption. }
    rewrite B1 in Eb. assert (b' = bins) by congruence. subst b'. specialize (B4 _ (Iall q m Hq Hm)). rewrite B2. rewrite (Rmult_comm k). lra. }
  unfold area in A. rewrite Lb in A. replace (a_ebins a + 1 - 1)%nat with (a_ebins a) in A by lia.
  rewrite <- A, Rmult_comm. unfold sumn. rewrite <- Sum_scal. apply Sum_ext. intros i Hi. apply in_seq in Hi. rewrite Ay by lia. ring.
Qed.

Section Whole.
Variables (erfc : R -> R) (reigh : real_eigh) (argsort : list R -> list nat) (chunk : nat) (coeffs : R -> list R).

Lemma after_d ceigh d mass born diel cs : o_d (after erfc reigh ceigh argsort chunk (new_fc d mass born diel) cs) = d.
Proof.
  assert (F : fresh_like erfc reigh argsort chunk (new_fc d mass born diel) (after erfc reigh ceigh argsort chunk (new_fc d mass born diel) cs)).
  { apply after_fresh_like; [reflexivity|]. split; try reflexivity; cbn; auto. }
  exact (fl_d _ _ _ _ _ _ F).
Qed.
(** Taking a run apart *)
Lemma run_parts ceigh junk k wmin room src a asr param d mass born diel cs bins ls :
  dos_from_fc erfc reigh ceigh argsort chunk coeffs junk k wmin room src a asr param (after erfc reigh ceigh argsort chunk (new_fc d mass born diel) cs) = Ok (bins, ls) ->
  exists g qs ms, grid_spec (f_cell d) (a_grid a) (a_spacing a) = Some g /\ grid_points g = Some qs /\
    result erfc reigh ceigh argsort chunk junk (grid_options qs asr param (a_adaptive a)) (after erfc reigh ceigh argsort chunk (new_fc d mass born diel) cs)
      = Ok (qs, repeat (1 / INR (length qs)) (length qs), ms) /\
    dos_tool coeffs k wmin room src a (ForceConsts (f_cell d) (fun _ => run_table (M_dynmat.n_atoms d) qs (repeat (1 / INR (length qs)) (length qs)) ms) (fun _ => run_widths (f_cell d) ms)) = Ok (bins, ls).
Proof.
  intros H. unfold dos_from_fc in H.
  assert (Ed : o_d (after erfc reigh ceigh argsort chunk (new_fc d mass born diel) cs) = d) by apply after_d.
  rewrite !Ed in H.
  destruct (resolve a); [|discriminate]. destruct (grid_spec (f_cell d) (a_grid a) (a_spacing a)) as [g|] eqn:G; [|discriminate].
  destruct (grid_points g) as [qs|] eqn:P; [|discriminate].
  destruct (result erfc reigh ceigh argsort chunk junk (grid_options qs asr param (a_adaptive a)) (after erfc reigh ceigh argsort chunk (new_fc d mass born diel) cs)) as [[[qpts w] ms]|] eqn:E; [|discriminate].
  assert (K : qpts = qs /\ w = repeat (1 / INR (length qs)) (length qs)).
  { pose proof E as E'. rewrite (history _ _ _ _ _ _ _ _ _ _ _ (fun _ _ _ => 0)) in E'. unfold result, call in E'.
    destruct (weights_ok _); cbn [negb snd] in E'; [|discriminate]. destruct (the_q_dirs _ _); [|discriminate]. destruct (asr_of _ _ _ _ _) as [[[? ?] ?]|]; [|discriminate].
    cbn [snd] in E'. destruct (calculate _ _ _ _ _); [|discriminate]. destruct (mapE _ _); [|discriminate].
    assert (A : qpts = the_qpts (new_fc d mass born diel) (grid_options qs asr param (a_adaptive a))) by congruence.
    rewrite no_insert in A. split; [exact A|].
    assert (B : w = final_weights (length (the_qpts (new_fc d mass born diel) (grid_options qs asr param (a_adaptive a)))) (the_weights (new_fc d mass born diel) (grid_options qs asr param (a_adaptive a)))) by congruence.
    rewrite no_insert in B. rewrite B. unfold the_weights. destruct (_ && _)%bool; reflexivity. }
  destruct K as [-> ->]. exists g, qs, ms. split; [reflexivity|]. split; [exact P|]. split; [exact E|].
  destruct (dos_tool _ _ _ _ _ _ _) as [r|]; [congruence|discriminate].
Qed.

Section Counts.
Variables (ceigh : complex_eigh) (d : fcdata) (mass : nat -> R) (born : option (nat -> M3)) (diel : M3).
Notation obj := (new_fc d mass born diel).
Notation n := (M_dynmat.n_atoms d).
Lemma counts : home_first d -> search_complete d -> det3 (zrows (f_sc d)) <> 0 -> fc_symmetric d -> symmetric3 diel -> csolves ceigh ->
  exists L, shares_images d L /\
  forall cs junk k wmin room src a param bins ls, 0 < k -> (1 <= a_ebins a)%nat ->
  a_weighting a = "dos"%string -> a_pdos a = None -> a_adaptive a = false -> a_inst a = None -> a_eb a = None ->
  dos_from_fc erfc reigh ceigh argsort chunk coeffs junk k wmin room src a None param (after erfc reigh ceigh argsort chunk obj cs) = Ok (bins, ls) ->
  exists g0 g1 g2, (0 < g0)%nat /\ (0 < g1)%nat /\ (0 < g2)%nat /\ grid_spec (f_cell d) (a_grid a) (a_spacing a) = Some (Z.of_nat g0, Z.of_nat g1, Z.of_nat g2) /\
  let N := (g0 * g1 * g2)%nat in let Q := map (mp_point g0 g1 g2) (seq 0 N) in
  exists md y, (forall j, (j < N)%nat -> let q := mp_point g0 g1 g2 j in
      modes_of (3 * n) mass (whole_matrix erfc d born diel true param L (if is_gamma q then vzero else q) (if is_gamma q then Some (approach Q j) else None)) (md j)) /\
    ls = [Some y] /\ length bins = (a_ebins a + 1)%nat /\ length y = a_ebins a /\
    (forall i, (i < a_ebins a)%nat -> nth i bins 0 < nth (S i) bins 0 /\
      nth i y 0 * (nth (S i) bins 0 - nth i bins 0)
      = factor (a_scale a) * (3 / INR (3 * n) * (Sum (seq 0 N) (fun j => count_in (3 * n) k (nth i bins 0) (nth (S i) bins 0) (md j)) / INR N))) /\
    (a_emin a = None -> a_emax a = None -> 0 < room -> (exists j m, (j < N)%nat /\ (m < 3 * n)%nat /\ 0 < m_freq (md j) m) ->
      sumn (a_ebins a) (fun i => nth i y 0 * (nth (S i) bins 0 - nth i bins 0)) = 3 * factor (a_scale a)).
Proof.
  intros Hh Hc Hd Hf He Hs. destruct (modes_fourier erfc reigh ceigh argsort chunk d mass born diel Hh Hc Hd Hf He Hs) as (L & HL & M). exists L. split; [exact HL|].
  intros cs junk k wmin room src a param bins ls Hk Hn Ew Ep Ea Ei Ee H.
  destruct (run_parts ceigh junk k wmin room src a None param d mass born diel cs bins ls H) as (g & qs & ms & G & P & E & T).
  destruct (M cs junk (grid_options qs None param (a_adaptive a)) _ _ _ eq_refl E) as (Q1 & Q2 & Q3). cbn [p_dipole p_param p_reduce p_splitting grid_options andb] in Q3.
  destruct (plain_line coeffs k wmin room src a _ bins ls Hk Hn Ew Ep Ea Ei Ee T) as (t & y & (g' & _ & ->) & Y1 & Y2 & Y3 & Y4).
  assert (Nq : qs <> []).
  { intros ->. unfold dos_tool in T. rewrite Ew, Ep, Ea in T. cbn [String.eqb Ascii.eqb Bool.eqb andb negb has_evecs is_force] in T.
    destruct (resolve a) as [[s inst]|]; [|discriminate]. unfold M_clidos.modes_of in T. rewrite G, Ea in T. cbn [energy_bins] in T. unfold energy_bins, all_freqs, pairs in T. cbn in T. discriminate. }
  destruct (grid_points_spec g qs P Nq) as (g0 & g1 & g2 & Eg & P0 & P1 & P2 & Em & Lq).
  exists g0, g1, g2. split; [exact P0|]. split; [exact P1|]. split; [exact P2|]. split; [rewrite <- Eg; exact G|]. cbv zeta.
  pose proof (grid_listed g0 g1 g2 qs Em Lq) as EQ.
  set (none := mkModes (fun _ => 0) (fun _ _ => Czero) None).
  exists (fun j => nth j ms none), y. split.
  { intros j Hj. assert (Ej : nth_error qs j = Some (mp_point g0 g1 g2 j)).
    { rewrite EQ, nth_error_map. rewrite (nth_error_nth' (seq 0 (g0 * g1 * g2)) 0%nat) by (rewrite seq_length; exact Hj). rewrite nth_seq_id by exact Hj. reflexivity. }
    destruct (Q3 j _ Ej) as (md & E1 & E2). rewrite (nth_error_nth _ _ none E1). rewrite <- EQ. exact E2. }
  split; [exact Y1|]. split; [exact Y2|]. split; [exact Y3|]. split.
  2: { intros M1 M2 Hr (j & m & Hj & Hm & F). refine (plain_area coeffs k wmin room src a _ _ _ bins ls y Hk Hn Hr Ew Ep Ea Ei Ee M1 M2 _ _ T Y1).
    - rewrite (even_total n qs ms Nq). apply R1_neq_R0.
    - exists j, m. split; [cbn [run_table et nq]; rewrite Lq; exact Hj|]. split; [exact Hm|exact F]. }
  intros i Hi. destruct (Y4 i Hi) as [B1 B2]. split; [exact B1|]. rewrite B2.
  rewrite (even_mean n qs ms _ Nq). rewrite Lq. reflexivity.
Qed.
End Counts.
End Whole.

(** Two solvers *)
Lemma same_bins k room a e e' : nq (et e) = nq (et e') -> nm (et e) = nm (et e') ->
  (forall q m, (q < nq (et e))%nat -> (m < nm (et e))%nat -> freq (et e) q m = freq (et e') q m) -> energy_bins k room a (et e) = energy_bins k room a (et e').
Proof.
  intros A B F. assert (E : all_freqs k (et e) = all_freqs k (et e')).
  { unfold all_freqs, pairs. rewrite <- A, <- B. apply map_ext_in. intros [q m] I. apply in_prod_iff in I. destruct I as [I J]. apply in_seq in I, J. cbn [fst snd]. rewrite F by lia. reflexivity. }
  unfold energy_bins. rewrite E. reflexivity.
Qed.
Lemma tool_same coeffs k wmin room src a cell e e' w w' mass D : same_points e e' -> table_modes e mass D -> table_modes e' mass D ->
  (forall q m, (q < nq (et e))%nat -> (m < nm (et e))%nat -> freq (et e) q m = freq (et e') q m) -> a_adaptive a = false ->
  dos_tool coeffs k wmin room src a (ForceConsts cell (fun _ => e) w) = dos_tool coeffs k wmin room src a (ForceConsts cell (fun _ => e') w').
Proof.
  intros P M M' F Ea. unfold dos_tool. cbn [has_evecs is_force negb]. rewrite !Bool.andb_false_r. destruct (resolve a) as [[s inst]|]; [|reflexivity].
  unfold M_clidos.modes_of. destruct (grid_spec cell (a_grid a) (a_spacing a)) as [g|]; [|reflexivity]. rewrite Ea. cbv zeta.
  assert (An : M_dos.n_atoms e = M_dos.n_atoms e') by apply P.
  rewrite (same_bins k room a e e'); [|apply P|rewrite (proj1 M), (proj1 M'), An; reflexivity|exact F].
  destruct (energy_bins k room a (et e')) as [bins|]; [|reflexivity].
  assert (DL : dos_lines k wmin src a e None bins = dos_lines k wmin src a e' None bins).
  { unfold dos_lines. rewrite (dos_same e e' mass D P M M'). destruct (_ && _)%bool; [reflexivity|]. destruct (pdos_weighting (a_weighting a)) as [wo|]; [|reflexivity].
    destruct (match wo with None => _ | Some _ => _ end) as [ww|]; [|reflexivity]. rewrite (pdos_weighted_same e e' mass D P M M'), An. reflexivity. }
  rewrite DL. reflexivity.
Qed.
Lemma solvers_same erfc reigh argsort chunk coeffs ceigh ceigh' d mass born diel cs cs' junk junk' k wmin room src a asr param r r' :
  csolves ceigh -> csolves ceigh' -> csorts ceigh -> csorts ceigh' -> asr <> Some Reciprocal -> a_adaptive a = false ->
  dos_from_fc erfc reigh ceigh argsort chunk coeffs junk k wmin room src a asr param (after erfc reigh ceigh argsort chunk (new_fc d mass born diel) cs) = Ok r ->
  dos_from_fc erfc reigh ceigh' argsort chunk coeffs junk' k wmin room src a asr param (after erfc reigh ceigh' argsort chunk (new_fc d mass born diel) cs') = Ok r' -> r = r'.
Proof.
  intros S S' O O' Ha Ea H H'. destruct r as [bins ls], r' as [bins' ls'].
  destruct (run_parts _ _ _ _ _ _ _ _ _ _ _ _ _ _ _ _ _ _ _ _ _ H) as (g & qs & ms & G & P & E & T).
  destruct (run_parts _ _ _ _ _ _ _ _ _ _ _ _ _ _ _ _ _ _ _ _ _ H') as (g' & qs' & ms' & G' & P' & E' & T').
  assert (g' = g) by congruence. subst g'. assert (qs' = qs) by congruence. subst qs'.
  pose proof (two_calculations erfc reigh argsort chunk ceigh ceigh' d mass born diel cs cs' junk junk' (grid_options qs asr param (a_adaptive a)) _ _ S S' Ha E E') as (_ & SP & (A & M & M') & F).
  rewrite (tool_same coeffs k wmin room src a (f_cell d) _ _ _ (fun _ => run_widths (f_cell d) ms') _ A SP M M') in T.
  - rewrite <- table_same in T. rewrite T in T'. congruence.
  - intros q m Hq Hm. exact (F O O' q m Hq Hm).
  - exact Ea.
Qed.

(** --adaptive: the widths come from the gradients of the same calculation *)
Lemma adaptive_run erfc reigh argsort chunk coeffs ceigh d mass born diel cs junk k wmin room src a asr param s bins ls : 0 < k -> 0 < wmin -> (1 <= a_ebins a)%nat ->
  a_weighting a = "dos"%string -> a_pdos a = None -> a_adaptive a = true -> a_method a = Reference -> a_shape a = "gauss"%string -> a_eb a = None ->
  (a_ascale a = None /\ s = 1 \/ a_ascale a = Some s /\ s <> 0) ->
  let x := after erfc reigh ceigh argsort chunk (new_fc d mass born diel) cs in
  dos_from_fc erfc reigh ceigh argsort chunk coeffs junk k wmin room src a asr param x = Ok (bins, ls) ->
  exists g0 g1 g2, (0 < g0)%nat /\ (0 < g1)%nat /\ (0 < g2)%nat /\ grid_spec (f_cell d) (a_grid a) (a_spacing a) = Some (Z.of_nat g0, Z.of_nat g1, Z.of_nat g2) /\
  let n := M_dynmat.n_atoms d in let N := (g0 * g1 * g2)%nat in let Q := map (mp_point g0 g1 g2) (seq 0 N) in
  exists w ms y, result erfc reigh ceigh argsort chunk junk (mkOpts Q None asr true param true false true true) x = Ok (Q, w, ms) /\ length ms = N /\
    ls = [Some y] /\ length bins = (a_ebins a + 1)%nat /\ length y = a_ebins a /\
    forall i, (i < a_ebins a)%nat -> nth i y 0 = factor (a_scale a) * (3 / INR (3 * n) * (Sum (seq 0 N) (fun j => Sum (seq 0 (3 * n)) (fun m =>
      match nth_error ms j with
      | Some md => match m_grad md with
                   | Some v => gaussian (drawn_sd s (a_inst a) (k * wmin) (k * (2 / cbrt (INR N * cell_vectors_to_volume (f_cell d)) * norm (v m 0%nat, v m 1%nat, v m 2%nat))) (k * m_freq md m)) (middle bins i - k * m_freq md m)
                   | None => 0
                   end
      | None => 0
      end)) / INR N)).
Proof.
  intros Hk Hw Hn Ew Ep Ea Em Es Ee As x H.
  destruct (run_parts _ _ _ _ _ _ _ _ _ _ _ _ _ _ _ _ _ _ _ _ _ H) as (g & qs & ms & G & P & E & T).
  destruct (adaptive_line coeffs k wmin room src a _ _ _ bins ls Hk Hw Hn Ew Ep Ea Em Es Ee T) as (g' & y & G' & Y1 & Y2 & Y3 & Y4).
  assert (g' = g) by congruence. subst g'. cbv zeta in Y4.
  assert (Nq : qs <> []).
  { intros ->. unfold dos_tool in T. rewrite Ew, Ep, Ea in T. cbn [String.eqb Ascii.eqb Bool.eqb andb negb has_evecs is_force] in T.
    destruct (resolve a) as [[s0 inst]|]; [|discriminate]. unfold M_clidos.modes_of in T. rewrite G, Ea in T. unfold energy_bins, all_freqs, pairs in T. cbn in T. discriminate. }
  destruct (grid_points_spec g qs P Nq) as (g0 & g1 & g2 & Eg & P0 & P1 & P2 & Emp & Lq).
  exists g0, g1, g2. split; [exact P0|]. split; [exact P1|]. split; [exact P2|]. split; [rewrite <- Eg; exact G|]. cbv zeta.
  pose proof (grid_listed g0 g1 g2 qs Emp Lq) as EQ. rewrite Ea in E. rewrite <- EQ.
  assert (K : length ms = length qs /\ forall md, In md ms -> exists v, m_grad md = Some v).
  { pose proof E as E'. rewrite (history _ _ _ _ _ _ _ _ _ _ _ (fun _ _ _ => 0)) in E'. unfold result, call in E'.
    destruct (weights_ok _); cbn [negb snd] in E'; [|discriminate]. destruct (the_q_dirs _ _); [|discriminate]. destruct (asr_of _ _ _ _ _) as [[[? ?] ?]|]; [|discriminate].
    cbn [snd] in E'. rewrite no_insert in E'.
    match type of E' with match calculate ?f _ _ _ _ with _ => _ end = _ => set (calc := f) in E' end.
    destruct (L_qpts.calculate_correct _ calc None (p_reduce (grid_options qs asr param true)) (use_splitting (new_fc d mass born diel) (grid_options qs asr param true)) qs) as (out & C1 & C2 & C3).
    rewrite C1 in E'. destruct (mapE _ out) as [ms'|] eqn:Eo; [|discriminate]. assert (ms' = ms) by congruence. subst ms'.
    destruct (L_brconv3.mapE_len _ _ _ Eo) as [Lo No]. split; [lia|]. intros md I. destruct (In_nth_error _ _ I) as (j & Ej).
    assert (Hj : (j < length ms)%nat) by (apply nth_error_Some; congruence).
    destruct (nth_error qs j) as [q|] eqn:Eq; [|apply nth_error_None in Eq; lia]. specialize (C3 j q Eq). destruct (No j _ C3) as (md' & M1 & M2).
    assert (md' = md) by congruence. subst md'. unfold calc in M2. cbn [grid_options p_grads] in M2. unfold solve in M2.
    destruct (ceigh _ _) as [[ev v]|]; [|discriminate]. cbn [option_map] in M2. eexists. assert (Y : forall u z : modes, @Ok modes M_calc.cerr u = Ok z -> u = z) by (intros; congruence). rewrite <- (Y _ _ M2). reflexivity. }
  destruct K as [Lm Gr]. exists (repeat (1 / INR (length qs)) (length qs)), ms, y. split; [exact E|]. split; [lia|]. split; [exact Y1|]. split; [exact Y2|]. split; [exact Y3|].
  intros i Hi. rewrite (Y4 i Hi). f_equal. rewrite (even_mean _ qs ms _ Nq), Lq.
  match goal with |- Sum ?l ?f / ?d = ?c * (Sum ?l ?g / ?d) => replace (Sum l f) with (c * Sum l g); [unfold Rdiv; ring|]; rewrite <- Sum_scal end. symmetry.
  apply Sum_ext. intros j Hj. apply in_seq in Hj. cbn [run_table et nm]. rewrite Sum_scal. f_equal. apply Sum_ext. intros m _.
  destruct (nth_error ms j) as [md|] eqn:Ej; [|apply nth_error_None in Ej; lia]. destruct (Gr md (nth_error_In _ _ Ej)) as (v & Ev).
  rewrite Ev. unfold run_widths. cbn [freq]. rewrite (nth_error_nth _ _ _ Ej), Ev. unfold mode_width, q_spacing. rewrite Lm, Lq.
  destruct As as [[-> ->] | [-> Ns]]; [reflexivity|]. destruct (Reqb_spec s 0) as [Z|_]; [contradiction|reflexivity].
Qed.

(** Earlier calls and uninitialised memory *)
Lemma run_history erfc reigh ceigh argsort chunk coeffs d mass born diel cs junk junk' k wmin room src a asr param :
  dos_from_fc erfc reigh ceigh argsort chunk coeffs junk k wmin room src a asr param (after erfc reigh ceigh argsort chunk (new_fc d mass born diel) cs)
  = dos_from_fc erfc reigh ceigh argsort chunk coeffs junk' k wmin room src a asr param (new_fc d mass born diel).
Proof.
  unfold dos_from_fc. rewrite !after_d. change (o_d (new_fc d mass born diel)) with d. destruct (resolve a); [|reflexivity].
  destruct (grid_spec _ _ _) as [g|]; [|reflexivity]. destruct (grid_points g) as [qs|]; [|reflexivity].
  rewrite (history erfc reigh ceigh argsort chunk d mass born diel cs junk junk' (grid_options qs asr param (a_adaptive a))). reflexivity.
Qed.
