(** Lemmas for C99: euphonic-powder-map from force constants as a whole. *)
From Coq Require Import String.
From Verif Require S_unique L_qpts L_brconv3.
From Verif Require Import Base Cpx Vec3 M_path M_broad S_broad M_dos M_bins M_coll M_fixed M_clidos M_sample M_sf M_sphere M_powder M_weight M_grid M_cell M_qpts M_dynmat M_dipole M_struct M_asr M_calc M_doscalc M_powcalc
  S_dos S_sample S_sf S_clidos S_powder S_sphere S_qpts S_dynmat S_dipole S_asr S_calc S_unique S_doscalc S_powcalc L_util L_kin L_dos L_dos2 L_powder L_weight L_path2 L_calc L_calc2 L_calc7 L_unique2 L_unique3 L_doscalc.
Open Scope R_scope.

Notation solves := S_sample.solves.
Notation q_spacing := M_powder.q_spacing.

Lemma run_qpts erfc reigh ceigh argsort chunk d mass born diel cs junk qs asr param qpts w ms :
  result erfc reigh ceigh argsort chunk junk (grid_options qs asr param false) (after erfc reigh ceigh argsort chunk (new_fc d mass born diel) cs) = Ok (qpts, w, ms) ->
  qpts = qs /\ w = repeat (1 / INR (length qs)) (length qs).
Proof.
  intros E. rewrite (history _ _ _ _ _ _ _ _ _ _ _ (fun _ _ _ => 0)) in E. unfold result, call in E.
  destruct (weights_ok _); cbn [negb snd] in E; [|discriminate]. destruct (the_q_dirs _ _); [|discriminate]. destruct (asr_of _ _ _ _ _) as [[[? ?] ?]|]; [|discriminate].
  cbn [snd] in E. destruct (calculate _ _ _ _ _); [|discriminate]. destruct (mapE _ _); [|discriminate].
  assert (A : qpts = the_qpts (new_fc d mass born diel) (grid_options qs asr param false)) by congruence.
  rewrite no_insert in A. split; [exact A|].
  assert (B : w = final_weights (length (the_qpts (new_fc d mass born diel) (grid_options qs asr param false))) (the_weights (new_fc d mass born diel) (grid_options qs asr param false))) by congruence.
  rewrite no_insert in B. rewrite B. unfold the_weights. destruct (_ && _)%bool; reflexivity.
Qed.

Section One.
Variables (erfc : R -> R) (reigh : real_eigh) (argsort : list R -> list nat) (chunk : nat).
Variables (ceigh : complex_eigh) (d : fcdata) (mass : nat -> R) (born : option (nat -> M3)) (diel : M3).
Notation obj := (new_fc d mass born diel).
Notation n := (M_dynmat.n_atoms d).
Notation run_modes := (run_modes erfc reigh ceigh argsort chunk).
Notation run_calc := (run_calc erfc reigh ceigh argsort chunk).
Notation powder_from_fc := (powder_from_fc erfc reigh ceigh argsort chunk).
Notation pos := (fun a => nth a (f_atom_r d) vzero).

Lemma run_history : forall junk before junk' before' asr param solve ops dw_chunk kB fmin wmin k c src sl rnd rnd2 always coeffs hm room a w,
  powder_from_fc junk before asr param solve ops dw_chunk kB fmin wmin k c src sl rnd rnd2 always coeffs hm room a w obj
  = powder_from_fc junk' before' asr param solve ops dw_chunk kB fmin wmin k c src sl rnd rnd2 always coeffs hm room a w obj.
Proof.
  intros. unfold M_powcalc.powder_from_fc. destruct (pdos_clash w); [reflexivity|]. destruct (Reqb _ _); [reflexivity|].
  assert (E : forall qs, run_modes junk before asr param obj qs = run_modes junk' before' asr param obj qs).
  { intros qs. unfold M_powcalc.run_modes. rewrite (history _ _ _ _ _ _ _ _ _ _ _ (fun _ _ _ => 0)). symmetry. rewrite (history _ _ _ _ _ _ _ _ _ _ _ (fun _ _ _ => 0)). reflexivity. }
  rewrite E. destruct (run_modes junk' before' asr param obj [x_point]) as [[[? ?] ms]|]; [|reflexivity].
  destruct (x_freqs _ _ _) as [|f0 fs]; [reflexivity|].
  assert (C : forall qs, run_calc junk before asr param obj qs = run_calc junk' before' asr param obj qs) by (intros qs; unfold M_powcalc.run_calc; rewrite E; reflexivity).
  assert (W : forall bins q m, weighted_row (run_calc junk before asr param obj) (f_cell (o_d obj)) (crystal_of obj) solve ops dw_chunk kB fmin wmin k c src sl rnd rnd2 always w bins q m
    = weighted_row (run_calc junk' before' asr param obj) (f_cell (o_d obj)) (crystal_of obj) solve ops dw_chunk kB fmin wmin k c src sl rnd rnd2 always w bins q m).
  { intros bins q m.
    assert (M : forall eb, sphere_modes (run_calc junk before asr param obj) (crystal_of obj) solve k q m (w_sampling w) (rnd q) (rnd2 q) (always q) eb
      = sphere_modes (run_calc junk' before' asr param obj) (crystal_of obj) solve k q m (w_sampling w) (rnd q) (rnd2 q) (always q) eb).
    { intros eb. unfold sphere_modes. destruct (sphere_points _ _ _ _ _ _ _ _); [|reflexivity]. rewrite C. reflexivity. }
    assert (D : forall g t, debye_waller_on (run_calc junk before asr param obj) (crystal_of obj) ops dw_chunk kB fmin g t
      = debye_waller_on (run_calc junk' before' asr param obj) (crystal_of obj) ops dw_chunk kB fmin g t).
    { intros g t. unfold debye_waller_on. destruct g as [[[n0 n1] n2]|]; [|reflexivity]. destruct (_ || _)%bool; [reflexivity|]. destruct (mp_grid _ _ _); [|reflexivity]. rewrite C. reflexivity. }
    unfold weighted_row, tool_dw, sample_sphere_dos, sample_sphere_pdos, sample_sphere_structure_factor, the_dw. rewrite M.
    destruct (w_temperature w) as [t|]; [rewrite !D|]; reflexivity. }
  assert (T : powder_map_tool (run_calc junk before asr param obj) (f_cell (o_d obj)) (crystal_of obj) solve ops dw_chunk kB fmin wmin k c src sl rnd rnd2 always coeffs hm room f0 fs a w
    = powder_map_tool (run_calc junk' before' asr param obj) (f_cell (o_d obj)) (crystal_of obj) solve ops dw_chunk kB fmin wmin k c src sl rnd rnd2 always coeffs hm room f0 fs a w).
  { assert (P : powder_tool coeffs hm room (weighted_row (run_calc junk before asr param obj) (f_cell (o_d obj)) (crystal_of obj) solve ops dw_chunk kB fmin wmin k c src sl rnd rnd2 always w) f0 fs a
      = powder_tool coeffs hm room (weighted_row (run_calc junk' before' asr param obj) (f_cell (o_d obj)) (crystal_of obj) solve ops dw_chunk kB fmin wmin k c src sl rnd rnd2 always w) f0 fs a).
    { unfold powder_tool. destruct (Reqb _ _); [reflexivity|]. destruct (_ <=? _)%Z; [reflexivity|]. destruct (p_energy_bins _ _ _ _) as [bins|]; [|reflexivity].
      rewrite (mapE_ext (fun q => weighted_row (run_calc junk before asr param obj) (f_cell (o_d obj)) (crystal_of obj) solve ops dw_chunk kB fmin wmin k c src sl rnd rnd2 always w bins q (shell_npts a q))
        (fun q => weighted_row (run_calc junk' before' asr param obj) (f_cell (o_d obj)) (crystal_of obj) solve ops dw_chunk kB fmin wmin k c src sl rnd rnd2 always w bins q (shell_npts a q)))
        by (intros q _; apply W). reflexivity. }
    unfold powder_map_tool. destruct (w_pdos w); [|exact P]. destruct (String.eqb _ _); [reflexivity|exact P]. }
  rewrite T. reflexivity.
Qed.

(** Taking a run apart *)
Lemma run_parts junk before asr param solve ops dw_chunk kB fmin wmin k c src sl rnd rnd2 always coeffs hm room a w r :
  powder_from_fc junk before asr param solve ops dw_chunk kB fmin wmin k c src sl rnd rnd2 always coeffs hm room a w obj = Ok r ->
  exists ms f0 fs, run_modes junk before asr param obj [x_point] = Ok ([x_point], [1 / 1], ms) /\ x_freqs k n ms = f0 :: fs /\
    powder_map_tool (run_calc junk before asr param obj) (f_cell d) (M_sf.mkX mass pos (reciprocal_cell (f_cell d))) solve ops dw_chunk kB fmin wmin k c src sl rnd rnd2 always coeffs hm room f0 fs a w = Ok r.
Proof.
  intros H. unfold M_powcalc.powder_from_fc in H. destruct (pdos_clash w); [discriminate|]. destruct (Reqb _ _); [discriminate|].
  destruct (run_modes junk before asr param obj [x_point]) as [[[qpts w'] ms]|] eqn:E; [|discriminate]. destruct (run_qpts _ _ _ _ _ _ _ _ _ _ _ _ _ _ _ _ _ E) as [-> ->].
  destruct (x_freqs k (M_dynmat.n_atoms (o_d obj)) ms) as [|f0 fs] eqn:F; [discriminate|]. exists ms, f0, fs. split; [reflexivity|]. split; [exact F|].
  destruct (powder_map_tool _ _ _ _ _ _ _ _ _ _ _ _ _ _ _ _ _ _ _ _ _ _ _) as [r'|] eqn:T; [|discriminate]. f_equal. congruence.
Qed.

Section Modes.
Hypotheses (Hh : home_first d) (Hc : search_complete d) (Hd : det3 (zrows (f_sc d)) <> 0) (Hf : fc_symmetric d) (He : symmetric3 diel) (Hs : csolves ceigh).
Lemma calc_modes : exists L, shares_images d L /\ forall junk before param qs,
  (forall qpts e, run_calc junk before None param obj qs = Some (qpts, e) -> qpts = qs /\ crystal_modes erfc d mass born diel param L qs e) /\
  (forall qpts w ms, run_modes junk before None param obj qs = Ok (qpts, w, ms) -> crystal_modes erfc d mass born diel param L qs (run_table n qpts w ms)).
Proof.
  destruct (modes_fourier erfc reigh ceigh argsort chunk d mass born diel Hh Hc Hd Hf He Hs) as (L & HL & M). exists L. split; [exact HL|].
  intros junk before param qs.
  assert (K : forall qpts w ms, run_modes junk before None param obj qs = Ok (qpts, w, ms) -> qpts = qs /\ crystal_modes erfc d mass born diel param L qs (run_table n qpts w ms)).
  { intros qpts w ms E. destruct (run_qpts _ _ _ _ _ _ _ _ _ _ _ _ _ _ _ _ _ E) as [-> ->]. split; [reflexivity|].
    destruct (M (before qs) (junk qs) (grid_options qs None param false) _ _ _ eq_refl E) as (_ & _ & Q). cbn [p_dipole p_param p_reduce p_splitting grid_options andb] in Q.
    split; [reflexivity|]. split; [reflexivity|]. split; [reflexivity|]. intros j Hj. cbv zeta. split.
    - cbn [run_table et wt]. rewrite (@nth_indep _ _ j 0 (1 / INR (length qs))) by (rewrite repeat_length; exact Hj). apply nth_repeat.
    - destruct (Q j _ (nth_error_at qs j vzero Hj)) as (md & E1 & E2).
      assert (N : nth j ms (mkModes (fun _ => 0) (fun _ _ => Czero) None) = md) by (apply nth_error_nth; exact E1).
      assert (I : forall i, (3 * (i / 3) + i mod 3)%nat = i) by (intros i; symmetry; apply Nat.div_mod; lia).
      destruct E2 as [S1 S2]. split.
      + intros m Hm i Hi. cbn [S_unique.modes_at m_freq m_evec run_table et freq evec]. rewrite N, I. specialize (S1 m Hm i Hi).
        rewrite <- S1. apply Csum_ext. intros b _. rewrite I. reflexivity.
      + intros m k Hm Hk. specialize (S2 m k Hm Hk). cbv beta in S2. rewrite <- S2. apply Csum_ext. intros i _.
        cbn [S_unique.modes_at m_evec run_table et freq evec]. rewrite N, I. reflexivity. }
  split; [|intros qpts w ms E; exact (proj2 (K _ _ _ E))].
  intros qpts e E. unfold M_powcalc.run_calc in E. destruct (run_modes junk before None param obj qs) as [[[qp w] ms]|] eqn:R; [|discriminate].
  destruct (K _ _ _ eq_refl) as [A B]. injection E as <- <-. split; [exact A|exact B].
Qed.

Lemma crystal_mean param L qs e f : crystal_modes erfc d mass born diel param L qs e -> wmean (et e) f = average (seq 0 (length qs)) f.
Proof.
  intros (_ & _ & Q & W). assert (N : qs = [] \/ qs <> []) by (destruct qs; [left; reflexivity|right; discriminate]). destruct N as [->|N].
  { unfold wmean, average. rewrite Q. cbn [length seq]. rewrite !Sum_nil. unfold Rdiv. rewrite !Rmult_0_l. reflexivity. }
  assert (P : INR (length qs) <> 0) by (apply not_0_INR; destruct qs; [contradiction|discriminate]).
  unfold wmean, total_weight, average. rewrite Q, seq_length.
  rewrite (Sum_ext _ (wt (et e)) (fun _ => 1 / INR (length qs))) by (intros q Iq; apply in_seq in Iq; apply (proj1 (W q ltac:(lia)))).
  rewrite (Sum_ext _ (fun q => wt (et e) q * f q) (fun q => 1 / INR (length qs) * f q)) by (intros q Iq; apply in_seq in Iq; rewrite (proj1 (W q ltac:(lia))); reflexivity).
  rewrite Sum_scal, Sum_const, seq_length. field. exact P.
Qed.

Notation dw_at L param dw_chunk kB fmin ops w dd :=
  (match w_temperature w with
   | None => dd = None
   | Some t => exists g mesh e d0, grid_spec (f_cell d) (w_grid w) (w_spacing w) = Some g /\ grid_points g = Some mesh /\ crystal_modes erfc d mass born diel param L mesh e /\
       calculate_debye_waller dw_chunk e (M_sf.mkX mass pos (reciprocal_cell (f_cell d))) kB t fmin ops = Ok d0 /\ dd = Some d0
   end).

Lemma powder_counts : exists L, shares_images d L /\
  forall junk before param solve ops dw_chunk kB fmin wmin k c src sl rnd rnd2 always coeffs hm room a w edges bins z, solves solve -> det3 (f_cell d) <> 0 -> 0 < k ->
  0 <= q_min a -> q_min a < q_max a -> 0 < q_spacing a -> (1 <= p_ebins a)%nat ->
  p_qb a = None -> p_eb a = None -> p_ei a = None -> p_ef a = None -> w_weighting w = "dos"%string -> w_pdos w = None ->
  powder_from_fc junk before None param solve ops dw_chunk kB fmin wmin k c src sl rnd rnd2 always coeffs hm room a w obj = Ok (edges, bins, z) ->
  length bins = (p_ebins a + 1)%nat /\ increasing bins /\
  forall i, (i < Z.to_nat (n_q_bins a))%nat -> exists l ps e,
    get_qpts_sphere (shell_npts a (bin_middle edges i)) (w_sampling w) (rnd (bin_middle edges i)) (rnd2 (bin_middle edges i)) (always (bin_middle edges i)) = Ok l /\
    length ps = length l /\ on_shell (reciprocal_cell (f_cell d)) (bin_middle edges i) ps /\ crystal_modes erfc d mass born diel param L ps e /\
    forall j, (j < p_ebins a)%nat -> exists v, z i j = Some v /\ v * (nth (S j) bins 0 - nth j bins 0) =
      p_factor a * (3 / INR (3 * n) * average (seq 0 (length ps)) (modes_in k (et e) (nth j bins 0) (nth (S j) bins 0))).
Proof.
  destruct calc_modes as (L & HL & M). exists L. split; [exact HL|]. intros until z. intros Hv Hdet Hk H0 Hq Hsp Hn Wq We Ki Kf Ww Wp H.
  destruct (run_parts _ _ _ _ _ _ _ _ _ _ _ _ _ _ _ _ _ _ _ _ _ _ _ H) as (ms & f0 & fs & _ & _ & T).
  destruct (plain_tool _ _ _ _ _ _ _ _ _ _ _ _ _ _ _ _ _ _ _ _ _ _ _ _ _ _ _ Hv Hdet Hk H0 Hq Hsp Hn Wq We Ki Kf Ww Wp T) as (A & B & K).
  split; [exact A|]. split; [exact B|]. intros i Hi. destruct (K i Hi) as (l & ps & qs & e & L1 & L2 & L3 & L4 & L5).
  destruct (proj1 (M junk before param ps) _ _ L4) as [-> CM]. exists l, ps, e. split; [exact L1|]. split; [exact L2|]. split; [exact L3|]. split; [exact CM|].
  intros j Hj. destruct (L5 j Hj) as (v & V1 & V2). exists v. split; [exact V1|]. rewrite V2, (crystal_mean param L ps e _ CM). rewrite (proj1 (proj2 CM)). reflexivity.
Qed.

Lemma dw_crystal L param junk before dw_chunk kB fmin ops (w : wargs) dd :
  (forall qs qpts e, run_calc junk before None param obj qs = Some (qpts, e) -> qpts = qs /\ crystal_modes erfc d mass born diel param L qs e) ->
  (match w_temperature w with
   | None => dd = None
   | Some t => exists g d0, grid_spec (f_cell d) (w_grid w) (w_spacing w) = Some g /\
       dw_on (run_calc junk before None param obj) (M_sf.mkX mass pos (reciprocal_cell (f_cell d))) ops dw_chunk kB fmin g t d0 /\ dd = Some d0
   end) -> dw_at L param dw_chunk kB fmin ops w dd.
Proof.
  intros M. destruct (w_temperature w) as [t|]; [|intros E; exact E]. intros (g & d0 & G & On & E). destruct g as [[n0 n1] n2].
  destruct On as (P0 & P1 & P2 & mesh & qs & e & Me & C & D). destruct (M _ _ _ C) as [-> CM].
  exists (n0, n1, n2), mesh, e, d0. split; [exact G|]. split; [|split; [exact CM|split; [exact D|exact E]]].
  unfold grid_points. destruct (Z.ltb_spec n0 0); [lia|]. destruct (Z.ltb_spec n1 0); [lia|]. destruct (Z.ltb_spec n2 0); [lia|]. cbn [orb]. rewrite Me. reflexivity.
Qed.

Lemma powder_coherent : exists L, shares_images d L /\
  forall junk before param solve ops dw_chunk kB fmin wmin k c src sl rnd rnd2 always coeffs hm room a w edges bins z, solves solve -> det3 (f_cell d) <> 0 -> 0 < k -> (0 < dw_chunk)%nat ->
  0 <= q_min a -> q_min a < q_max a -> 0 < q_spacing a -> (1 <= p_ebins a)%nat ->
  p_qb a = None -> p_eb a = None -> p_ei a = None -> p_ef a = None -> w_weighting w = "coherent"%string ->
  powder_from_fc junk before None param solve ops dw_chunk kB fmin wmin k c src sl rnd rnd2 always coeffs hm room a w obj = Ok (edges, bins, z) ->
  length bins = (p_ebins a + 1)%nat /\ increasing bins /\ exists dd, dw_at L param dw_chunk kB fmin ops w dd /\
  forall i, (i < Z.to_nat (n_q_bins a))%nat -> exists l ps e,
    get_qpts_sphere (shell_npts a (bin_middle edges i)) (w_sampling w) (rnd (bin_middle edges i)) (rnd2 (bin_middle edges i)) (always (bin_middle edges i)) = Ok l /\
    length ps = length l /\ on_shell (reciprocal_cell (f_cell d)) (bin_middle edges i) ps /\ crystal_modes erfc d mass born diel param L ps e /\ ps <> [] /\
    forall j, (j < p_ebins a)%nat -> exists v, z i j = Some v /\ v * (nth (S j) bins 0 - nth j bins 0) =
      p_factor a * (c * average (seq 0 (length ps)) (scattered kB k (w_temperature w) (f_cell d) sl mass pos dd ps e (nth j bins 0) (nth (S j) bins 0))).
Proof.
  destruct calc_modes as (L & HL & M). exists L. split; [exact HL|]. intros until z. intros Hv Hdet Hk Hch H0 Hq Hsp Hn Wq We Ki Kf Ww H.
  destruct (run_parts _ _ _ _ _ _ _ _ _ _ _ _ _ _ _ _ _ _ _ _ _ _ _ H) as (ms & f0 & fs & _ & _ & T).
  destruct (coherent_tool _ _ _ _ _ _ _ _ _ _ _ _ _ _ _ _ _ _ _ _ _ _ _ _ _ _ _ Hv Hdet Hk Hch H0 Hq Hsp Hn Wq We Ki Kf Ww T) as (A & B & dd & D & K).
  split; [exact A|]. split; [exact B|]. exists dd. split; [exact (dw_crystal L param junk before _ _ _ _ _ _ (fun qs => proj1 (M junk before param qs)) D)|].
  intros i Hi. destruct (K i Hi) as (l & ps & qs & e & L1 & L2 & L3 & L4 & L5 & L6).
  destruct (proj1 (M junk before param ps) _ _ L4) as [-> CM]. exists l, ps, e. split; [exact L1|]. split; [exact L2|]. split; [exact L3|]. split; [exact CM|].
  rewrite (proj1 (proj2 (proj2 CM))) in L5, L6. split; [intros ->; cbn in L5; lia|exact L6].
Qed.

Lemma powder_pdos : exists L, shares_images d L /\
  forall junk before param solve ops dw_chunk kB fmin wmin k c src sl rnd rnd2 always coeffs hm room a w ww edges bins z, solves solve -> det3 (f_cell d) <> 0 -> 0 < k ->
  0 <= q_min a -> q_min a < q_max a -> 0 < q_spacing a -> (1 <= p_ebins a)%nat ->
  p_qb a = None -> p_eb a = None -> p_ei a = None -> p_ef a = None -> weighting_named (w_weighting w) ww -> ~ (w_weighting w = "dos"%string /\ w_pdos w = None) ->
  powder_from_fc junk before None param solve ops dw_chunk kB fmin wmin k c src sl rnd rnd2 always coeffs hm room a w obj = Ok (edges, bins, z) ->
  length bins = (p_ebins a + 1)%nat /\ increasing bins /\
  forall i, (i < Z.to_nat (n_q_bins a))%nat -> exists l ps e (f : nat -> R),
    get_qpts_sphere (shell_npts a (bin_middle edges i)) (w_sampling w) (rnd (bin_middle edges i)) (rnd2 (bin_middle edges i)) (always (bin_middle edges i)) = Ok l /\
    length ps = length l /\ on_shell (reciprocal_cell (f_cell d)) (bin_middle edges i) ps /\ crystal_modes erfc d mass born diel param L ps e /\
    (forall b, (b < n)%nat -> atom_factor ww (coherent_cs src) (incoherent_cs src) (element src) mass n b (f b)) /\
    forall j, (j < p_ebins a)%nat -> exists v, z i j = Some v /\ v * (nth (S j) bins 0 - nth j bins 0) =
      p_factor a * Sum (match w_pdos w with None => seq 0 n | Some s => atoms_of (map (symbol src) (seq 0 n)) s end)
        (fun b => f b * average (seq 0 (length ps)) (atom_part k e (nth j bins 0) (nth (S j) bins 0) b)).
Proof.
  destruct calc_modes as (L & HL & M). exists L. split; [exact HL|]. intros until z. intros Hv Hdet Hk H0 Hq Hsp Hn Wq We Ki Kf Ww Wp H.
  destruct (run_parts _ _ _ _ _ _ _ _ _ _ _ _ _ _ _ _ _ _ _ _ _ _ _ H) as (ms & f0 & fs & _ & F & T).
  assert (Na : (0 < n)%nat) by (destruct (n) as [|n']; [discriminate F|lia]).
  destruct (fun X => pdos_tool _ _ _ _ _ _ _ _ _ _ _ _ _ _ _ _ _ _ _ _ _ _ _ _ _ _ _ _ Hv Hdet Hk X H0 Hq Hsp Hn Wq We Ki Kf Ww Wp T) as (A & B & K).
  { intros ps qs e E. destruct (proj1 (M junk before param ps) _ _ E) as [_ CM]. rewrite (proj1 CM). exact Na. }
  split; [exact A|]. split; [exact B|]. intros i Hi. destruct (K i Hi) as (l & ps & qs & e & f & L1 & L2 & L3 & L4 & L5 & L6).
  destruct (proj1 (M junk before param ps) _ _ L4) as [-> CM]. exists l, ps, e, f. split; [exact L1|]. split; [exact L2|]. split; [exact L3|]. split; [exact CM|].
  rewrite (proj1 CM) in L5, L6. split; [exact L5|]. intros j Hj. destruct (L6 j Hj) as (v & V1 & V2). exists v. split; [exact V1|]. rewrite V2. f_equal. apply Sum_ext. intros b _.
  rewrite (crystal_mean param L ps e _ CM). reflexivity.
Qed.

(** The energy axis *)
Lemma powder_axis : exists L, shares_images d L /\
  forall junk before param solve ops dw_chunk kB fmin wmin k c src sl rnd rnd2 always coeffs hm room a w edges bins z, 0 < k -> (1 <= p_ebins a)%nat ->
  powder_from_fc junk before None param solve ops dw_chunk kB fmin wmin k c src sl rnd rnd2 always coeffs hm room a w obj = Ok (edges, bins, z) ->
  p_emax a = None -> p_ei a = None -> exists e f, crystal_modes erfc d mass born diel param L [(0, 0, 1 / 2)] e /\ largest (3 * n) (fun m => k * freq (et e) 0 m) f /\
    nth (p_ebins a) bins 0 = 12 / 10 * f.
Proof.
  destruct calc_modes as (L & HL & M). exists L. split; [exact HL|]. intros until z. intros Hk Hn H Em Ei.
  destruct (run_parts _ _ _ _ _ _ _ _ _ _ _ _ _ _ _ _ _ _ _ _ _ _ _ H) as (ms & f0 & fs & R & F & T).
  pose proof (proj2 (M junk before param [x_point]) _ _ _ R) as CM. exists (run_table n [x_point] [1 / 1] ms), (Rmax_list f0 fs). split; [exact CM|].
  assert (P : powder_tool coeffs hm room (weighted_row (run_calc junk before None param obj) (f_cell d) (M_sf.mkX mass pos (reciprocal_cell (f_cell d))) solve ops dw_chunk kB fmin wmin k c src sl rnd rnd2 always w) f0 fs a = Ok (edges, bins, z)).
  { unfold powder_map_tool in T. destruct (w_pdos w); [|exact T]. destruct (String.eqb _ _); [discriminate|exact T]. }
  assert (Eb : p_energy_bins a f0 fs room = Ok bins).
  { unfold powder_tool in P. destruct (Reqb _ _); [discriminate|]. destruct (_ <=? _)%Z; [discriminate|]. destruct (p_energy_bins a f0 fs room) as [b|]; [|discriminate].
    destruct (mapE _ _); [|discriminate]. destruct (p_broaden _ _ _ _ _); [|discriminate]. destruct (p_constrain _ _ _ _ _ _ _); [|discriminate]. congruence. }
  assert (I : forall m, (m < 3 * n)%nat -> In (k * freq (et (run_table n [x_point] [1 / 1] ms)) 0 m) (f0 :: fs)).
  { intros m Hm. rewrite <- F. unfold x_freqs. apply in_map_iff. exists m. split; [cbn [run_table et freq]; ring|apply in_seq; lia]. }
  split.
  - split; [|intros m Hm; apply Rmax_list_ge, I, Hm].
    assert (J : In (Rmax_list f0 fs) (f0 :: fs)) by apply Rmax_list_in.
    rewrite <- F in J. unfold x_freqs in J. apply in_map_iff in J. destruct J as (m & Em' & Im). apply in_seq in Im. exists m. split; [lia|]. rewrite <- Em'. cbn [run_table et freq]. ring.
  - unfold p_energy_bins in Eb. rewrite Ei, Em in Eb. unfold get_energy_bins in Eb. destruct (Rleb _ _); [discriminate|]. injection Eb as <-.
    unfold linspace. rewrite (map_nth_indep _ _ _ 0%nat) by (rewrite seq_length; lia). rewrite nth_seq_id by lia.
    replace (p_ebins a + 1 - 1)%nat with (p_ebins a) by lia. assert (INR (p_ebins a) <> 0) by (apply not_0_INR; lia). field. assumption.
Qed.
End Modes.
End One.
