(** Lemmas for C85: powder averages. *)
From Coq Require Import String.
From Verif Require Import Base Cpx Vec3 M_grid M_cell M_qpts M_path M_broad S_broad M_dos M_bins M_sample M_clidos M_sf M_sphere
  S_dos S_sample S_sf S_powder S_sphere L_util L_qpts L_cell L_dos L_dos2 L_dos3 L_path2 L_sf L_sqw L_sf2 L_sample L_sample2 L_sample4 L_conv L_powder L_nac.
Open Scope R_scope.

(** Whatever is not nan lies on the sphere. *)
Lemma square_proper p v : square_to_sphere p = Some v -> on_sphere (Some v).
Proof. unfold square_to_sphere. destruct (arccos _) as [t|]; [|discriminate]. intros E. injection E as <-. apply polar_on_sphere. Qed.
Lemma ring_proper theta dtheta count r l v : ring theta dtheta count r = Ok l -> In (Some v) l -> on_sphere (Some v).
Proof.
  unfold ring. destruct (spacing _); [|discriminate]. intros E. injection E as <-. intros I. apply in_map_iff in I. destruct I as (j & E & _).
  destruct r; injection E as <-; apply polar_on_sphere.
Qed.
Lemma sphere_proper npts sampling rnd rnd2 always l v : get_qpts_sphere npts sampling rnd rnd2 always = Ok l -> In (Some v) l -> on_sphere (Some v).
Proof.
  assert (Sq : forall A (r : res (list A) M_sample.serr) (f : A -> option V3) l, (forall a v, f a = Some v -> on_sphere (Some v)) ->
    map_ok f r = Ok l -> In (Some v) l -> on_sphere (Some v)).
  { intros A r f l0 H E I. destruct r as [l1|]; [|discriminate]. injection E as <-. apply in_map_iff in I. destruct I as (a & Ea & _). exact (H _ _ Ea). }
  unfold get_qpts_sphere. intros E I.
  destruct (String.eqb _ _); [eapply Sq; [apply square_proper|exact E|exact I]|].
  destruct (String.eqb _ _); [eapply Sq; [apply square_proper|exact E|exact I]|].
  destruct (String.eqb _ _).
  { unfold spherical_polar_grid in E. destruct (spacing _); [|discriminate]. destruct (Nat.eqb _ 0); [discriminate|]. destruct (spacing _); [|discriminate].
    injection E as <-. apply in_map_iff in I. destruct I as (j & E & _). destruct rnd; injection E as <-; apply polar_on_sphere. }
  destruct (String.eqb _ _).
  { unfold spherical_polar_improved in E. destruct (Nat.ltb npts 6); [discriminate|]. destruct (spacing _) as [dt|]; [|discriminate].
    destruct (mapE _ _) as [rs|] eqn:Er; [|discriminate]. injection E as <-. apply in_concat in I. destruct I as (r & Ir & Iv).
    destruct (In_nth _ _ [] Ir) as (i & Hi & <-). destruct (mapE_inv _ _ _ Er) as [L N]. rewrite L in Hi. specialize (N i 0%nat [] Hi). cbv beta in N.
    eapply ring_proper; [exact N|exact Iv]. }
  destruct (String.eqb _ _); [|discriminate]. unfold random_sphere in E. injection E as <-. apply in_map_iff in I. destruct I as (i & E & _).
  exact (square_proper _ _ E).
Qed.

Section Sphere.
Variable calc : list V3 -> option (list V3 * etable).
Variable cell : M3.
Variables (M : nat -> R) (pos : nat -> V3).
Variable solve : M3 -> V3 -> V3.
Variable ops : option (list symop).
Variables (chunk : nat) (kB fmin wmin k c : R).
Notation X := (mkX M pos (reciprocal_cell cell)).

Lemma points_spec mod_q npts sampling rnd rnd2 always ps : solves solve -> det3 cell <> 0 -> 0 <= mod_q ->
  sphere_points X solve mod_q npts sampling rnd rnd2 always = Ok ps ->
  exists l, get_qpts_sphere npts sampling rnd rnd2 always = Ok l /\ length ps = length l /\ on_shell (reciprocal_cell cell) mod_q ps.
Proof.
  intros So De Hq. unfold sphere_points, powder_qpts. cbn [recip].
  assert (Dr : det3 (reciprocal_cell cell) <> 0).
  { rewrite reciprocal_det by exact De. pose proof PI_RGT_0. apply Rmult_integral_contrapositive_currified; [apply pow_nonzero; lra|apply Rinv_neq_0_compat; exact De]. }
  set (rec := reciprocal_cell cell) in *. clearbody rec.
  destruct (get_qpts_sphere npts sampling rnd rnd2 always) as [l|] eqn:El; [|discriminate]. cbn [map_ok]. intros E.
  destruct (mapE_inv _ _ _ E) as [L N]. rewrite map_length in L. exists l. split; [reflexivity|]. split; [exact L|].
  intros p I. destruct (In_nth _ _ vzero I) as (i & Hi & <-). rewrite L in Hi.
  specialize (N i None vzero ltac:(rewrite map_length; exact Hi)). cbv beta in N.
  rewrite (nth_indep _ None (option_map (fun p => solve (transpose rec) (vscal mod_q p)) None)) in N by (rewrite map_length; exact Hi).
  rewrite map_nth in N. destruct (nth i l None) as [v|] eqn:Ev; [|discriminate]. cbn [option_map] in N. injection N as <-.
  assert (Iv : In (Some v) l) by (rewrite <- Ev; apply nth_In; exact Hi).
  destruct (sphere_proper _ _ _ _ _ _ _ El Iv) as (a & b & d & Ea & Eb). injection Ea as ->.
  rewrite vmul_transpose, So by (rewrite det_transpose; exact Dr). apply norm_scal_unit; assumption.
Qed.

Lemma modes_spec mod_q npts sampling rnd rnd2 always eb qs e b :
  sphere_modes calc X solve k mod_q npts sampling rnd rnd2 always eb = Ok (qs, e, b) ->
  exists ps, sphere_points X solve mod_q npts sampling rnd rnd2 always = Ok ps /\ calc ps = Some (qs, e) /\
  match eb with Some b' => b = b' | None => exists f0 fs, all_freqs k (et e) = f0 :: fs /\ b = default_bins fs f0 1000 end.
Proof.
  unfold sphere_modes. destruct (sphere_points _ _ _ _ _ _ _ _) as [ps|] eqn:Ep; [|discriminate].
  destruct (calc ps) as [[qs' e']|] eqn:Ec; [|discriminate]. destruct eb as [b'|].
  - intros E. injection E as <- <- <-. exists ps. auto.
  - destruct (all_freqs k (et e')) as [|f0 fs] eqn:Ef; [discriminate|]. intros E. injection E as <- <- <-. exists ps. split; [reflexivity|].
    split; [exact Ec|]. exists f0, fs. auto.
Qed.

Lemma area_scattered sl d qs e s q lo hi : det3 cell <> 0 ->
  calculate_structure_factor e X sl d (fun i => nth i qs vzero) = Ok s ->
  Sum (seq 0 (nm (sft s))) (mode_area kB k s (temp_of s true None) q lo hi) = scattered kB k (option_map dw_t d) cell sl M pos d qs e lo hi q.
Proof.
  intros De E. assert (E' := E). apply csf_inv in E. destruct E as (Hz & Hf & Es).
  destruct (structure_factor_formula e cell M pos sl d (fun i => nth i qs vzero) De) as (s' & E2 & _ & Nm & Fr & Te & Va).
  { intros q' m' A B. exact (has_zero_false _ _ _ Hz A B). } { exact Hf. }
  rewrite E' in E2. injection E2 as <-. rewrite Nm. unfold scattered, sumn. apply Sum_ext. intros m _. unfold mode_area. cbv zeta.
  rewrite Fr. destruct (Va q m) as [V _]. rewrite V. unfold temp_of. rewrite Te. destruct d as [d0|]; reflexivity.
Qed.

Lemma average_flat e sl d qpt s bins y : calculate_structure_factor e X sl d qpt = Ok s ->
  0 < k -> increasing bins -> (2 <= length bins)%nat -> calculate_1d_average kB k c bins s true None None = Ok y ->
  (0 < nq (et e))%nat /\ length y = (length bins - 1)%nat /\ forall i, (i < length bins - 1)%nat ->
  nth i y 0 * (nth (S i) bins 0 - nth i bins 0) =
  c * average (seq 0 (nq (et e))) (fun q => Sum (seq 0 (nm (sft s))) (mode_area kB k s (temp_of s true None) q (nth i bins 0) (nth (S i) bins 0))).
Proof.
  intros E Hk Hi Hl Ey. apply csf_inv in E. destruct E as (_ & _ & Es).
  assert (W : wt (sft s) = fun _ => 1 / INR (nq (et e))) by (rewrite Es; reflexivity).
  assert (N : nq (sft s) = nq (et e)) by (rewrite Es; reflexivity).
  assert (Ey' : calculate_1d_average kB k c bins s true None (Some (wt (sft s))) = Ok y) by exact Ey.
  destruct (average_uses_weights kB k c bins s true None _ y Hk Hi Hl Ey') as [Ly Ny].
  assert (Np : (0 < nq (et e))%nat).
  { unfold calculate_1d_average in Ey. destruct (sqw_map _ _ _ _ _ _ _); [|discriminate]. rewrite N in Ey. destruct (nq (et e)); [|lia].
    exfalso. revert Ey. cbn [seq]. rewrite Sum_nil. destruct (Reqb_spec 0 0); [discriminate|congruence]. }
  assert (P : 0 < INR (nq (et e))) by (apply lt_0_INR; exact Np).
  split; [exact Np|]. split; [exact Ly|]. intros i I. specialize (Ny i I). rewrite N, W in Ny. rewrite Sum_const, seq_length in Ny.
  replace (INR (nq (et e)) * (1 / INR (nq (et e)))) with 1 in Ny by (field; lra).
  rewrite Rmult_1_r in Ny. rewrite Ny. unfold average. rewrite seq_length, Sum_scal. field. lra.
Qed.

Lemma dw_run g T d : debye_waller_on calc X ops chunk kB fmin (Some g) T = Ok d -> dw_on calc X ops chunk kB fmin g T d.
Proof.
  unfold debye_waller_on, dw_on. destruct g as [[n0 n1] n2]. destruct (Z.ltb_spec n0 0); [discriminate|]. destruct (Z.ltb_spec n1 0); [discriminate|].
  destruct (Z.ltb_spec n2 0); [discriminate|]. cbn [orb]. destruct (mp_grid _ _ _) as [mesh|] eqn:Em; [|discriminate].
  destruct (calc mesh) as [[qs e]|] eqn:Ec; [|discriminate]. destruct (calculate_debye_waller _ _ _ _ _ _ _) as [d0|] eqn:Ed; [|discriminate].
  intros E. injection E as <-. split; [assumption|]. split; [assumption|]. split; [assumption|]. exists mesh, qs, e. auto.
Qed.
Lemma dw_made g T d : dw_on calc X ops chunk kB fmin g T d -> debye_waller_on calc X ops chunk kB fmin (Some g) T = Ok d.
Proof.
  unfold debye_waller_on, dw_on. destruct g as [[n0 n1] n2]. intros (H0 & H1 & H2 & mesh & qs & e & Em & Ec & Ed).
  destruct (Z.ltb_spec n0 0); [lia|]. destruct (Z.ltb_spec n1 0); [lia|]. destruct (Z.ltb_spec n2 0); [lia|]. cbn [orb]. rewrite Em, Ec, Ed. reflexivity.
Qed.
Notation dw_used dw temperature spacing d :=
  (match temperature, dw with
   | None, _ => d = dw
   | Some T, Some d0 => d = dw /\ same_temperature (dw_t d0) T
   | Some T, None => exists g d0, get_mp_grid_spec cell spacing = Some g /\ dw_on calc X ops chunk kB fmin g T d0 /\ d = Some d0
   end).
Lemma dw_spec dw temperature spacing d : the_dw calc cell X ops chunk kB fmin dw temperature spacing = Ok d -> dw_used dw temperature spacing d.
Proof.
  unfold the_dw. destruct temperature as [T|]; [|intros E; injection E as <-; reflexivity]. destruct dw as [d0|].
  - unfold isclose. destruct (Rleb_spec (Rabs (dw_t d0 - T)) (1 / 10 ^ 8 + 1 / 10 ^ 5 * Rabs T)) as [H|H]; [|discriminate].
    intros E. injection E as <-. split; [reflexivity|exact H].
  - destruct (get_mp_grid_spec cell spacing) as [g|]; [|discriminate]. destruct (debye_waller_on _ _ _ _ _ _ _ _) as [d0|] eqn:Ed; [|discriminate].
    intros E. injection E as <-. exists g, d0. split; [reflexivity|]. split; [exact (dw_run _ _ _ Ed)|reflexivity].
Qed.

Lemma sf_average sl dw spacing temperature mod_q npts sampling rnd rnd2 always eb bins y :
  solves solve -> det3 cell <> 0 -> 0 <= mod_q -> 0 < k -> increasing bins -> (2 <= length bins)%nat ->
  sample_sphere_structure_factor calc cell X solve ops chunk kB fmin k c sl dw spacing temperature mod_q npts sampling rnd rnd2 always eb = Ok (bins, y) ->
  exists l ps qs e d, get_qpts_sphere npts sampling rnd rnd2 always = Ok l /\ length ps = length l /\ on_shell (reciprocal_cell cell) mod_q ps /\
  calc ps = Some (qs, e) /\ (0 < nq (et e))%nat /\ dw_used dw temperature spacing d /\ length y = (length bins - 1)%nat /\
  forall i, (i < length bins - 1)%nat -> nth i y 0 * (nth (S i) bins 0 - nth i bins 0) =
    c * average (seq 0 (nq (et e))) (scattered kB k (option_map dw_t d) cell sl M pos d qs e (nth i bins 0) (nth (S i) bins 0)).
Proof.
  intros So De Hq Hk Hi Hl. unfold sample_sphere_structure_factor. destruct (the_dw _ _ _ _ _ _ _ _ _ _) as [d|] eqn:Ed; [|discriminate].
  destruct (sphere_modes _ _ _ _ _ _ _ _ _ _ _) as [[[qs e] b]|] eqn:Em; [|discriminate].
  destruct (calculate_structure_factor _ _ _ _ _) as [s|] eqn:Es; [|discriminate].
  destruct (calculate_1d_average _ _ _ _ _ _ _ _) as [y'|] eqn:Ey; [|discriminate]. intros E. injection E as -> ->.
  destruct (modes_spec _ _ _ _ _ _ _ _ _ _ Em) as (ps & Ep & Ec & _). destruct (points_spec _ _ _ _ _ _ _ So De Hq Ep) as (l & El & Ll & On).
  destruct (average_flat _ _ _ _ _ _ _ Es Hk Hi Hl Ey) as (Np & Ly & Ny).
  exists l, ps, qs, e, d. split; [exact El|]. split; [exact Ll|]. split; [exact On|]. split; [exact Ec|]. split; [exact Np|].
  split; [exact (dw_spec _ _ _ _ Ed)|]. split; [exact Ly|]. intros i I. rewrite (Ny i I). f_equal. unfold average. f_equal. apply Sum_ext. intros q _.
  exact (area_scattered _ _ _ _ _ _ _ _ De Es).
Qed.
End Sphere.

Section More.
Variable calc : list V3 -> option (list V3 * etable).
Variable cell : M3.
Variables (M : nat -> R) (pos : nat -> V3).
Variable solve : M3 -> V3 -> V3.
Variable ops : option (list symop).
Variables (chunk : nat) (kB fmin wmin k c : R).
Notation X := (mkX M pos (reciprocal_cell cell)).
Notation ssf := (sample_sphere_structure_factor calc cell X solve ops chunk kB fmin k c).

Lemma sf_clash sl d spacing T mod_q npts sampling rnd rnd2 always eb : ~ same_temperature (dw_t d) T ->
  ssf sl (Some d) spacing (Some T) mod_q npts sampling rnd rnd2 always eb = Err TemperatureClash.
Proof.
  intros H. unfold sample_sphere_structure_factor, the_dw, isclose. destruct (Rleb_spec (Rabs (dw_t d - T)) (1 / 10 ^ 8 + 1 / 10 ^ 5 * Rabs T)) as [A|A];
    [exfalso; exact (H A)|reflexivity].
Qed.
Lemma same_refl T : same_temperature T T.
Proof. unfold same_temperature. replace (T - T) with 0 by ring. rewrite Rabs_R0. pose proof (Rabs_pos T). lra. Qed.
Lemma isclose_same a b : same_temperature a b -> isclose (1 / 10 ^ 8) a b = true.
Proof. intros H. unfold isclose. destruct (Rleb_spec (Rabs (a - b)) (1 / 10 ^ 8 + 1 / 10 ^ 5 * Rabs b)) as [A|A]; [reflexivity|]. unfold same_temperature in H. lra. Qed.
Lemma dw_temperature e T d : (0 < chunk)%nat -> calculate_debye_waller chunk e X kB T fmin ops = Ok d -> dw_t d = T.
Proof. intros Hc E. destruct (cdw_inv _ _ _ _ _ _ _ _ Hc E) as (_ & _ & _ & H & _). exact H. Qed.
Lemma sf_reuse sl spacing T g d mod_q npts sampling rnd rnd2 always eb : (0 < chunk)%nat ->
  get_mp_grid_spec cell spacing = Some g -> dw_on calc X ops chunk kB fmin g T d ->
  ssf sl None spacing (Some T) mod_q npts sampling rnd rnd2 always eb = ssf sl (Some d) spacing (Some T) mod_q npts sampling rnd rnd2 always eb /\
  ssf sl None spacing (Some T) mod_q npts sampling rnd rnd2 always eb = ssf sl (Some d) spacing None mod_q npts sampling rnd rnd2 always eb.
Proof.
  intros Hc Eg On. assert (Et : dw_t d = T).
  { unfold dw_on in On. destruct g as [[n0 n1] n2]. destruct On as (_ & _ & _ & mesh & qs & e & _ & _ & Ed). exact (dw_temperature _ _ _ Hc Ed). }
  unfold sample_sphere_structure_factor, the_dw. rewrite (isclose_same (dw_t d) T) by (rewrite Et; apply same_refl).
  rewrite Eg. rewrite (dw_made _ _ _ _ _ _ _ _ _ _ _ On). split; reflexivity.
Qed.

Lemma points_run mod_q npts sampling rnd rnd2 always l : get_qpts_sphere npts sampling rnd rnd2 always = Ok l -> (forall p, In p l -> on_sphere p) ->
  exists ps, sphere_points X solve mod_q npts sampling rnd rnd2 always = Ok ps /\ length ps = length l.
Proof.
  intros El On. unfold sphere_points, powder_qpts. rewrite El. cbn [map_ok].
  destruct (mapE_each (fun o : option V3 => match o with Some p => Ok p | None => Err NanSample end)
     (map (option_map (fun p => solve (transpose (recip X)) (vscal mod_q p))) l)) as [ps Ep].
  - intros o I. apply in_map_iff in I. destruct I as (o' & <- & I). destruct (On _ I) as (a & b & d & -> & _). eexists. reflexivity.
  - exists ps. split; [exact Ep|]. destruct (mapE_inv _ _ _ Ep) as [L _]. rewrite L, map_length. reflexivity.
Qed.
Lemma sf_runs sl dw spacing temperature mod_q npts sampling rnd rnd2 always bins l : solves solve -> det3 cell <> 0 -> 0 <= mod_q -> 0 < k -> increasing bins ->
  get_qpts_sphere npts sampling rnd rnd2 always = Ok l -> (forall p, In p l -> on_sphere p) ->
  (forall ps, length ps = length l -> on_shell (reciprocal_cell cell) mod_q ps -> exists qs e, calc ps = Some (qs, e) /\ (0 < nq (et e))%nat /\
     (forall q m, (q < nq (et e))%nat -> (m < nm (et e))%nat -> freq (et e) q m <> 0) /\ (forall d, dw = Some d -> dw_n d = n_atoms e)) ->
  (match temperature, dw with Some T, Some d => same_temperature (dw_t d) T | Some T, None => False | None, _ => True end) ->
  exists y, ssf sl dw spacing temperature mod_q npts sampling rnd rnd2 always (Some bins) = Ok (bins, y).
Proof.
  intros So De Hq Hk Hi El On Hc Ht. unfold sample_sphere_structure_factor.
  assert (E : the_dw calc cell X ops chunk kB fmin dw temperature spacing = Ok dw).
  { unfold the_dw. destruct temperature as [T|]; [|reflexivity]. destruct dw as [d|]; [|contradiction]. rewrite isclose_same by exact Ht. reflexivity. }
  rewrite E. destruct (points_run mod_q npts sampling rnd rnd2 always l El On) as (ps & Ep & Lp).
  destruct (points_spec _ _ _ _ _ _ _ _ _ _ _ So De Hq Ep) as (l' & El' & _ & Os).
  destruct (Hc ps Lp Os) as (qs & e & Ec & Np & Nz & Nd). unfold sphere_modes. rewrite Ep, Ec.
  rewrite csf_ok; [|apply no_zero; exact Nz|destruct dw as [d|]; [exact (Nd d eq_refl)|exact I]].
  set (s := mkSF _ _ _). destruct (sqw_map_ok kB k c bins s true None Hk Hi) as [p Epp].
  { apply no_zero. exact Nz. } { unfold s. cbn [sf_temp]. destruct dw; exact I. }
  unfold calculate_1d_average. rewrite Epp. unfold s at 1 2. cbn [sft nq wt]. rewrite Sum_const, seq_length.
  assert (P : 0 < INR (nq (et e))) by (apply lt_0_INR; exact Np). replace (INR (nq (et e)) * (1 / INR (nq (et e)))) with 1 by (field; lra).
  destruct (Reqb_spec 1 0); [lra|]. eexists. reflexivity.
Qed.

Lemma default_cover mod_q npts sampling rnd rnd2 always qs e b q m :
  sphere_modes calc X solve k mod_q npts sampling rnd rnd2 always None = Ok (qs, e, b) ->
  (q < nq (et e))%nat -> (m < nm (et e))%nat -> 0 < k * freq (et e) q m ->
  length b = 1001%nat /\ nth 0 b 0 = 0 /\ increasing b /\
  (forall q' m', (q' < nq (et e))%nat -> (m' < nm (et e))%nat -> 0 <= k * freq (et e) q' m' ->
     exists i, (i < 1000)%nat /\ nth i b 0 <= k * freq (et e) q' m' < nth (S i) b 0).
Proof.
  intros Em Hq Hm Hp. destruct (modes_spec _ _ _ _ _ _ _ _ _ _ _ _ _ _ _ _ Em) as (ps & _ & _ & f0 & fs & Ef & Eb).
  assert (Inn : forall q' m', (q' < nq (et e))%nat -> (m' < nm (et e))%nat -> In (k * freq (et e) q' m') (f0 :: fs)).
  { intros q' m' A B. rewrite <- Ef. unfold all_freqs. apply in_map_iff. exists (q', m'). split; [cbn; ring|].
    unfold pairs. apply in_prod; apply in_seq; lia. }
  destruct (default_bins_cover fs f0 1000) as (L & Z & I & Cv); [lia|exists (k * freq (et e) q m); split; [apply Inn; assumption|exact Hp]|].
  cbv zeta in L, Z, I, Cv. rewrite Eb. split; [exact L|]. split; [exact Z|]. split.
  - apply L_clidos2.incr_of_steps. rewrite L. intros i Hi. apply I. lia.
  - intros q' m' A B C. apply Cv; [apply Inn; assumption|exact C].
Qed.

(** Densities of states *)
Lemma dos_average mod_q npts sampling rnd rnd2 always eb bins d : solves solve -> det3 cell <> 0 -> 0 <= mod_q -> 0 < k -> increasing bins -> (2 <= length bins)%nat ->
  sample_sphere_dos calc X solve wmin k mod_q npts sampling rnd rnd2 always eb = Ok (bins, d) ->
  exists l ps qs e, get_qpts_sphere npts sampling rnd rnd2 always = Ok l /\ length ps = length l /\ on_shell (reciprocal_cell cell) mod_q ps /\
  calc ps = Some (qs, e) /\ length d = (length bins - 1)%nat /\ forall i, (i < length bins - 1)%nat ->
  nth i d 0 * (nth (S i) bins 0 - nth i bins 0) = 3 / INR (nm (et e)) * wmean (et e) (modes_in k (et e) (nth i bins 0) (nth (S i) bins 0)).
Proof.
  intros So De Hq Hk Hi Hl. unfold sample_sphere_dos. destruct (sphere_modes _ _ _ _ _ _ _ _ _ _ _) as [[[qs e] b]|] eqn:Em; [|discriminate].
  destruct (calculate_dos _ _ _ _ _ _) as [d'|] eqn:Ed; [|discriminate]. intros E. injection E as -> ->.
  destruct (modes_spec _ _ _ _ _ _ _ _ _ _ _ _ _ _ _ _ Em) as (ps & Ep & Ec & _). destruct (points_spec _ _ _ _ _ _ _ _ _ _ _ So De Hq Ep) as (l & El & Ll & On).
  exists l, ps, qs, e. split; [exact El|]. split; [exact Ll|]. split; [exact On|]. split; [exact Ec|].
  assert (Tw : total_weight (et e) <> 0).
  { unfold calculate_dos, calculate_dos_data in Ed. cbv zeta in Ed. fold (total_weight (et e)) in Ed.
    destruct (dos_hist _ _ _); [|discriminate]. destruct (Reqb_spec (total_weight (et e)) 0) as [Z|Z]; [discriminate|exact Z]. }
  destruct (dos_bins_count k bins (et e) wmin Reference Hk Hi Hl Tw) as (d2 & E2 & L2 & N2 & _). rewrite Ed in E2. injection E2 as <-. split; assumption.
Qed.
Lemma pdos_atoms e element w coh inc bins p : 0 < k -> increasing bins -> (2 <= length bins)%nat ->
  calculate_pdos_weighted k bins e element M None wmin Reference w (Dataset coh inc) = Ok p ->
  length p = n_atoms e /\ forall a, (a < n_atoms e)%nat -> exists f, atom_factor w coh inc element M (n_atoms e) a f /\ length (nth a p []) = (length bins - 1)%nat /\
  forall i, (i < length bins - 1)%nat ->
    nth i (nth a p []) 0 * (nth (S i) bins 0 - nth i bins 0) = f * wmean (et e) (atom_part k e (nth i bins 0) (nth (S i) bins 0) a).
Proof.
  intros Hk Hi Hl. assert (G : forall cs, calculate_pdos k bins e None wmin Reference cs = Ok p -> length p = n_atoms e /\ forall a, (a < n_atoms e)%nat ->
    length (nth a p []) = (length bins - 1)%nat /\ forall i, (i < length bins - 1)%nat ->
    nth i (nth a p []) 0 * (nth (S i) bins 0 - nth i bins 0) = pdos_scale e cs a * wmean (et e) (atom_part k e (nth i bins 0) (nth (S i) bins 0) a)).
  { intros cs E. unfold calculate_pdos in E. destruct (mapE_inv _ _ _ E) as [L N]. rewrite seq_length in L, N. split; [exact L|]. intros a Ha.
    specialize (N a 0%nat [] Ha). cbv beta in N. rewrite seq_nth in N by exact Ha. cbn [Nat.add] in N.
    destruct (calculate_dos_data _ _ _ _ _ _ _) as [d|] eqn:Ed; [|discriminate]. injection N as N. rewrite <- N.
    assert (Tw : total_weight (et e) <> 0).
    { unfold calculate_dos_data in Ed. cbv zeta in Ed. fold (total_weight (et e)) in Ed.
      destruct (dos_hist _ _ _); [|discriminate]. destruct (Reqb_spec (total_weight (et e)) 0) as [Z|Z]; [discriminate|exact Z]. }
    destruct (dos_data_hist k bins (et e) (Some (evec_weight e a)) wmin Reference Hk Hi Hl Tw) as (d' & Ed' & Ld & Nd). rewrite Ed in Ed'. injection Ed' as <-.
    split; [rewrite map_length; exact Ld|]. intros i Hi'. rewrite (map_nth_indep _ d _ 0 0) by lia. specialize (Nd i Hi').
    transitivity (pdos_scale e cs a * (nth i d 0 * (nth (S i) bins 0 - nth i bins 0))); [ring|]. rewrite Nd. f_equal. unfold wmean. f_equal. apply Sum_ext. intros q _. f_equal.
    unfold atom_part, sumn. apply Sum_ext. intros m _. destruct (inside _ _ _); [|reflexivity]. unfold evec_weight. f_equal.
    cbn [seq]. rewrite !Csum_cons, Csum_nil, !Sum_cons, Sum_nil. unfold Cnorm2. cbn. ring. }
  unfold calculate_pdos_weighted. destruct w as [w|]; cbn [choose_cross_sections atom_factor].
  - set (s := cross_section w coh inc). assert (Es : match w with Coherent => Some coh | Incoherent => Some inc
        | Both => Some (fun el => match coh el, inc el with Some x, Some y => Some (x + y) | _, _ => None end) end = Some s) by (destruct w; reflexivity).
    rewrite Es. unfold resolve_cs. destruct (forallb _ _) eqn:Ef; [|discriminate]. intros E. destruct (G _ E) as [L N]. split; [exact L|]. intros a Ha.
    rewrite forallb_forall in Ef. specialize (Ef a ltac:(apply in_seq; lia)). cbv beta in Ef. destruct (s (element a)) as [v|] eqn:Ev; [|discriminate].
    destruct (N a Ha) as [N1 N2]. cbn [pdos_scale] in N2. rewrite Ev in N2.
    exists (v * (Sum (seq 0 (n_atoms e)) M / INR (n_atoms e)) / M a). split; [|split; [exact N1|exact N2]]. exists v. split; [reflexivity|].
    unfold Rdiv. rewrite Rinv_mult. rewrite Rinv_inv. ring.
  - intros E. destruct (G _ E) as [L N]. split; [exact L|]. intros a Ha. exists 1. split; [reflexivity|]. exact (N a Ha).
Qed.
Lemma pdos_average element w coh inc mod_q npts sampling rnd rnd2 always eb bins p : solves solve -> det3 cell <> 0 -> 0 <= mod_q -> 0 < k -> increasing bins -> (2 <= length bins)%nat ->
  sample_sphere_pdos calc X solve wmin k element w (Dataset coh inc) mod_q npts sampling rnd rnd2 always eb = Ok (bins, p) ->
  exists l ps qs e, get_qpts_sphere npts sampling rnd rnd2 always = Ok l /\ length ps = length l /\ on_shell (reciprocal_cell cell) mod_q ps /\
  calc ps = Some (qs, e) /\ length p = n_atoms e /\ forall a, (a < n_atoms e)%nat -> exists f, atom_factor w coh inc element M (n_atoms e) a f /\
  length (nth a p []) = (length bins - 1)%nat /\ forall i, (i < length bins - 1)%nat ->
    nth i (nth a p []) 0 * (nth (S i) bins 0 - nth i bins 0) = f * wmean (et e) (atom_part k e (nth i bins 0) (nth (S i) bins 0) a).
Proof.
  intros So De Hq Hk Hi Hl. unfold sample_sphere_pdos. destruct (sphere_modes _ _ _ _ _ _ _ _ _ _ _) as [[[qs e] b]|] eqn:Em; [|discriminate].
  destruct (calculate_pdos_weighted _ _ _ _ _ _ _ _ _ _) as [d'|] eqn:Ed; [|discriminate]. intros E. injection E as -> ->.
  destruct (modes_spec _ _ _ _ _ _ _ _ _ _ _ _ _ _ _ _ Em) as (ps & Ep & Ec & _). destruct (points_spec _ _ _ _ _ _ _ _ _ _ _ So De Hq Ep) as (l & El & Ll & On).
  exists l, ps, qs, e. split; [exact El|]. split; [exact Ll|]. split; [exact On|]. split; [exact Ec|]. exact (pdos_atoms _ _ _ _ _ _ _ Hk Hi Hl Ed).
Qed.
Lemma pdos_total element mod_q npts sampling rnd rnd2 always eb bins d coh inc : 0 < k -> increasing bins -> (2 <= length bins)%nat ->
  (forall ps qs e, calc ps = Some (qs, e) -> normalised e /\ (0 < n_atoms e)%nat /\ nm (et e) = (3 * n_atoms e)%nat) ->
  sample_sphere_dos calc X solve wmin k mod_q npts sampling rnd rnd2 always eb = Ok (bins, d) ->
  exists p, sample_sphere_pdos calc X solve wmin k element None (Dataset coh inc) mod_q npts sampling rnd rnd2 always eb = Ok (bins, p) /\
  forall i, (i < length bins - 1)%nat -> Sum (seq 0 (length p)) (fun a => nth i (nth a p []) 0) = nth i d 0.
Proof.
  intros Hk Hi Hl Hc. unfold sample_sphere_dos, sample_sphere_pdos. destruct (sphere_modes _ _ _ _ _ _ _ _ _ _ _) as [[[qs e] b]|] eqn:Em; [|discriminate].
  destruct (calculate_dos _ _ _ _ _ _) as [d'|] eqn:Ed; [|discriminate]. intros E. injection E as -> ->.
  destruct (modes_spec _ _ _ _ _ _ _ _ _ _ _ _ _ _ _ _ Em) as (ps & _ & Ec & _). destruct (Hc _ _ _ Ec) as (No & Na & Nm).
  assert (Tw : total_weight (et e) <> 0).
  { unfold calculate_dos, calculate_dos_data in Ed. cbv zeta in Ed. fold (total_weight (et e)) in Ed.
    destruct (dos_hist _ _ _); [|discriminate]. destruct (Reqb_spec (total_weight (et e)) 0) as [Z|Z]; [discriminate|exact Z]. }
  destruct (pdos_sums k bins e None wmin Reference Hk Hi Hl Tw I No Na Nm) as (p & d2 & Ep & E2 & Lp & Sp & _).
  rewrite Ed in E2. injection E2 as <-. exists p. unfold calculate_pdos_weighted. cbn [choose_cross_sections]. rewrite Ep. split; [reflexivity|].
  rewrite Lp. exact Sp.
Qed.
End More.

(** A crystal of two atoms with modes at the energies 1, 2, ..., 6 at every q-point, each
    moving one atom along one axis. *)
Definition flat_modes (ps : list V3) : etable :=
  mkE (mkF (length ps) 6 (fun _ m => INR (S m)) (fun _ => 1 / INR (length ps))) 2
    (fun _ m a x => if Nat.eqb m (3 * a + x) then Cone else Czero).
Definition flat_calc (ps : list V3) : option (list V3 * etable) := Some (ps, flat_modes ps).
Definition cube : M3 := ((1, 0, 0), (0, 1, 0), (0, 0, 1)).
Definition bins6 : list R := [0; 2; 4; 8].
Lemma bins6_inc : increasing bins6.
Proof. intros i j Hij Hj; cbn in Hj; destruct i as [|[|[|[|]]]], j as [|[|[|[|]]]]; try lia; cbn; lra. Qed.
Lemma cube_det : det3 cube <> 0.
Proof. unfold det3, cube, dot, cross. cbn. lra. Qed.
Lemma flat_normal ps : normalised (flat_modes ps).
Proof.
  intros q m _ Hm. unfold flat_modes in *. cbn [et nm nq n_atoms evec seq] in *. rewrite !Sum_cons, !Sum_nil.
  destruct m as [|[|[|[|[|[|m]]]]]]; cbn -[INR]; unfold Cnorm2; cbn; try lra. cbn in Hm. lia.
Qed.
Lemma flat_nonzero ps q m : (q < nq (et (flat_modes ps)))%nat -> (m < nm (et (flat_modes ps)))%nat -> freq (et (flat_modes ps)) q m <> 0.
Proof. intros _ _. unfold flat_modes. cbn [et freq]. apply not_0_INR. discriminate. Qed.
Lemma flat_total ps : ps <> [] -> total_weight (et (flat_modes ps)) = 1.
Proof.
  intros H. unfold total_weight, flat_modes. cbn [et nq wt]. rewrite Sum_const, seq_length. assert (0 < INR (length ps)).
  { apply lt_0_INR. destruct ps; [congruence|cbn; lia]. } field. lra.
Qed.
Lemma flat_golden rnd2 : exists l, get_qpts_sphere 10 "golden" None rnd2 (fun _ => (0, 0)) = Ok l /\ length l = 10%nat /\ forall p, In p l -> on_sphere p.
Proof. apply sphere_exact_any; [lia|intros i; cbn; lra|left; reflexivity]. Qed.
Lemma flat_average solve M pos sl : solves solve -> exists y,
  sample_sphere_structure_factor flat_calc cube (mkX M pos (reciprocal_cell cube)) solve None 1 1 0 1 1 sl None 1 None 3 10 "golden" None None (fun _ => (0, 0)) (Some bins6) = Ok (bins6, y).
Proof.
  intros So. destruct (flat_golden None) as (l & El & Ll & On).
  destruct (sf_runs flat_calc cube M pos solve None 1 1 0 1 1 sl None 1 None 3 10 "golden" None None (fun _ => (0, 0)) bins6 l So cube_det) as [y Ey]; try lra; try assumption.
  - exact bins6_inc.
  - intros ps Lp _. exists ps, (flat_modes ps). split; [reflexivity|]. split; [cbn; lia|]. split; [apply flat_nonzero|discriminate].
  - exists y. exact Ey.
Qed.
Lemma flat_dos solve M pos wmin : solves solve -> exists d,
  sample_sphere_dos flat_calc (mkX M pos (reciprocal_cell cube)) solve wmin 1 3 10 "golden" None None (fun _ => (0, 0)) (Some bins6) = Ok (bins6, d).
Proof.
  intros So. destruct (flat_golden None) as (l & El & Ll & On). destruct (points_run cube M pos solve 3 10 "golden" None None (fun _ => (0, 0)) l El On) as (ps & Ep & Lp).
  unfold sample_sphere_dos, sphere_modes. rewrite Ep. unfold flat_calc.
  destruct (dos_bins_count 1 bins6 (et (flat_modes ps)) wmin Reference) as (d & Ed & _); [lra|exact bins6_inc|cbn; lia| |rewrite Ed; exists d; reflexivity].
  rewrite flat_total; [lra|]. intros ->. cbn in Lp. lia.
Qed.
