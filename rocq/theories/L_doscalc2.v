(** Runs of euphonic-dos that succeed: a chain on any grid. *)
From Coq Require Import String.
From Verif Require L_calc6 L_unique4.
From Verif Require Import Base Cpx Vec3 M_path M_broad M_dos M_bins M_coll M_fixed M_clidos M_grid M_cell M_qpts M_dynmat M_dipole M_struct M_asr M_calc M_doscalc
  S_coll S_dos S_fixed S_clidos S_qpts S_dynmat S_dipole S_asr S_calc S_unique S_doscalc L_util L_grid L_nac L_qpts L_dos L_path2 L_plot2 L_chain L_clidos2 L_calc L_calc2 L_calc4 L_calc7 L_unique3 L_brconv3 L_doscalc.
Open Scope R_scope.

Definition one_mass : nat -> R := fun _ => 1.
Section Any.
Variables (erfc : R -> R) (reigh : real_eigh) (argsort : list R -> list nat) (chunk : nat) (coeffs : R -> list R).
Variables (ceigh : complex_eigh) (k0 k1 : R).
Notation obj := (new_fc (chain k0 k1) one_mass None unit_cell3).
Hypothesis good : forall D G x, (forall a b, (a < 3)%nat -> (b < 3)%nat -> D a b = if Nat.eqb a b then RtoC (k0 + k1 * cos x) else Czero) ->
  exists md, solve ceigh 3 one_mass D G = Some md /\ forall m, (m < 3)%nat -> 0 < m_freq md m.

Lemma chain_any junk qs param ad : exists ms,
  result erfc reigh ceigh argsort chunk junk (grid_options qs None param ad) obj = Ok (qs, repeat (1 / INR (length qs)) (length qs), ms) /\ length ms = length qs /\
  forall md, In md ms -> forall m, (m < 3)%nat -> 0 < m_freq md m.
Proof.
  unfold result, call. change (weights_ok (grid_options qs None param ad)) with true. cbn [negb].
  destruct (q_dirs_ok obj (grid_options qs None param ad)) as [l ->]. unfold asr_of. change (p_asr (grid_options qs None param ad)) with (@None asr_kind). cbn [snd]. rewrite no_insert.
  match goal with |- exists ms, match calculate ?f _ _ _ _ with _ => _ end = _ /\ _ => set (calc := f) end.
  destruct (calculate_correct _ calc None true (use_splitting obj (grid_options qs None param ad)) qs) as (out & C1 & C2 & C3). change (p_reduce (grid_options qs None param ad)) with true. rewrite C1.
  assert (K : forall r, In r out -> exists md, r = Some md /\ forall m, (m < 3)%nat -> 0 < m_freq md m).
  { intros r I. destruct (In_nth_error _ _ I) as (j & Ej). assert (Hj : (j < length out)%nat) by (apply nth_error_Some; congruence).
    destruct (nth_error qs j) as [q|] eqn:Eq; [|apply nth_error_None in Eq; lia]. specialize (C3 j q Eq). rewrite Ej in C3. injection C3 as ->.
    unfold calc. cbn [o_d o_mass o_born o_diel new_fc p_grads]. change (3 * M_dynmat.n_atoms (chain k0 k1))%nat with 3%nat.
    match goal with |- exists md, solve _ _ _ ?D ?G = _ /\ _ => destruct (good D G (2 * PI * comp (canon q) 0)) as (md & E1 & E2) end.
    - intros a b Ha Hb. unfold full_dyn_mat. change (dyn_mat _ 2 _ _ (canon q) a b) with (interp_dyn_mat (chain k0 k1) junk (canon q) a b).
      rewrite chain_dyn by assumption. reflexivity.
    - exists md. split; [exact E1|exact E2]. }
  destruct (mapE_total (fun r => match r with Some m => @Ok modes M_calc.cerr m | None => Err NotConverged end) out) as (ms & Em).
  { intros r I. destruct (K r I) as (md & -> & _). eexists. reflexivity. }
  rewrite Em. exists ms. split; [|].
  - replace (final_weights (length qs) (the_weights obj (grid_options qs None param ad))) with (repeat (1 / INR (length qs)) (length qs)); [reflexivity|].
    unfold the_weights. destruct (_ && _)%bool; reflexivity.
  - destruct (mapE_len _ _ _ Em) as [Lo No]. split; [lia|]. intros md I. destruct (In_nth_error _ _ I) as (j & Ej).
    assert (Hj : (j < length ms)%nat) by (apply nth_error_Some; congruence). destruct (nth_error out j) as [r|] eqn:Er; [|apply nth_error_None in Er; lia].
    destruct (No j _ Er) as (md' & M1 & M2). destruct (K r (nth_error_In _ _ Er)) as (mk & -> & P). assert (md' = md) by congruence. assert (mk = md') by congruence. subst. exact P.
Qed.

Lemma chain_bins qs ms a room : qs <> [] -> length ms = length qs -> (forall md, In md ms -> forall m, (m < 3)%nat -> 0 < m_freq md m) -> a_emin a = None -> a_emax a = None ->
  exists bins, energy_bins 1 room a (et (run_table 1 qs (repeat (1 / INR (length qs)) (length qs)) ms)) = Ok bins.
Proof.
  intros N L P E1 E2. unfold energy_bins. destruct qs as [|q qs]; [contradiction|]. destruct ms as [|md ms]; [discriminate|].
  cbn [all_freqs pairs run_table et nq nm List.length seq list_prod map app fst snd freq nth Nat.mul Nat.add]. unfold all_freqs, pairs. cbn [run_table et nq nm List.length seq list_prod map app fst snd freq nth Nat.mul Nat.add].
  match goal with |- context [get_energy_bins ?x ?r _ _ _ _ _] => set (f0 := x); set (fs := r) end.
  assert (F : 0 < f0) by (unfold f0; specialize (P md (or_introl eq_refl) 0%nat ltac:(lia)); lra).
  unfold get_energy_bins. rewrite E1, E2. pose proof (Rmax_list_ge f0 fs f0 (or_introl eq_refl)). pose proof (Rmin_r (Rmin_list f0 fs - room) 0).
  match goal with |- context [Rleb ?x ?y] => destruct (Rleb_spec x y) as [H1|H1]; [exfalso; lra|] end. eexists. reflexivity.
Qed.

Definition plain_args (g : Z * Z * Z) (ad : bool) : dargs :=
  mkArgs "dos" None (Some g) 1 ad Reference (1 / 100) None None None "gauss" 4 None None None.
Lemma chain_dos junk wmin room src g0 g1 g2 ad param : (0 < g0)%nat -> (0 < g1)%nat -> (0 < g2)%nat ->
  exists r, dos_from_fc erfc reigh ceigh argsort chunk coeffs junk 1 wmin room src (plain_args (Z.of_nat g0, Z.of_nat g1, Z.of_nat g2) ad) None param obj = Ok r.
Proof.
  intros H0 H1 H2. set (a := plain_args (Z.of_nat g0, Z.of_nat g1, Z.of_nat g2) ad).
  assert (Pg : exists qs, grid_points (Z.of_nat g0, Z.of_nat g1, Z.of_nat g2) = Some qs /\ qs <> []).
  { unfold grid_points. destruct (Z.ltb_spec (Z.of_nat g0) 0); [lia|]. destruct (Z.ltb_spec (Z.of_nat g1) 0); [lia|]. destruct (Z.ltb_spec (Z.of_nat g2) 0); [lia|]. cbn [orb].
    rewrite !Nat2Z.id. rewrite mp_grid_prod. eexists. split; [reflexivity|]. unfold prod3. intros E.
    assert (L : forall n, (0 < n)%nat -> exists x r, mp_axis n = x :: r).
    { intros n Hn. pose proof (mp_axis_length n). destruct (mp_axis n) as [|x r]; [cbn in *; lia|]. exists x, r. reflexivity. }
    destruct (L g0 H0) as (x & ? & E0). destruct (L g1 H1) as (y & ? & E1). destruct (L g2 H2) as (z & ? & E2). rewrite E0, E1, E2 in E. discriminate. }
  destruct Pg as (qs & Eg & Nq).
  unfold dos_from_fc. cbn [resolve plain_args a a_eb a_grid a_spacing grid_spec o_d new_fc f_cell a_adaptive a_ascale a_inst]. rewrite Eg.
  destruct (chain_any junk qs param ad) as (ms & Er & Lm & Pm). rewrite Er.
  change (M_dynmat.n_atoms (chain k0 k1)) with 1%nat.
  destruct (chain_bins qs ms a room Nq Lm Pm eq_refl eq_refl) as (bins & Eb).
  assert (T : total_weight (et (run_table 1 qs (repeat (1 / INR (length qs)) (length qs)) ms)) <> 0) by (rewrite (even_total 1 qs ms Nq); apply R1_neq_R0).
  set (d := ForceConsts _ _ _). assert (X : exists ls, dos_tool coeffs 1 wmin room src a d = Ok (bins, ls)); [|destruct X as (ls & X); match goal with |- context [dos_tool coeffs 1 wmin room src ?z d] => change z with a end; rewrite X; eexists; reflexivity].
  destruct ad.
  - exact (adaptive_runs coeffs 1 wmin room src a _ _ _ _ bins eq_refl eq_refl eq_refl eq_refl eq_refl eq_refl eq_refl Eb T).
  - destruct (bins_inc _ _ _ _ _ Eb) as [Lb Ib]. unfold d, dos_tool. cbn [a plain_args a_weighting a_pdos a_adaptive a_grid a_spacing a_inst a_ascale a_eb resolve M_clidos.modes_of grid_spec String.eqb Ascii.eqb Bool.eqb andb negb has_evecs is_force].
    fold a. change (mkArgs "dos" None (Some (Z.of_nat g0, Z.of_nat g1, Z.of_nat g2)) 1 false Reference (1 / 100) None None None "gauss" 4 None None None) with a. rewrite Eb.
    unfold dos_lines. cbn [a plain_args a_weighting a_pdos String.eqb Ascii.eqb Bool.eqb andb a_method].
    destruct (dos_bins_count 1 bins (et (run_table 1 qs (repeat (1 / INR (length qs)) (length qs)) ms)) wmin Reference Rlt_0_1) as (y & Ey & _).
    + apply incr_of_steps. exact Ib.
    + rewrite Lb. cbn. lia.
    + exact T.
    + rewrite Ey. cbn [broaden_stage]. eexists. reflexivity.
Qed.
End Any.

Lemma diag_good k0 k1 : Rabs k1 < k0 -> forall D G x, (forall a b, (a < 3)%nat -> (b < 3)%nat -> D a b = if Nat.eqb a b then RtoC (k0 + k1 * cos x) else Czero) ->
  exists md, solve cdiag 3 one_mass D G = Some md /\ forall m, (m < 3)%nat -> 0 < m_freq md m.
Proof.
  intros Hk D G x HD. destruct (L_calc6.cdiag_solve D (fun _ => k0 + k1 * cos x) HD) as (md & E & F). unfold solve in E |- *.
  change L_calc6.mass1 with one_mass in E. destruct (cdiag 3 _) as [[ev v]|]; [|discriminate]. injection E as <-. eexists. split; [reflexivity|]. cbn [m_freq] in F |- *.
  intros m Hm. rewrite F by exact Hm. unfold freq_of_eval. assert (P : 0 < k0 + k1 * cos x).
  { pose proof (COS_bound x) as [B1 B2]. unfold Rabs in Hk. destruct (Rcase_abs k1); nra. }
  destruct (Rlt_dec _ 0); [lra|]. apply sqrt_lt_R0. rewrite Rabs_right; lra.
Qed.
Lemma vectors_good v D G x : (forall a b, (a < 3)%nat -> (b < 3)%nat -> D a b = if Nat.eqb a b then RtoC (1 + 0 * cos x) else Czero) ->
  exists md, solve (L_unique4.with_vectors v) 3 one_mass D G = Some md /\ forall m, (m < 3)%nat -> 0 < m_freq md m.
Proof.
  intros HD. unfold solve, L_unique4.with_vectors. cbn [Nat.eqb andb].
  rewrite L_unique4.unit3_intro.
  - eexists. split; [reflexivity|]. intros m _. cbn [m_freq]. unfold freq_of_eval. destruct (Rlt_dec 1 0); [lra|]. rewrite Rabs_R1, sqrt_1. lra.
  - intros i j Hi Hj. unfold herm_upper, mass_weight, one_mass. rewrite !HD by assumption. replace (1 / sqrt (1 * 1)) with 1 by (rewrite Rmult_1_r, sqrt_1; field).
    destruct (Nat.ltb_spec i j), (Nat.ltb_spec j i), (Nat.eqb_spec i j), (Nat.eqb_spec j i); try lia; subst; rewrite ?Nat.eqb_refl; apply C_eq; cbn; ring.
Qed.
