(** Lemmas for C99: two eigensolvers, and runs that succeed. *)
From Coq Require Import String.
From Verif Require L_unique4 L_sample4.
From Verif Require Import Base Cpx Vec3 M_path M_broad S_broad M_dos M_bins M_coll M_fixed M_clidos M_sample M_sf M_sphere M_powder M_weight M_grid M_cell M_qpts M_dynmat M_dipole M_struct M_asr M_calc M_doscalc M_powcalc
  S_dos S_sample S_sf S_clidos S_powder S_sphere S_qpts S_dynmat S_dipole S_asr S_calc S_unique S_doscalc S_powcalc L_util L_grid L_nac L_chain L_dos L_dos2 L_powder L_sphere L_weight L_path2 L_calc L_calc2 L_calc4 L_calc7 L_unique2 L_unique3 L_doscalc L_doscalc2 L_powcalc.
Open Scope R_scope.

Section Rows.
Variables (calc calc' : list V3 -> option (list V3 * etable)) (mass : nat -> R).
Hypothesis same : forall ps qs e qs' e', calc ps = Some (qs, e) -> calc' ps = Some (qs', e') -> qs = qs' /\ exists A, same_points e e' /\ table_modes e mass A /\ table_modes e' mass A.
Variables (cell : M3) (x : xtal) (solve : M3 -> V3 -> V3) (ops : option (list symop)) (chunk : nat) (kB fmin wmin k c : R) (src : sources) (sl : nat -> R).
Variables (rnd : R -> option (nat -> R * R)) (rnd2 : R -> option (nat -> nat -> R * R)) (always : R -> nat -> R * R).

Lemma two_modes q n s r r2 al b e e' qs qs' b1 b2 : sphere_modes calc x solve k q n s r r2 al (Some b) = Ok (qs, e, b1) -> sphere_modes calc' x solve k q n s r r2 al (Some b) = Ok (qs', e', b2) ->
  b1 = b /\ b2 = b /\ qs = qs' /\ exists A, same_points e e' /\ table_modes e mass A /\ table_modes e' mass A.
Proof.
  unfold sphere_modes. destruct (sphere_points _ _ _ _ _ _ _ _) as [ps|]; [|discriminate]. destruct (calc ps) as [[q1 e1]|] eqn:C; [|discriminate]. destruct (calc' ps) as [[q2 e2]|] eqn:C'; [|discriminate].
  intros E E'. destruct (same _ _ _ _ _ C C') as [Q K]. injection E as <- <- <-. injection E' as <- <- <-. split; [reflexivity|]. split; [reflexivity|]. split; [exact Q|exact K].
Qed.
Lemma two_dw grid spacing T d d' : tool_dw calc cell x ops chunk kB fmin grid spacing T = Ok d -> tool_dw calc' cell x ops chunk kB fmin grid spacing T = Ok d' -> related_opt same_dw d d'.
Proof.
  unfold tool_dw. destruct T as [t|]; [|intros E E'; injection E as <-; injection E' as <-; exact I]. unfold debye_waller_on. destruct (grid_spec cell grid spacing) as [[[n0 n1] n2]|]; [|discriminate].
  destruct (_ || _)%bool; [discriminate|]. destruct (mp_grid _ _ _) as [qs|]; [|discriminate]. destruct (calc qs) as [[q1 e1]|] eqn:C; [|discriminate]. destruct (calc' qs) as [[q2 e2]|] eqn:C'; [|discriminate].
  destruct (same _ _ _ _ _ C C') as (_ & A & SP & M & M'). pose proof (dw_same e1 e2 mass A SP M M' chunk x kB t fmin ops) as D.
  destruct (calculate_debye_waller chunk e1 x kB t fmin ops) as [d1|]; [|discriminate]. destruct (calculate_debye_waller chunk e2 x kB t fmin ops) as [d2|]; [|discriminate].
  intros E E'. injection E as <-. injection E' as <-. exact D.
Qed.
Lemma two_given d d' T : related_opt same_dw d d' -> forall sp v v', the_dw calc cell x ops chunk kB fmin d T sp = Ok v -> the_dw calc' cell x ops chunk kB fmin d' T sp = Ok v' ->
  (T = None \/ d <> None) -> related_opt same_dw v v'.
Proof.
  intros D sp v v' E E' K. unfold the_dw in E, E'. destruct T as [t|]; [|injection E as <-; injection E' as <-; exact D]. destruct K as [K|K]; [discriminate|].
  destruct d as [d|]; [|contradiction]. destruct d' as [d'|]; [|contradiction]. destruct (isclose _ _ _); [|discriminate]. destruct (isclose _ (dw_t d') _); [|discriminate].
  injection E as <-. injection E' as <-. exact D.
Qed.
Lemma two_rows w bins q n r r' : weighted_row calc cell x solve ops chunk kB fmin wmin k c src sl rnd rnd2 always w bins q n = Ok r ->
  weighted_row calc' cell x solve ops chunk kB fmin wmin k c src sl rnd rnd2 always w bins q n = Ok r' -> r = r'.
Proof.
  unfold weighted_row. destruct (_ && _)%bool.
  - unfold sample_sphere_dos. destruct (sphere_modes calc _ _ _ _ _ _ _ _ _ _) as [[[q1 e1] b1]|] eqn:C; [|discriminate]. destruct (sphere_modes calc' _ _ _ _ _ _ _ _ _ _) as [[[q2 e2] b2]|] eqn:C'; [|discriminate].
    destruct (two_modes _ _ _ _ _ _ _ _ _ _ _ _ _ C C') as (-> & -> & _ & A & SP & M & M'). rewrite (dos_same e1 e2 mass A SP M M').
    destruct (calculate_dos _ _ _ _ _ _); [|discriminate]. cbn [shell_res]. congruence.
  - destruct (String.eqb _ _).
    + destruct (tool_dw calc _ _ _ _ _ _ _ _ _) as [d|] eqn:D; [|discriminate]. destruct (tool_dw calc' _ _ _ _ _ _ _ _ _) as [d'|] eqn:D'; [|discriminate].
      pose proof (two_dw _ _ _ _ _ D D') as R. unfold sample_sphere_structure_factor.
      assert (K : w_temperature w = None \/ d <> None).
      { unfold tool_dw in D. destruct (w_temperature w); [right|left; reflexivity]. destruct (debye_waller_on _ _ _ _ _ _ _ _); [|discriminate]. injection D as <-. discriminate. }
      destruct (the_dw calc _ _ _ _ _ _ _ _ _) as [v|] eqn:V; [|discriminate]. destruct (the_dw calc' _ _ _ _ _ _ _ _ _) as [v'|] eqn:V'; [|discriminate].
      pose proof (two_given _ _ _ R _ _ _ V V' K) as Rv.
      destruct (sphere_modes calc _ _ _ _ _ _ _ _ _ _) as [[[q1 e1] b1]|] eqn:C; [|discriminate]. destruct (sphere_modes calc' _ _ _ _ _ _ _ _ _ _) as [[[q2 e2] b2]|] eqn:C'; [|discriminate].
      destruct (two_modes _ _ _ _ _ _ _ _ _ _ _ _ _ C C') as (-> & -> & <- & A & SP & M & M').
      pose proof (sf_same e1 e2 mass A SP M M' x sl (fun i => nth i q1 vzero) v v' Rv) as Q.
      destruct (calculate_structure_factor e1 _ _ _ _) as [s|]; [|discriminate]. destruct (calculate_structure_factor e2 _ _ _ _) as [s'|]; [|discriminate]. destruct Q as [_ Q].
      rewrite Q. destruct (calculate_1d_average _ _ _ _ _ _ _ _); [|discriminate]. cbn [shell_res]. congruence.
    + destruct (pdos_weighting _) as [wo|]; [|discriminate]. destruct (match wo with None => _ | Some _ => _ end) as [ww|]; [|discriminate].
      unfold sample_sphere_pdos.
      destruct (sphere_modes calc _ _ _ _ _ _ _ _ _ _) as [[[q1 e1] b1]|] eqn:C; [|discriminate]. destruct (sphere_modes calc' _ _ _ _ _ _ _ _ _ _) as [[[q2 e2] b2]|] eqn:C'; [|discriminate].
      destruct (two_modes _ _ _ _ _ _ _ _ _ _ _ _ _ C C') as (-> & -> & <- & A & SP & M & M').
      rewrite (pdos_weighted_same e1 e2 mass A SP M M'). destruct (calculate_pdos_weighted _ _ _ _ _ _ _ _ _ _) as [ls|]; [|discriminate].
      rewrite (proj1 SP). congruence.
Qed.
Lemma two_tools coeffs hm room f0 fs a w r r' :
  powder_map_tool calc cell x solve ops chunk kB fmin wmin k c src sl rnd rnd2 always coeffs hm room f0 fs a w = Ok r ->
  powder_map_tool calc' cell x solve ops chunk kB fmin wmin k c src sl rnd rnd2 always coeffs hm room f0 fs a w = Ok r' -> r = r'.
Proof.
  assert (P : powder_tool coeffs hm room (weighted_row calc cell x solve ops chunk kB fmin wmin k c src sl rnd rnd2 always w) f0 fs a = Ok r ->
    powder_tool coeffs hm room (weighted_row calc' cell x solve ops chunk kB fmin wmin k c src sl rnd rnd2 always w) f0 fs a = Ok r' -> r = r').
  { unfold powder_tool. destruct (Reqb _ _); [discriminate|]. destruct (_ <=? _)%Z; [discriminate|]. destruct (p_energy_bins _ _ _ _) as [bins|]; [|discriminate].
    destruct (mapE _ _) as [z|] eqn:E; [|discriminate]. 
    destruct (mapE (fun q => weighted_row calc' cell x solve ops chunk kB fmin wmin k c src sl rnd rnd2 always w bins q (shell_npts a q)) (q_centres a)) as [z'|] eqn:E'; [|discriminate].
    assert (z = z') as ->.
    { revert z z' E E'. induction (q_centres a) as [|q qs IH]; intros z z' E E'; cbn [mapE] in E, E'; [congruence|].
      destruct (weighted_row calc _ _ _ _ _ _ _ _ _ _ _ _ _ _ _ _ _ _ _) as [y|] eqn:W; [|discriminate]. destruct (weighted_row calc' _ _ _ _ _ _ _ _ _ _ _ _ _ _ _ _ _ _ _) as [y'|] eqn:W'; [|discriminate].
      destruct (mapE _ qs) as [t|]; [|discriminate].
      destruct (mapE (fun q => weighted_row calc' cell x solve ops chunk kB fmin wmin k c src sl rnd rnd2 always w bins q (shell_npts a q)) qs) as [t'|]; [|discriminate].
      rewrite (two_rows _ _ _ _ _ _ W W') in E. rewrite (IH _ _ eq_refl eq_refl) in E. congruence. }
    intros A B. congruence. }
  unfold powder_map_tool. destruct (w_pdos w); [|exact P]. destruct (String.eqb _ _); [discriminate|exact P].
Qed.
End Rows.

Lemma powder_solvers erfc reigh argsort chunk ceigh ceigh' d mass born diel junk junk' before before' asr param solve ops dw_chunk kB fmin wmin k c src sl rnd rnd2 always coeffs hm room a w r r' :
  csolves ceigh -> csolves ceigh' -> csorts ceigh -> csorts ceigh' -> asr <> Some Reciprocal ->
  powder_from_fc erfc reigh ceigh argsort chunk junk before asr param solve ops dw_chunk kB fmin wmin k c src sl rnd rnd2 always coeffs hm room a w (new_fc d mass born diel) = Ok r ->
  powder_from_fc erfc reigh ceigh' argsort chunk junk' before' asr param solve ops dw_chunk kB fmin wmin k c src sl rnd rnd2 always coeffs hm room a w (new_fc d mass born diel) = Ok r' -> r = r'.
Proof.
  intros V V' O O' Ha H H'.
  destruct (run_parts _ _ _ _ _ _ _ _ _ _ _ _ _ _ _ _ _ _ _ _ _ _ _ _ _ _ _ _ _ _ _ _ H) as (ms & f0 & fs & E & F & T).
  destruct (run_parts _ _ _ _ _ _ _ _ _ _ _ _ _ _ _ _ _ _ _ _ _ _ _ _ _ _ _ _ _ _ _ _ H') as (ms' & f0' & fs' & E' & F' & T').
  destruct (two_calculations erfc reigh argsort chunk ceigh ceigh' d mass born diel _ _ _ _ (grid_options [x_point] asr param false) _ _ V V' Ha E E') as (_ & _ & _ & Fr).
  assert (Ef : x_freqs k (M_dynmat.n_atoms d) ms = x_freqs k (M_dynmat.n_atoms d) ms').
  { unfold x_freqs. apply map_ext_in. intros m Im. apply in_seq in Im. specialize (Fr O O' 0%nat m ltac:(cbn; lia) ltac:(lia)). cbn [table_of et freq] in Fr. rewrite Fr. reflexivity. }
  rewrite F, F' in Ef. injection Ef as <- <-. refine (two_tools _ _ (fun _ => 1) _ _ _ _ _ _ _ _ _ _ _ _ _ _ _ _ _ _ _ _ _ _ _ _ _ T T').
  intros ps qs e qs' e' C C'. unfold run_calc in C, C'.
  destruct (run_modes erfc reigh ceigh argsort chunk junk before asr param (new_fc d mass born diel) ps) as [[[qp wp] mp]|] eqn:R; [|discriminate].
  destruct (run_modes erfc reigh ceigh' argsort chunk junk' before' asr param (new_fc d mass born diel) ps) as [[[qp' wp'] mp']|] eqn:R'; [|discriminate].
  destruct (two_calculations erfc reigh argsort chunk ceigh ceigh' d mass born diel _ _ _ _ (grid_options ps asr param false) _ _ V V' Ha R R') as (Q & SP & (A & M & M') & _).
  injection C as <- <-. injection C' as <- <-. split; [exact Q|]. exists A. split; [exact SP|]. split; [exact M|exact M'].
Qed.

(** Runs that succeed: the chain of C96 *)
Section Any.
Variables (erfc : R -> R) (reigh : real_eigh) (argsort : list R -> list nat) (chunk : nat) (coeffs : R -> list R).
Variables (ceigh : complex_eigh) (k0 k1 : R).
Notation obj := (new_fc (chain k0 k1) one_mass None unit_cell3).
Notation args := L_powder.plain_args.
Notation quiet := (fun _ : R => @None (nat -> R * R)).
Notation quiet2 := (fun _ : R => @None (nat -> nat -> R * R)).
Hypothesis good : forall D G x, (forall a b, (a < 3)%nat -> (b < 3)%nat -> D a b = if Nat.eqb a b then RtoC (k0 + k1 * cos x) else Czero) ->
  exists md, solve ceigh 3 one_mass D G = Some md /\ forall m, (m < 3)%nat -> 0 < m_freq md m.
Definition of_dos : wargs := mkWA "dos" None None None 1 "golden".
Definition of_atoms : wargs := mkWA "coherent-dos" None None None 1 "golden".
Definition of_hot : wargs := mkWA "coherent" None (Some 1) (Some (2, 1, 1)%Z) 1 "golden".

Lemma chain_powder junk before param wmin hm room sl w : 0 < room -> In w [of_dos; of_atoms; of_hot] ->
  exists solve r, solves solve /\ det3 (f_cell (chain k0 k1)) <> 0 /\
    powder_from_fc erfc reigh ceigh argsort chunk junk before None param solve None 1 1 0 wmin 1 1 salt sl quiet quiet2 (fun _ _ => (0, 0)) coeffs hm room args w obj = Ok r.
Proof.
  intros Hr Iw. destruct L_sample4.solver_exists as [sv So]. exists sv.
  assert (Hc : forall qs, exists ms, run_modes erfc reigh ceigh argsort chunk junk before None param obj qs = Ok (qs, repeat (1 / INR (length qs)) (length qs), ms) /\ length ms = length qs /\
    forall md, In md ms -> forall m, (m < 3)%nat -> 0 < m_freq md m).
  { intros qs. unfold run_modes. rewrite (history _ _ _ _ _ _ _ _ _ _ _ (fun _ _ _ => 0)). apply chain_any. exact good. }
  destruct (Hc [x_point]) as (ms & E & Lm & Pm). destruct ms as [|md [|? ?]]; try discriminate Lm.
  assert (P0 : forall m, (m < 3)%nat -> 0 < m_freq md m) by (intros m Hm; apply (Pm md (or_introl eq_refl) m Hm)).
  set (f m := m_freq md m * 1). assert (Pf : forall m, (m < 3)%nat -> 0 < f m) by (intros m Hm; unfold f; rewrite Rmult_1_r; apply P0, Hm).
  assert (Eb : exists bins, p_energy_bins args (f 0%nat) [f 1%nat; f 2%nat] room = Ok bins).
  { unfold p_energy_bins. cbn [args p_ei p_emax p_emin p_ebins]. destruct (default_bins_cover (f 0%nat) [f 1%nat; f 2%nat] 6 (12 / 10) room ltac:(lia) ltac:(lra) Hr) as (b & B & _).
    - exists (f 0%nat). split; [left; reflexivity|apply Pf; lia].
    - exists b. exact B. }
  destruct Eb as (bins & Eb).
  assert (Det : det3 (f_cell (chain k0 k1)) <> 0) by (cbn; lra).
  assert (Sm : forall q : R, 0 <= q -> exists l, get_qpts_sphere (shell_npts args q) "golden" None None (fun _ => (0, 0)) = Ok l /\ l <> [] /\ forall p, In p l -> on_sphere p).
  { intros q _. destruct (flat_golden None) as (l & El & Ll & On). exists l. split; [exact El|]. split; [|exact On]. intros ->. discriminate. }
  assert (H1 : q_min args < q_max args) by (cbn; lra). assert (H2 : 0 < M_powder.q_spacing args) by (cbn; lra).
  assert (H3 : 0 <= q_min args) by (cbn; lra). assert (H4 : (1 <= p_ebins args)%nat) by (cbn; lia).
  set (calc := run_calc erfc reigh ceigh argsort chunk junk before None param obj).
  assert (Cs : forall ps, ps <> [] -> exists e, calc ps = Some (ps, e) /\ M_dos.n_atoms e = 1%nat /\ nq (et e) = length ps /\ total_weight (et e) = 1 /\
    forall q m, (q < nq (et e))%nat -> (m < nm (et e))%nat -> freq (et e) q m <> 0).
  { intros ps Np. destruct (Hc ps) as (mp & Ep & Lp & Pp). unfold calc, run_calc. rewrite Ep. eexists. split; [reflexivity|]. split; [reflexivity|]. split; [reflexivity|]. split; [apply even_total; exact Np|].
    cbn [run_table et nq nm freq]. intros q m Hq Hm. apply Rgt_not_eq. apply (Pp (nth q mp (mkModes (fun _ => 0) (fun _ _ => Czero) None))); [apply nth_In; lia|exact Hm]. }
  assert (T : exists z, powder_map_tool calc (f_cell (chain k0 k1)) (M_sf.mkX one_mass (fun a => nth a (f_atom_r (chain k0 k1)) vzero) (reciprocal_cell (f_cell (chain k0 k1)))) sv None 1 1 0 wmin 1 1 salt sl
     quiet quiet2 (fun _ _ => (0, 0)) coeffs hm room (f 0%nat) [f 1%nat; f 2%nat] args w = Ok (q_edges args, bins, z)).
  { destruct Iw as [<-|[<-|[<-|[]]]].
    - apply plain_runs; try assumption; try reflexivity. intros ps Np. destruct (Cs ps Np) as (e & E1 & _ & _ & E2 & _). exists ps, e. split; [exact E1|]. rewrite E2. apply R1_neq_R0.
    - apply (pdos_runs _ _ _ _ _ _ _ _ _ _ _ _ _ _ _ _ _ _ _ _ _ _ _ _ (Some Coherent)); try assumption; try reflexivity; [right; left; split; reflexivity|intros [Z _]; discriminate Z|].
      intros ps Np. destruct (Cs ps Np) as (e & E1 & E2 & _ & E3 & _). exists ps, e. split; [exact E1|]. rewrite E2, E3. split; [lia|]. split; [apply R1_neq_R0|]. split.
      + intros v b Ev Hb. injection Ev as <-. assert (b = 0%nat) as -> by lia. discriminate.
      + intros s Es. discriminate Es.
    - assert (Em : exists mesh, mp_grid 2 1 1 = Ok mesh) by (rewrite mp_grid_prod; eexists; reflexivity). destruct Em as (mesh & Em).
      assert (Nm : mesh <> []) by (intros ->; rewrite mp_grid_prod in Em; discriminate Em).
      destruct (Cs mesh Nm) as (e0 & C1 & C2 & C3 & C4 & C5).
      assert (Z0 : has_zero (et e0) = false).
      { destruct (has_zero (et e0)) eqn:Z; [|reflexivity]. exfalso. unfold has_zero in Z. apply existsb_exists in Z. destruct Z as ([q m] & Ip & Ez). apply in_prod_iff in Ip. destruct Ip as [A B]. apply in_seq in A, B. cbn [fst snd] in Ez.
        destruct (Reqb_spec (freq (et e0) q m) 0) as [F|]; [|discriminate]. exact (C5 q m ltac:(lia) ltac:(lia) F). }
      set (X := M_sf.mkX one_mass (fun a => nth a (f_atom_r (chain k0 k1)) vzero) (reciprocal_cell (f_cell (chain k0 k1)))).
      assert (D : exists d0, calculate_debye_waller 1 e0 X 1 1 0 None = Ok d0 /\ dw_n d0 = 1%nat).
      { unfold calculate_debye_waller. rewrite Z0. change (Sum (seq 0 (nq (et e0))) (wt (et e0))) with (total_weight (et e0)). rewrite C4. destruct (Reqb_spec 1 0) as [Z|_]; [lra|].
        cbn [orb]. eexists. split; [reflexivity|exact C2]. }
      destruct D as (d0 & D1 & D2).
      apply (coherent_runs _ _ _ _ _ _ _ _ _ _ _ _ _ _ _ _ _ _ _ _ _ _ _ _ _ (Some d0)); try assumption; try reflexivity; [lia| |].
      + cbn [of_hot w_temperature w_grid w_spacing]. exists (2, 1, 1)%Z, d0. split; [reflexivity|]. split; [|reflexivity]. split; [lia|]. split; [lia|]. split; [lia|].
        exists mesh, mesh, e0. split; [exact Em|]. split; [exact C1|exact D1].
      + intros ps Np. destruct (Cs ps Np) as (e & E1 & E2 & E3 & _ & E4). exists ps, e. split; [exact E1|]. split; [rewrite E3; destruct ps; [contradiction|cbn; lia]|]. split; [exact E4|].
        intros d1 Ed. injection Ed as <-. rewrite D2, E2. reflexivity. }
  destruct T as (z & T). exists (q_edges args, bins, z). split; [exact So|]. split; [exact Det|].
  unfold powder_from_fc. assert (Cl : pdos_clash w = false) by (destruct Iw as [<-|[<-|[<-|[]]]]; reflexivity). rewrite Cl. destruct (Reqb_spec (M_powder.q_spacing args) 0) as [Z|_]; [cbn in Z; lra|].
  rewrite E. change (x_freqs 1 (M_dynmat.n_atoms (o_d obj)) [md]) with [f 0%nat; f 1%nat; f 2%nat]. cbv iota.
  change (powder_map_tool (run_calc erfc reigh ceigh argsort chunk junk before None param obj) (f_cell (o_d obj)) (crystal_of obj)) with
    (powder_map_tool calc (f_cell (chain k0 k1)) (M_sf.mkX one_mass (fun a => nth a (f_atom_r (chain k0 k1)) vzero) (reciprocal_cell (f_cell (chain k0 k1))))). rewrite T. reflexivity.
Qed.
End Any.
