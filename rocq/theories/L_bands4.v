(** Lemmas for C84: --reorder of bands from force constants. *)
From Coq Require Import String Sorted Permutation.
From Verif Require Import Base L_util Cpx Vec3 M_grid M_cell M_qpts L_qpts L_path L_path2 M_dynmat M_dipole M_struct M_asr M_calc M_path M_dos M_reorder M_bins M_brille M_bands
  S_qpts S_path S_dynmat S_dipole S_asr S_calc S_bins S_reorder S_intmap S_bands L_reorder2 L_dynmat2 L_nac L_calc2 L_calc4 L_calc7 L_spectral L_bins2 L_intmap L_intmap2 L_intmap5 L_brille L_bands L_bands2 L_bands3 L_dos2.
Open Scope R_scope.

Lemma finite_choice {A} (d : A) (P : nat -> A -> Prop) n : (forall q, (q < n)%nat -> exists a, P q a) -> exists f, forall q, (q < n)%nat -> P q (f q).
Proof.
  induction n as [|n IH]; intros H; [exists (fun _ => d); intros q Hq; lia|].
  destruct IH as [f Hf]; [intros q Hq; apply H; lia|]. destruct (H n ltac:(lia)) as [a Ha].
  exists (fun q => if Nat.eqb q n then a else f q). intros q Hq. destruct (Nat.eqb_spec q n) as [->|N]; [exact Ha|apply Hf; lia].
Qed.

(** Eigenvectors of every result are orthonormal *)
Lemma herm_upper_herm A : hermitian (herm_upper A).
Proof.
  intros i j. unfold herm_upper. destruct (Nat.ltb_spec i j), (Nat.ltb_spec j i); try lia; try (apply C_eq; cbn; ring).
  assert (i = j) as -> by lia. apply C_eq; cbn; ring.
Qed.
Lemma solve_ortho ceigh n mass D G md : csolves ceigh -> solve ceigh n mass D G = Some md -> corthonormal n (fun i m => m_evec md m i).
Proof.
  intros Hs. unfold solve. destruct (ceigh n (herm_upper (mass_weight mass D))) as [[ev v]|] eqn:E; [|discriminate]. intros H. injection H as <-.
  exact (proj2 (Hs _ _ _ _ (herm_upper_herm _) E)).
Qed.
Lemma result_from_solver erfc reigh ceigh argsort chunk junk o x qpts w ms : result erfc reigh ceigh argsort chunk junk o x = Ok (qpts, w, ms) ->
  forall i md, nth_error ms i = Some md -> exists D G, solve ceigh (3 * M_dynmat.n_atoms (o_d x)) (o_mass x) D G = Some md.
Proof.
  intros H i md Hi. unfold M_calc.result, M_calc.call in H. destruct (weights_ok o); cbn [negb snd] in H; [|discriminate].
  destruct (the_q_dirs x o); [|discriminate]. destruct (asr_of reigh argsort chunk x o) as [[[kept fc] wr]|]; [|discriminate]. cbn [snd] in H.
  match type of H with match calculate ?f _ _ _ _ with _ => _ end = _ => set (calc := f) in H end.
  destruct (calculate_correct _ calc None (p_reduce o) (use_splitting x o) (the_qpts x o)) as (out & E & Ln & P). rewrite E in H.
  destruct (mapE _ out) as [ms'|] eqn:Em; [|discriminate]. assert (ms' = ms) as -> by congruence. clear H.
  apply mapE_inv in Em. destruct Em as [Lm Pm].
  assert (Hlt : (i < length out)%nat) by (rewrite <- Lm; apply nth_error_Some; congruence).
  destruct (nth_error (the_qpts x o) i) as [q|] eqn:Eq; [|apply nth_error_None in Eq; lia].
  specialize (P i q Eq). apply (nth_error_nth _ _ None) in P. specialize (Pm i None md Hlt). rewrite P in Pm. rewrite (nth_error_nth _ _ md Hi) in Pm.
  match type of Pm with match calc ?u ?v with _ => _ end = _ => destruct (calc u v) as [md'|] eqn:Ec; [|discriminate] end. assert (md' = md) as -> by congruence.
  unfold calc in Ec. eexists. eexists. exact Ec.
Qed.
Lemma result_ortho erfc reigh ceigh argsort chunk junk o x qpts w ms : csolves ceigh -> result erfc reigh ceigh argsort chunk junk o x = Ok (qpts, w, ms) ->
  forall i md, nth_error ms i = Some md -> corthonormal (3 * M_dynmat.n_atoms (o_d x)) (fun i m => m_evec md m i).
Proof.
  intros Hs H i md Hi. destruct (result_from_solver _ _ _ _ _ _ _ _ _ _ _ H i md Hi) as (D & G & E). exact (solve_ortho _ _ _ _ _ _ Hs E).
Qed.

Lemma flat_sum n f : Csum (seq 0 (3 * n)) f = Csum (seq 0 n) (fun a => Csum (seq 0 3) (fun l => f (3 * a + l)%nat)).
Proof.
  induction n as [|n IH]; [reflexivity|]. replace (3 * S n)%nat with (3 * n + 3)%nat by lia. rewrite seq_app, Csum_app, IH. rewrite (seq_S n 0), Csum_app. cbn [plus]. f_equal.
  cbn [seq]. rewrite !Csum_cons, !Csum_nil. set (k := (3 * n)%nat). clearbody k. rewrite ?Nat.add_0_r, ?Nat.add_1_r. replace (k + 2)%nat with (S (S k)) by lia.
  apply C_eq; cbn [re im Cadd Czero]; ring.
Qed.
Lemma by_atom_ortho n md : corthonormal (3 * n) (fun i m => m_evec md m i) -> orthonormal n (by_atom md).
Proof.
  intros H m m' Hm Hm'. unfold inner, by_atom. rewrite <- (flat_sum n (fun i => Cmul (Cconj (m_evec md m i)) (m_evec md m' i))). exact (H m m' Hm Hm').
Qed.

Section F.
Variable seekpath : M3 -> list V3 -> list nat -> R -> bpath.
Variables (erfc : R -> R) (reigh : real_eigh) (ceigh : complex_eigh) (argsort : list R -> list nat) (chunk : nat).
Notation tool := (dispersion_tool seekpath erfc reigh ceigh argsort chunk).

Lemma draw_reordered found tol kx a cell qpts e e' labels : da_reorder a = true -> reorder_frequencies tol true qpts e = Ok e' -> (0 < length qpts)%nat -> length qpts = nq (et e') ->
  exists s, xs s = calc_abscissa (reciprocal_cell cell) kx qpts /\ ys s = map (fun q => map (freq (et e') q) (seq 0 (nm (et e')))) (seq 0 (nq (et e'))) /\
  xticks s = Some (match labels with [] => found qpts | l => map (fun q => (Z.of_nat (fst q), snd q)) l end) /\
  (forall idx, StronglySorted lt idx -> (forall b, In b idx -> (0 < b < length qpts)%nat) -> exists segs, draw found tol kx a cell qpts e labels (Some idx) = Ok (s, segs) /\ cut_at s idx segs).
Proof.
  intros Hr Er H0 Hn. unfold draw. rewrite Hr, Er. set (s := match labels with [] => dispersion found kx cell qpts (et e') | _ => _ end). exists s.
  assert (Ex : xs s = calc_abscissa (reciprocal_cell cell) kx qpts) by (subst s; destruct labels; reflexivity).
  assert (Ey : ys s = map (fun q => map (freq (et e') q) (seq 0 (nm (et e')))) (seq 0 (nq (et e')))) by (subst s; destruct labels; reflexivity).
  assert (Le : length (xs s) = length (ys s)) by (rewrite Ex, Ey, map_length, seq_length, abscissa_length by exact H0; exact Hn).
  split; [exact Ex|]. split; [exact Ey|]. split; [subst s; destruct labels; reflexivity|].
  intros idx St Hb. destruct (split_cut s idx Le St) as (segs & E & C).
  - intros b I. apply Hb in I. rewrite Ey, map_length, seq_length. lia.
  - exists segs. rewrite E. split; [reflexivity|exact C].
Qed.

Lemma reorder_force junk lookup found tol k kx a u types x l qpts w ms : da_reorder a = true -> labelled_path seekpath -> csolves ceigh -> lookup (da_unit a) = Some l ->
  let n := M_dynmat.n_atoms (o_d x) in
  let b := seekpath (cell_in u (f_cell (o_d x))) (f_atom_r (o_d x)) types (da_spacing a / l) in
  result erfc reigh ceigh argsort chunk junk (mkOpts (doubled (bp_k b) (bp_labels b)) None (da_asr a) true (da_param a) true false false false) x = Ok (qpts, w, ms) ->
  (forall t md md', (1 <= t)%nat -> nth_error ms (t - 1) = Some md -> nth_error ms t = Some md' -> nth (t - 1) (calc_reorder tol true qpts) false = true -> partnered n (by_atom md) (by_atom md')) ->
  exists s segs perm, tool junk lookup found tol k kx a (DForce u types x) = Ok (s, segs) /\ length (ys s) = length qpts /\
  (forall i md, nth_error ms i = Some md -> Permutation (perm i) (seq 0 (3 * n)) /\ nth_error (ys s) i = Some (map (fun m => m_freq md m * k) (perm i))) /\
  (forall t md md', (1 <= t)%nat -> nth_error ms (t - 1) = Some md -> nth_error ms t = Some md' -> nth (t - 1) (calc_reorder tol true qpts) false = true ->
     forall j, (j < 3 * n)%nat -> 1 / 2 < Cnorm2 (inner n (by_atom md (nth j (perm (t - 1)%nat) 0%nat)) (by_atom md' (nth j (perm t) 0%nat)))) /\
  along_path (reciprocal_cell (f_cell (o_d x))) kx qpts (xs s) /\
  exists idx, StronglySorted lt idx /\ (forall i, In i idx <-> exists t, starts_region (bp_labels b) t /\ i = shifted (bp_labels b) t) /\ cut_at s idx segs.
Proof.
  intros Hr Hp Hs El n b0 E Hpart. set (b := band_path seekpath u types x (da_spacing a / l) true).
  assert (Hp1 : length (bp_k b0) = length (bp_labels b0)) by apply Hp. assert (Hp0 : (0 < length (bp_k b0))%nat) by apply Hp.
  assert (Eb : b = mkBP (fst (cli_insert_gamma (bp_k b0) (bp_labels b0))) (snd (cli_insert_gamma (bp_k b0) (bp_labels b0)))) by reflexivity.
  destruct (insert_doubled _ _ Hp1) as [Q1 Q2].
  assert (Eo : band_options b (da_asr a) (da_param a) = mkOpts (doubled (bp_k b0) (bp_labels b0)) None (da_asr a) true (da_param a) true false false false) by (unfold band_options; rewrite Eb; cbn [bp_k]; rewrite Q1; reflexivity).
  rewrite <- Eo in E.
  rewrite (force_runs seekpath erfc reigh ceigh argsort chunk junk lookup found tol k kx a u types x l qpts w ms El E). fold b.
  destruct (result_shape erfc reigh ceigh argsort chunk _ _ _ _ _ _ E) as [Eq Lm].
  assert (Eqp : qpts = doubled (bp_k b0) (bp_labels b0)).
  { rewrite Eq. unfold the_qpts. rewrite Eo. cbn [p_insert p_qpts]. rewrite Bool.andb_false_r. reflexivity. }
  assert (H0 : (0 < length qpts)%nat).
  { rewrite Eqp, doubled_length. pose proof (shifted_ge (bp_labels b0) (length (bp_labels b0))). lia. }
  set (e := mode_table k (M_dynmat.n_atoms (o_d x)) w ms). set (none := mkModes (fun _ => 0) (fun _ _ => Czero) None).
  assert (Ev : forall t md, nth_error ms t = Some md -> evec e t = by_atom md).
  { intros t md Et. cbn [e mode_table evec]. fold none. rewrite (nth_error_nth _ _ none Et). reflexivity. }
  assert (Some' : forall t, (t < length ms)%nat -> exists md, nth_error ms t = Some md) by (intros t Ht; destruct (nth_error ms t) as [md|] eqn:Et; [exists md; reflexivity|apply nth_error_None in Et; lia]).
  destruct (reorder_follows tol true qpts e) as (e' & E1 & Re & Fo).
  { cbn [e mode_table et nq]. lia. }
  { intros t Ht F. cbn [e mode_table et nq n_atoms] in Ht |- *. destruct (Some' (t - 1)%nat ltac:(lia)) as [md Em]. destruct (Some' t ltac:(lia)) as [md' Em'].
    fold e. rewrite (Ev _ _ Em), (Ev _ _ Em'). split; [apply by_atom_ortho; exact (result_ortho _ _ _ _ _ _ _ _ _ _ _ Hs E _ _ Em)|].
    split; [apply by_atom_ortho; exact (result_ortho _ _ _ _ _ _ _ _ _ _ _ Hs E _ _ Em')|]. exact (Hpart t md md' ltac:(lia) Em Em' F). }
  assert (N : nq (et e') = length ms /\ nm (et e') = (3 * n)%nat).
  { unfold reorder_frequencies in E1. destruct (reorder_maps _ _ _ _) in E1; [|discriminate]. injection E1 as <-. split; reflexivity. }
  destruct N as [N1 N2].
  destruct (draw_reordered found tol kx a (f_cell (o_d x)) qpts e e' (cli_tick_labels (bp_labels b)) Hr E1 H0 ltac:(rewrite N1; symmetry; exact Lm)) as (s & Ex & Ey & _ & Cut).
  destruct (shifted_regions _ _ Hp1) as [St Si].
  destruct (Cut (cli_break_points (bp_labels b))) as (segs & Es & C); rewrite ?Eb; cbn [bp_labels]; [exact St| |].
  { intros i I. apply Si in I. destruct I as (t & (T1 & T2 & _) & ->). pose proof (shifted_ge (bp_labels b0) t). pose proof (shifted_mono (bp_labels b0) t (length (bp_labels b0)) T2).
    rewrite Eqp, doubled_length. lia. }
  destruct (finite_choice [] _ _ Re) as [perm Pm]. cbn [e mode_table et nq n_atoms nm] in Pm, Fo. fold n in Pm, Fo. fold e in Pm, Fo. fold none in Pm, Fo.
  exists s, segs, perm. rewrite Eb in Es. split; [exact Es|]. split; [rewrite Ey, map_length, seq_length, N1; exact Lm|]. split.
  { intros i md Ei. assert (Hi : (i < length ms)%nat) by (apply nth_error_Some; congruence). destruct (Pm i Hi) as [Pi V]. split; [exact Pi|].
    rewrite Ey, nth_error_map, (nth_error_nth' _ 0%nat) by (rewrite seq_length, N1; exact Hi). rewrite seq_nth by (rewrite N1; exact Hi). cbn [option_map plus]. f_equal.
    assert (Lp : length (perm i) = (3 * n)%nat) by (rewrite (Permutation_length Pi), seq_length; reflexivity).
    rewrite N2, <- Lp. rewrite <- (map_nth_seq' (perm i) 0%nat) at 2. rewrite map_map. apply map_ext_in. intros j Ij. apply in_seq in Ij. rewrite Lp in Ij. destruct (V j ltac:(lia)) as [-> _].
    cbn [e mode_table et freq]. fold none. rewrite (nth_error_nth _ _ none Ei). reflexivity. }
  split.
  { intros t md md' Ht Em Em' F j Hj. assert (Hl : (t < length ms)%nat) by (apply nth_error_Some; congruence). specialize (Fo t ltac:(lia) F j Hj).
    destruct (Pm (t - 1)%nat ltac:(lia)) as [_ V]. destruct (Pm t Hl) as [_ V']. destruct (V j Hj) as [_ W]. destruct (V' j Hj) as [_ W'].
    rewrite (Ev _ _ Em) in W. rewrite (Ev _ _ Em') in W'.
    replace (inner n (by_atom md (nth j (perm (t - 1)%nat) 0%nat)) (by_atom md' (nth j (perm t) 0%nat))) with (inner n (evec e' (t - 1)%nat j) (evec e' t j)); [exact Fo|].
    unfold inner. apply Csum_ext. intros at_ _. apply Csum_ext. intros c _. rewrite W, W'. reflexivity. }
  split; [rewrite Ex; apply abscissa_along; exact H0|].
  exists (cli_break_points (snd (cli_insert_gamma (bp_k b0) (bp_labels b0)))). split; [exact St|]. split; [exact Si|]. rewrite Eb in C. exact C.
Qed.
(** Without --reorder, with any sum rule *)
Lemma bands_result junk lookup found tol k kx a u types x l qpts w ms : da_reorder a = false -> labelled_path seekpath -> lookup (da_unit a) = Some l ->
  let n := M_dynmat.n_atoms (o_d x) in
  let b := seekpath (cell_in u (f_cell (o_d x))) (f_atom_r (o_d x)) types (da_spacing a / l) in
  result erfc reigh ceigh argsort chunk junk (mkOpts (doubled (bp_k b) (bp_labels b)) None (da_asr a) true (da_param a) true false false false) x = Ok (qpts, w, ms) ->
  exists s segs, tool junk lookup found tol k kx a (DForce u types x) = Ok (s, segs) /\ length (ys s) = length qpts /\
  (forall i md, nth_error ms i = Some md -> nth_error (ys s) i = Some (map (fun m => m_freq md m * k) (seq 0 (3 * n)))) /\
  along_path (reciprocal_cell (f_cell (o_d x))) kx qpts (xs s) /\
  exists idx, StronglySorted lt idx /\ (forall i, In i idx <-> exists t, starts_region (bp_labels b) t /\ i = shifted (bp_labels b) t) /\ cut_at s idx segs.
Proof.
  intros Hr Hp El n b0 E. set (b := band_path seekpath u types x (da_spacing a / l) true).
  assert (Hp1 : length (bp_k b0) = length (bp_labels b0)) by apply Hp. assert (Hp0 : (0 < length (bp_k b0))%nat) by apply Hp.
  assert (Eb : b = mkBP (fst (cli_insert_gamma (bp_k b0) (bp_labels b0))) (snd (cli_insert_gamma (bp_k b0) (bp_labels b0)))) by reflexivity.
  destruct (insert_doubled _ _ Hp1) as [Q1 Q2].
  assert (Eo : band_options b (da_asr a) (da_param a) = mkOpts (doubled (bp_k b0) (bp_labels b0)) None (da_asr a) true (da_param a) true false false false) by (unfold band_options; rewrite Eb; cbn [bp_k]; rewrite Q1; reflexivity).
  rewrite <- Eo in E.
  rewrite (force_runs seekpath erfc reigh ceigh argsort chunk junk lookup found tol k kx a u types x l qpts w ms El E). fold b.
  destruct (result_shape erfc reigh ceigh argsort chunk _ _ _ _ _ _ E) as [Eq Lm].
  assert (Eqp : qpts = doubled (bp_k b0) (bp_labels b0)).
  { rewrite Eq. unfold the_qpts. rewrite Eo. cbn [p_insert p_qpts]. rewrite Bool.andb_false_r. reflexivity. }
  assert (H0 : (0 < length qpts)%nat).
  { rewrite Eqp, doubled_length. pose proof (shifted_ge (bp_labels b0) (length (bp_labels b0))). lia. }
  set (e := mode_table k (M_dynmat.n_atoms (o_d x)) w ms). set (none := mkModes (fun _ => 0) (fun _ _ => Czero) None).
  assert (N1 : nq (et e) = length ms) by reflexivity. assert (N2 : nm (et e) = (3 * n)%nat) by reflexivity.
  destruct (draw_rows found tol kx a (f_cell (o_d x)) qpts e (cli_tick_labels (bp_labels b)) Hr H0 ltac:(rewrite N1; symmetry; exact Lm)) as (s & Ex & Ey & _ & _ & Cut).
  destruct (shifted_regions _ _ Hp1) as [St Si].
  destruct (Cut (cli_break_points (bp_labels b))) as (segs & Es & C); rewrite ?Eb; cbn [bp_labels]; [exact St| |].
  { intros i I. apply Si in I. destruct I as (t & (T1 & T2 & _) & ->). pose proof (shifted_ge (bp_labels b0) t). pose proof (shifted_mono (bp_labels b0) t (length (bp_labels b0)) T2).
    rewrite Eqp, doubled_length. lia. }
  exists s, segs. rewrite Eb in Es. split; [exact Es|]. split; [rewrite Ey, map_length, seq_length, N1; exact Lm|]. split.
  { intros i md Ei. assert (Hi : (i < length ms)%nat) by (apply nth_error_Some; congruence).
    rewrite Ey, nth_error_map, (nth_error_nth' _ 0%nat) by (rewrite seq_length, N1; exact Hi). rewrite seq_nth by (rewrite N1; exact Hi). cbn [option_map plus]. f_equal.
    rewrite N2. apply map_ext. intros j. cbn [e mode_table et freq]. fold none. rewrite (nth_error_nth _ _ none Ei). reflexivity. }
  split; [rewrite Ex; apply abscissa_along; exact H0|].
  exists (cli_break_points (snd (cli_insert_gamma (bp_k b0) (bp_labels b0)))). split; [exact St|]. split; [exact Si|]. rewrite Eb in C. exact C.
Qed.
End F.

(** With [cdiag] modes are always partnered *)
Lemma inner_id n : orthonormal n (fun m a c => if Nat.eqb (3 * a + c) m then Cone else Czero).
Proof.
  intros m m' Hm Hm'. unfold inner. rewrite <- (flat_sum n (fun i => Cmul (Cconj (if Nat.eqb i m then Cone else Czero)) (if Nat.eqb i m' then Cone else Czero))).
  destruct (Nat.eqb_spec m m') as [<-|N].
  - apply C_eq.
    + rewrite re_Csum. rewrite (Sum_ext _ _ (fun i => if Nat.eqb i m then 1 else 0)) by (intros i _; destruct (Nat.eqb i m); cbn; ring).
      change (sumn (3 * n) (fun i => if Nat.eqb i m then 1 else 0) = 1). rewrite (sumn_delta (3 * n) m (fun _ => 1)) by exact Hm. reflexivity.
    + rewrite im_Csum. cbn [im RtoC]. apply Sum_zero_ext. intros i _. destruct (Nat.eqb i m); cbn; ring.
  - apply C_eq; [rewrite re_Csum|rewrite im_Csum]; cbn [re im RtoC]; apply Sum_zero_ext; intros i _; destruct (Nat.eqb_spec i m) as [->|]; [destruct (Nat.eqb_spec m m'); [congruence|]| |destruct (Nat.eqb_spec m m'); [congruence|]|]; cbn; ring.
Qed.
Lemma cdiag_by_atom n mass D G md : solve cdiag (3 * n) mass D G = Some md -> forall m a c, by_atom md m a c = if Nat.eqb (3 * a + c) m then Cone else Czero.
Proof.
  unfold solve. destruct (cdiag _ _) as [[ev v]|] eqn:E; [|discriminate]. intros H. injection H as <-. intros m a c. unfold by_atom. cbn [m_evec].
  unfold cdiag in E. destruct (offdiag _ _ _); [|discriminate]. assert (V : v = (fun i m => if Nat.eqb i m then Cone else Czero)) by congruence. rewrite V. reflexivity.
Qed.
Lemma cdiag_partnered n mass D G md D' G' md' : solve cdiag (3 * n) mass D G = Some md -> solve cdiag (3 * n) mass D' G' = Some md' -> partnered n (by_atom md) (by_atom md').
Proof.
  intros E E' p Hp. exists p. split; [exact Hp|].
  assert (I : inner n (by_atom md p) (by_atom md' p) = RtoC 1).
  { pose proof (inner_id n p p Hp Hp) as H. rewrite Nat.eqb_refl in H. rewrite <- H. unfold inner. apply Csum_ext. intros a _. apply Csum_ext. intros c _.
    rewrite (cdiag_by_atom _ _ _ _ _ E), (cdiag_by_atom _ _ _ _ _ E'). reflexivity. }
  rewrite I. unfold Cnorm2. cbn. lra.
Qed.
Lemma cdiag_result erfc reigh argsort chunk junk o x qpts w ms : result erfc reigh cdiag argsort chunk junk o x = Ok (qpts, w, ms) ->
  forall t md md', nth_error ms (t - 1) = Some md -> nth_error ms t = Some md' -> partnered (M_dynmat.n_atoms (o_d x)) (by_atom md) (by_atom md').
Proof.
  intros E t md md' H H'. destruct (result_from_solver _ _ _ _ _ _ _ _ _ _ _ E _ _ H) as (D & G & A). destruct (result_from_solver _ _ _ _ _ _ _ _ _ _ _ E _ _ H') as (D' & G' & B).
  exact (cdiag_partnered _ _ _ _ _ _ _ _ A B).
Qed.
