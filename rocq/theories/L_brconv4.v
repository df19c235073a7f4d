(** A run of the tool that succeeds (C93). *)
From Coq Require Import String.
From Verif Require Import Base Cpx Vec3 M_path M_broad M_dos M_sf M_bins M_sample M_fixed M_grid M_qpts M_dynmat M_dipole M_struct M_asr M_calc M_brille M_brconv
  S_qpts S_asr S_calc S_brconv L_nac L_calc4 L_calc7 L_brconv L_brconv2 L_brconv3 L_sf L_spectral S_unique L_unique3.
From Verif Require L_dos2 L_dos L_calc2.
Open Scope R_scope.

(** Every frequency is 1 *)
Definition flat : complex_eigh := fun _ _ => Some ((fun _ => 1), (fun i j => if Nat.eqb i j then Cone else Czero)).
Definition flat_interpolation (g : grid) (qpts : list V3) (kw : kwargs) : (nat -> nat -> nat -> R) * (nat -> nat -> nat -> C) :=
  ((fun _ _ _ => 1), (fun _ i j => if Nat.eqb i j then Cone else Czero)).
Definition two_grids : bcargs := mkBC 2 "nest" (PMany [100; 200]) None 1 None 4 (Some 0) (Some 2) "gauss" (Some None) no_kwargs.
Definition some_xtal : xtal := M_sf.mkX (fun _ => 1) (fun _ => vzero) unit_cell3.

Lemma five_bins : linspace 0 2 5 = [0; 1/2; 1; 3/2; 2].
Proof. unfold linspace. cbn [seq map]. repeat (apply (f_equal2 cons); [cbn; field|]). reflexivity. Qed.
Lemma digitize_five : exists f, digitize (map (fun b => b / 1) (linspace 0 2 5)) = Ok f.
Proof.
  rewrite five_bins. unfold digitize. match goal with |- context [nondecreasing ?l] => assert (E : nondecreasing l = true) end.
  { unfold nondecreasing. cbn [map tl combine forallb fst snd]. repeat match goal with |- context [Rleb ?a ?b] => destruct (Rleb_spec a b); [|lra] end. reflexivity. }
  rewrite E. eexists. reflexivity.
Qed.
Lemma has_zero_none t : (forall q m, (q < nq t)%nat -> (m < nm t)%nat -> freq t q m <> 0) -> has_zero t = false.
Proof.
  intros H. destruct (has_zero t) eqn:Z; [|reflexivity]. exfalso. unfold has_zero in Z. apply existsb_exists in Z. destruct Z as ([q m] & I & E). apply in_prod_iff in I. destruct I as [I1 I2]. apply in_seq in I1, I2.
  destruct (Reqb_spec (freq t (fst (q, m)) (snd (q, m))) 0) as [F|]; [|discriminate]. apply (H q m); [lia|lia|exact F].
Qed.
Lemma table_runs kB c coeffs qaxis xt sl e qpts : nq (et e) = 2%nat -> (forall q m, (q < 2)%nat -> (m < nm (et e))%nat -> freq (et e) q m <> 0) ->
  exists s avg sls, factors xt sl e qpts = Ok s /\ averaged coeffs kB 1 c two_grids (linspace 0 2 5) s = Ok avg /\ sliced coeffs kB 1 c qaxis two_grids (linspace 0 2 5) qpts s = Ok sls.
Proof.
  intros N F. unfold factors, calculate_structure_factor. rewrite has_zero_none by (rewrite N; exact F). rewrite N.
  set (s := mkSF _ _ _). exists s. destruct digitize_five as [f Df].
  assert (M : exists z, sqw_map kB 1 c (linspace 0 2 5) s true None = Ok z).
  { unfold sqw_map. cbn [sf_temp s bose_temperature andb]. rewrite Df. eexists. reflexivity. }
  destruct M as [z M].
  assert (A : exists y, calculate_1d_average kB 1 c (linspace 0 2 5) s true None None = Ok y).
  { unfold calculate_1d_average. rewrite M. cbn [s sft nq wt]. destruct (Reqb_spec (Sum (seq 0 2) (fun _ => 1 / INR 2)) 0) as [E|E]; [|eexists; reflexivity].
    exfalso. cbn [seq] in E. rewrite !Sum_cons, Sum_nil in E. cbn [INR] in E. lra. }
  destruct A as [y A]. unfold averaged, sliced, mapped. rewrite A, M. cbn [two_grids bc_eb the_width bc_n Z.ltb Z.compare]. eexists. eexists. split; [reflexivity|]. split; [reflexivity|].
  cbn [Z.to_nat Pos.to_nat Pos.iter_op seq mapE]. change (slice (nq (sft s)) (Some z) 0) with (@Ok (option (list R)) bcerr (Some (nth 1 z []))). reflexivity.
Qed.
Lemma flat_freq_one : freq_of_eval 1 <> 0.
Proof. unfold freq_of_eval. destruct (Rlt_dec 1 0); [lra|]. rewrite Rabs_R1, sqrt_1. lra. Qed.
Lemma flat_result erfc reigh argsort chunk junk o x : p_asr o = None -> p_weights o = None ->
  exists qs w ms, result erfc reigh flat argsort chunk junk o x = Ok (qs, w, ms) /\ qs = the_qpts x o /\ List.length ms = List.length qs /\
  forall i md m, nth_error ms i = Some md -> m_freq md m <> 0.
Proof.
  intros A W. destruct (result erfc reigh flat argsort chunk junk o x) as [[[qs w] ms]|e] eqn:E.
  - exists qs, w, ms. split; [reflexivity|]. destruct (call_solves erfc reigh argsort chunk flat junk o x qs w ms) as (kp & fc & wn & _ & Q & _ & L & S1); [congruence|exact E|].
    split; [exact Q|]. split; [exact L|]. intros i md m Hi. destruct (nth_error qs i) as [q|] eqn:Hq.
    + destruct (S1 i q Hq) as (md' & G & Hm & Sv). assert (md' = md) as -> by congruence. unfold solve, flat in Sv. injection Sv as <-. exact flat_freq_one.
    + apply nth_error_None in Hq. assert (i < List.length ms)%nat by (apply nth_error_Some; congruence). lia.
  - exfalso. destruct (L_calc2.only_errors _ _ _ _ _ _ _ _ _ E) as [(_ & w & W' & _) | [(s & _ & W' & _) | (_ & M & W')]]; first [congruence|discriminate W'].
Qed.
Lemma tool_runs erfc reigh argsort chunk coeffs kB c cpus room phi qaxis sl junk d mass diel : (0 < M_dynmat.n_atoms d)%nat ->
  exists r, check_brille_settings (fun _ _ _ => tt) (fun _ => 1) (fun _ _ _ => Ok [vzero]) erfc reigh flat argsort chunk flat_interpolation coeffs kB 1 1 c cpus room phi 1 [] qaxis some_xtal sl
    junk (LoadedForce d mass None diel) two_grids = Ok r /\ List.length (re_curves r) = 2%nat /\ List.length (re_slices r) = 1%nat.
Proof.
  intros Hn. set (x := new_fc d mass None diel). set (n := M_dynmat.n_atoms d) in *. set (qpts := sample_qpts phi 2).
  destruct (flat_result erfc reigh argsort chunk (junk 0%nat) (with_kwargs qpts no_kwargs) x eq_refl eq_refl) as (qs & w & ms & E & Q & L & F).
  assert (Eq : qs = qpts) by exact Q. subst qs. assert (L2 : List.length ms = 2%nat) by (rewrite L, Eq; apply length_sample).
  destruct (table_runs kB c coeffs qaxis some_xtal sl (direct_table n ms) qpts) as (s & avg & sls & T1 & T2 & T3); [exact L2| |].
  { intros q m Hq Hm. cbn [direct_table et freq]. destruct (nth_error ms q) as [md|] eqn:Mq; [|apply nth_error_None in Mq; lia]. rewrite (nth_error_nth ms q _ Mq). exact (F q md m Mq). }
  destruct (flat_freq 1 (direct_table n ms)) as [|f0 fs] eqn:Fl.
  { exfalso. unfold flat_freq in Fl. apply map_eq_nil in Fl. apply (f_equal (@List.length _)) in Fl. rewrite length_pairs in Fl. cbn [direct_table et nq nm List.length] in Fl. rewrite L2 in Fl. lia. }
  assert (D : direct coeffs kB 1 c room qaxis some_xtal sl two_grids n qpts ms = Ok (direct_table n ms, s, linspace 0 2 5, avg, sls)).
  { unfold direct. rewrite T1, Fl. unfold get_energy_bins. cbn [two_grids bc_ebins bc_emin bc_emax Nat.add]. destruct (Rleb_spec 2 0); [lra|]. cbn [two_grids] in T2, T3. fold two_grids. rewrite T2, T3. reflexivity. }
  assert (K : forall p, exists cv, alone (fun _ _ _ => tt) (fun _ => 1) (fun _ _ _ => Ok [vzero]) erfc reigh flat argsort chunk flat_interpolation coeffs kB 1 1 c cpus 1 [] qaxis some_xtal sl two_grids [] n qpts (direct_table n ms) s (linspace 0 2 5) avg sls false x no_kwargs p cv).
  { intros p. set (be := brille_table 1 n (interpolated flat_interpolation 1 cpus (mkG [vzero] (fun _ _ _ => 1) (fun _ _ _ => Czero)) qpts [])).
    assert (Lq : nq (et be) = 2%nat) by (unfold be; apply (length_sample phi 2)).
    destruct (table_runs kB c coeffs qaxis some_xtal sl be qpts) as (bs & bavg & bsls & B1 & B2 & B3); [exact Lq| |].
    { intros q m Hq Hm. unfold be. cbn. lra. }
    exists (mkCurve 1 (py_int (INR 1 / 1)) bavg bsls (minus (flat_freq 1 be) (flat_freq 1 (direct_table n ms))) (minus (flat_sf c bs) (flat_sf c s)) (minus_nan bavg avg) (map (fun q => minus_nan (fst q) (snd q)) (combine bsls sls))).
    intros j. unfold one_grid, from_force_constants. cbn [grid_kind two_grids bc_grid String.eqb Ascii.eqb Bool.eqb]. cbn [grid_args].
    destruct (flat_result erfc reigh argsort chunk j (with_kwargs [vzero] (forced no_kwargs)) x eq_refl eq_refl) as (qs' & w' & ms' & E' & _). unfold result in E'. cbn [given]. rewrite E'.
    change (p_grads (with_kwargs [vzero] (forced no_kwargs))) with false. cbv iota.
    change (brille_table 1 n (interpolated flat_interpolation 1 cpus (filled [vzero] ms') qpts [])) with be. fold two_grids.
    rewrite B1, B2. cbn [filled g_rlu List.length]. unfold div. destruct (Reqb_spec 1 0); [lra|].
    assert (Nn : Nat.eqb (nq (et (direct_table n ms))) (nq (et be)) = true) by (apply Nat.eqb_eq; rewrite Lq; exact L2). rewrite Nn, B3. eexists. eexists. reflexivity. }
  destruct (K 100) as [c1 K1]. destruct (K 200) as [c2 K2].
  exists (mkReport qpts (flat_freq 1 (direct_table n ms)) (flat_sf c s) (linspace 0 2 5) avg sls [c1; c2]). split; [|split; [reflexivity|]].
  - apply (tool_ok _ _ _ _ _ _ _ _ _ _ _ _ _ _ _ _ _ _ _ _ _ _ junk d mass None diel two_grids [] qpts w ms (direct_table n ms) s (linspace 0 2 5) avg sls [100; 200] [c1; c2]); [reflexivity|exact E|reflexivity|exact D|reflexivity|].
    constructor; [exact K1|constructor; [exact K2|constructor]].
  - cbn [re_slices]. unfold sliced in T3. cbn [two_grids bc_n Z.ltb Z.compare] in T3. destruct (mapped _ _ _ _ _ _ _ _ _) as [z|]; [|discriminate]. destruct (mapE_len _ _ _ T3) as [X _]. exact X.
Qed.

(** The hypothesis of exactness is met in this run, for atoms of mass 1 *)
Lemma unit_modes n md : (forall m, m_freq md m = 1) -> (forall m i, m_evec md m i = if Nat.eqb i m then Cone else Czero) ->
  modes_of n (fun _ => 1) (fun i j => if Nat.eqb i j then Cone else Czero) md.
Proof.
  intros F E. split.
  - intros m Hm i Hi. rewrite F, E, Rabs_R1.
    rewrite (Csum_ext _ _ (fun j => if Nat.eqb i j then (if Nat.eqb j m then Cone else Czero) else Czero)).
    + rewrite (Csum_delta n (fun j => if Nat.eqb j m then Cone else Czero) i Hi). destruct (Nat.eqb i m); apply C_eq; cbn; ring.
    + intros j _. rewrite E, Rmult_1_l, sqrt_1. destruct (Nat.eqb i j), (Nat.eqb j m); apply C_eq; cbn; field.
  - intros m k Hm Hk. rewrite (Csum_ext _ _ (fun i => if Nat.eqb m i then (if Nat.eqb i k then Cone else Czero) else Czero)).
    + rewrite (Csum_delta n (fun i => if Nat.eqb i k then Cone else Czero) m Hm). reflexivity.
    + intros i _. rewrite !E, (Nat.eqb_sym m i). destruct (Nat.eqb i m), (Nat.eqb i k); apply C_eq; cbn; ring.
Qed.
Lemma flat_same erfc reigh argsort chunk junk o d born diel qs w ms g qpts cpus kw : p_asr o = None ->
  result erfc reigh flat argsort chunk junk o (new_fc d (fun _ => 1) born diel) = Ok (qs, w, ms) ->
  let b := interpolated flat_interpolation 1 cpus g qpts kw in
  same_modes (M_dynmat.n_atoms d) (fun _ => 1) 1 ms b /\ forall q md, nth_error ms q = Some md ->
    ascending (3 * M_dynmat.n_atoms d) (m_freq md) /\ ascending (3 * M_dynmat.n_atoms d) (fun m => b_freq b q m / 1).
Proof.
  intros A E b. destruct (call_solves erfc reigh argsort chunk flat junk o (new_fc d (fun _ => 1) born diel) qs w ms) as (kp & fc & wn & _ & Q & _ & L & S1); [congruence|exact E|].
  assert (X : forall i md, nth_error ms i = Some md -> (forall m, m_freq md m = 1) /\ (forall m i, m_evec md m i = if Nat.eqb i m then Cone else Czero)).
  { intros i md Hi. destruct (nth_error qs i) as [q|] eqn:Hq.
    - destruct (S1 i q Hq) as (md' & G & Hm & Sv). assert (md' = md) as -> by congruence. unfold solve, flat in Sv. injection Sv as <-. cbn [m_freq m_evec].
      split; [|reflexivity]. intros _. unfold freq_of_eval. destruct (Rlt_dec 1 0); [lra|]. rewrite Rabs_R1, sqrt_1. reflexivity.
    - apply nth_error_None in Hq. assert (i < List.length ms)%nat by (apply nth_error_Some; congruence). lia. }
  split.
  - intros i md Hi. destruct (X i md Hi) as [X1 X2]. exists (fun i j => if Nat.eqb i j then Cone else Czero). split; [exact (unit_modes _ md X1 X2)|].
    apply unit_modes; cbn [m_freq m_evec]; [intros m; unfold b; cbn; field|]. intros m j. unfold b. cbn [interpolated flat_interpolation b_evec].
    rewrite <- (Nat.div_mod j 3) by lia. rewrite Nat.eqb_sym. reflexivity.
  - intros q md Hq. destruct (X q md Hq) as [X1 _]. split; intros i j _ _; [rewrite !X1; lra|unfold b; cbn; lra].
Qed.
