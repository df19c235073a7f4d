(** Lemmas for C93: what the residuals are, and when they vanish. *)
From Coq Require Import String.
From Verif Require Import Base Cpx Vec3 M_path M_broad M_dos M_sf M_bins M_sample M_fixed M_grid M_qpts M_dynmat M_dipole M_struct M_asr M_calc M_brille M_brconv
  S_qpts S_dynmat S_dipole S_asr S_calc S_acoustic S_unique S_brconv L_qpts L_calc L_sf L_acoustic3 L_unique L_unique2 L_brconv.
From Verif Require L_dos2 L_util L_tight3.
Open Scope R_scope.

Lemma nth_prod a b i m : (i < a)%nat -> (m < b)%nat -> nth_error (list_prod (seq 0 a) (seq 0 b)) (i * b + m) = Some (i, m).
Proof.
  intros Hi Hm. assert (G : forall a s i, (i < a)%nat -> nth_error (list_prod (seq s a) (seq 0 b)) (i * b + m) = Some (s + i, m)%nat).
  { clear a i Hi. induction a as [|a IH]; intros s i Hi; [lia|]. cbn [seq list_prod].
    destruct i as [|i].
    - rewrite nth_error_app1 by (rewrite map_length, seq_length; lia). cbn [Nat.mul Nat.add].
      rewrite nth_error_map. rewrite (nth_error_nth' (seq 0 b) 0%nat) by (rewrite seq_length; lia). rewrite seq_nth by lia. cbn [option_map]. f_equal. f_equal. lia.
    - rewrite nth_error_app2 by (rewrite map_length, seq_length; nia). rewrite map_length, seq_length.
      replace (S i * b + m - b)%nat with (i * b + m)%nat by nia. rewrite IH by lia. f_equal. f_equal. lia. }
  rewrite G by exact Hi. reflexivity.
Qed.
Lemma length_pairs t : List.length (pairs t) = (nq t * nm t)%nat.
Proof. unfold pairs. rewrite prod_length, !seq_length. reflexivity. Qed.
Lemma entry_map t f i m : (i < nq t)%nat -> (m < nm t)%nat -> entry (map f (pairs t)) (nm t) i m = f (i, m).
Proof.
  intros Hi Hm. unfold entry. apply nth_error_nth. rewrite nth_error_map. unfold pairs. rewrite nth_prod by assumption. reflexivity.
Qed.
Lemma nth_minus a b j : (j < List.length a)%nat -> (j < List.length b)%nat -> nth j (minus a b) 0 = nth j a 0 - nth j b 0.
Proof.
  revert b j. induction a as [|x a IH]; intros [|y b] j Ha Hb; cbn [List.length] in Ha, Hb; try lia. destruct j as [|j]; [reflexivity|].
  cbn. apply IH; lia.
Qed.
Lemma length_minus a b : List.length (minus a b) = Nat.min (List.length a) (List.length b).
Proof. unfold minus. rewrite map_length, combine_length. reflexivity. Qed.
Lemma minus_self a x : In x (minus a a) -> x = 0.
Proof. induction a as [|y a IH]; cbn; [contradiction|]. intros [<- |H]; [lra|exact (IH H)]. Qed.
Lemma minus_nan_self a : all_zero (minus_nan a a).
Proof. destruct a as [a|]; [|exact I]. intros x. apply minus_self. Qed.
Lemma minus_nan_difference a b : difference b a (minus_nan b a).
Proof.
  destruct a as [a|], b as [b|]; try reflexivity. cbn. exists (minus b a). split; [reflexivity|]. split; [apply length_minus|].
  intros j Hj. rewrite length_minus in Hj. apply nth_minus; lia.
Qed.

Lemma finite_choice {A} (P : nat -> A -> Prop) (x0 : A) n : (forall q, (q < n)%nat -> exists D, P q D) -> exists F, forall q, (q < n)%nat -> P q (F q).
Proof.
  induction n as [|n IH]; intros H; [exists (fun _ => x0); intros; lia|].
  destruct IH as [F HF]; [intros q Hq; apply H; lia|]. destruct (H n) as [D HD]; [lia|].
  exists (fun q => if Nat.eqb q n then D else F q). intros q Hq. destruct (Nat.eqb_spec q n) as [-> |N]; [exact HD|apply HF; lia].
Qed.

Lemma mod1_zero : mod1 0 = 0.
Proof. unfold mod1. assert (E : Int_part 0 = 0%Z); [|rewrite E; lra]. pose proof (base_Int_part 0) as [A B]. assert (X : (-1 < Int_part 0 <= 0)%Z); [|lia].
  split; [apply lt_IZR; lra|apply le_IZR; lra]. Qed.
(** The first q-point is gamma *)
Lemma sample_first phi n : (0 < n)%nat -> nth_error (sample_qpts phi n) 0 = Some vzero.
Proof.
  intros H. unfold sample_qpts, recurrence_sequence. destruct n as [|n]; [lia|]. cbn [seq map nth_error nth INR]. rewrite !Rmult_0_l, mod1_zero. reflexivity.
Qed.
Lemma length_sample phi n : List.length (sample_qpts phi n) = n.
Proof. unfold sample_qpts, recurrence_sequence. rewrite !map_length, seq_length. reflexivity. Qed.

Lemma kwargs_spec th bkw : brille_kwargs th = Ok bkw -> asks_threads th bkw.
Proof.
  destruct th as [[t|]|]; cbn; try discriminate; intros H; assert (E : Ok (E := bcerr) bkw = Ok bkw) by reflexivity; [|congruence].
  exists (Rltb 1 t). split; [congruence|]. apply L_util.Rltb_iff.
Qed.
Lemma sample_spec phi n i : (i < n)%nat -> exists q, nth_error (sample_qpts phi n) i = Some q /\ quasirandom phi i q.
Proof.
  intros H. destruct (L_tight3.recurrence_all phi n 3) as (L & A & B). unfold sample_qpts. rewrite nth_error_map.
  assert (E : nth_error (recurrence_sequence phi n 3) i = Some (nth i (recurrence_sequence phi n 3) [])) by (apply nth_error_nth'; rewrite L; exact H).
  rewrite E. cbn [option_map]. set (p := nth i (recurrence_sequence phi n 3) []) in *. exists (nth 0 p 0, nth 1 p 0, nth 2 p 0). split; [reflexivity|].
  destruct (A p (nth_error_In _ _ E)) as [Lp Ap]. intros d Hd. cbv zeta.
  assert (K : forall d, (d < 3)%nat -> 0 <= nth d p 0 < 1 /\ exists k, nth d p 0 = INR i * (1 / phi) ^ (d + 1) - IZR k).
  { intros e He. split; [apply Ap; apply nth_In; lia|exact (B i e H He)]. }
  destruct d as [|[|[|d]]]; [exact (K 0%nat Hd)|exact (K 1%nat Hd)|exact (K 2%nat Hd)|lia].
Qed.

Lemma result_shape erfc reigh ceigh argsort chunk junk o x qs w ms : result erfc reigh ceigh argsort chunk junk o x = Ok (qs, w, ms) ->
  qs = the_qpts x o /\ List.length ms = List.length qs.
Proof.
  intros H. unfold M_calc.result, M_calc.call in H.
  destruct (weights_ok o); cbn [negb snd] in H; [|discriminate].
  destruct (the_q_dirs x o); [|discriminate].
  destruct (asr_of reigh argsort chunk x o) as [[[kept fc] warn]|]; cbn [snd] in H; [|discriminate].
  match type of H with match calculate ?f _ _ _ _ with _ => _ end = _ => set (calc := f) in H end.
  destruct (calculate_correct _ calc None (p_reduce o) (use_splitting x o) (the_qpts x o)) as (out & E & Ln & P).
  rewrite E in H. destruct (mapE _ out) as [ms'|] eqn:Em; [|discriminate]. apply L_dos2.mapE_inv in Em. destruct Em as [Lm Pm].
  assert (Q : qs = the_qpts x o /\ ms = ms') by (split; congruence). destruct Q as (-> & ->). split; [reflexivity|congruence].
Qed.

Lemma interpolated_qpts interpolate k cpus g qpts kw : b_qpts (interpolated interpolate k cpus g qpts kw) = qpts.
Proof. unfold interpolated. destruct (interpolate g qpts _). reflexivity. Qed.

Section BC.
Context {Zn : Type}.
Variables (zone : M3 -> list V3 -> list nat -> Zn) (volume : Zn -> R) (points : gkind -> Zn -> kwargs -> res (list V3) brerr).
Variables (erfc : R -> R) (reigh : real_eigh) (ceigh : complex_eigh) (argsort : list R -> list nat) (chunk : nat).
Variable interpolate : grid -> list V3 -> kwargs -> (nat -> nat -> nat -> R) * (nat -> nat -> nat -> C).
Variables (coeffs : R -> list R) (kB k kM c cpus room phi u : R) (types : list nat) (qaxis : list V3 -> list R).
Variables (xt : xtal) (sl : nat -> R).
Notation make := (from_force_constants zone volume points erfc reigh ceigh argsort chunk).
Notation one := (one_grid zone volume points erfc reigh ceigh argsort chunk interpolate coeffs kB k kM c cpus u types qaxis xt sl).
Notation tool := (check_brille_settings zone volume points erfc reigh ceigh argsort chunk interpolate coeffs kB k kM c cpus room phi u types qaxis xt sl).
Notation run := (result erfc reigh ceigh argsort chunk).

Lemma the_width_inv a w : the_width (bc_eb a) = Ok (Some w) -> exists v, bc_eb a = Some v /\ (v = POne w \/ v = PMany [w]).
Proof.
  unfold the_width. destruct (bc_eb a) as [[x|[|x [|? ?]]]|]; intros H; try discriminate; assert (x = w) as -> by congruence; eauto.
Qed.
Lemma averaged_inv a bins s y' : averaged coeffs kB k c a bins s = Ok y' -> exists y, calculate_1d_average kB k c bins s true None None = Ok y /\ as_broadened coeffs a bins y y'.
Proof.
  unfold averaged. destruct (calculate_1d_average kB k c bins s true None None) as [y|]; [|discriminate]. intros H. exists y. split; [reflexivity|].
  unfold as_broadened. destruct (the_width (bc_eb a)) as [[w|]|] eqn:W; [| |discriminate].
  - destruct (the_width_inv a w W) as (v & -> & V). destruct (broaden1d coeffs bins y (Fixed w) (bc_shape a) None None Fwhm (1 / 100) ChebyLog) as [[b y2]|] eqn:B; [|discriminate].
    exists w, b. split; [exact V|]. rewrite B. congruence.
  - unfold the_width in W. destruct (bc_eb a) as [[x|[|x [|? ?]]]|]; try discriminate. congruence.
Qed.

Lemma direct_inv a n qs ms e s bins avg sls : direct coeffs kB k c room qaxis xt sl a n qs ms = Ok (e, s, bins, avg, sls) ->
  e = direct_table n ms /\ calculate_structure_factor e xt sl None (fun i => nth i qs vzero) = Ok s /\
  averaged coeffs kB k c a bins s = Ok avg /\ sliced coeffs kB k c qaxis a bins qs s = Ok sls /\ flat_freq k e <> [] /\
  exists f0 fs, flat_freq k e = f0 :: fs /\ get_energy_bins f0 fs (bc_ebins a + 1) (bc_emin a) (bc_emax a) (105 / 100) room = Ok bins.
Proof.
  unfold direct, factors. destruct (calculate_structure_factor (direct_table n ms) xt sl None (fun i => nth i qs vzero)) as [s'|] eqn:E; [|discriminate].
  destruct (flat_freq k (direct_table n ms)) as [|f0 fs] eqn:Fl; [discriminate|].
  destruct (get_energy_bins f0 fs (bc_ebins a + 1) (bc_emin a) (bc_emax a) (105 / 100) room) as [bins'|] eqn:B; [|discriminate].
  destruct (averaged coeffs kB k c a bins' s') as [avg'|] eqn:Av; [|discriminate].
  destruct (sliced coeffs kB k c qaxis a bins' qs s') as [sls'|] eqn:Sl; [|discriminate].
  intros H. assert (direct_table n ms = e /\ s' = s /\ bins' = bins /\ avg' = avg /\ sls' = sls) as (<- & -> & -> & -> & ->) by (repeat split; congruence).
  split; [reflexivity|]. split; [exact E|]. split; [exact Av|]. split; [exact Sl|]. split; [rewrite Fl; discriminate|]. exists f0, fs. split; [exact Fl|exact B].
Qed.

Lemma one_inv a bkw n qpts e s bins avg sls junk den p d x cv d' x' : one a bkw n qpts e s bins avg sls junk den p d x = Ok (cv, d', x') ->
  exists g bs bavg bsls dens d2, make junk u types x (bc_grid a) (if den then 1000 else p) (if den then Some p else None) None (Some d) = Ok (g, d2, x') /\
  let be := brille_table kM n (interpolated interpolate kM cpus g qpts bkw) in
  calculate_structure_factor be xt sl None (fun i => nth i qpts vzero) = Ok bs /\ averaged coeffs kB k c a bins bs = Ok bavg /\
  sliced coeffs kB k c qaxis a bins qpts bs = Ok bsls /\ nq (et e) = nq (et be) /\
  div (INR (List.length (g_rlu g))) (volume (zone (spglib_cell u (f_cell (o_d x))) (f_atom_r (o_d x)) types)) = Ok dens /\
  cv = mkCurve (List.length (g_rlu g)) (py_int dens) bavg bsls (minus (flat_freq k be) (flat_freq k e)) (minus (flat_sf c bs) (flat_sf c s))
                    (minus_nan bavg avg) (map (fun q => minus_nan (fst q) (snd q)) (combine bsls sls)).
Proof.
  unfold one_grid, factors. destruct (make junk u types x (bc_grid a) (if den then 1000 else p) (if den then Some p else None) None (Some d)) as [[[g d2] x2]|] eqn:M; [|discriminate].
  set (be := brille_table kM n (interpolated interpolate kM cpus g qpts bkw)).
  destruct (calculate_structure_factor be xt sl None (fun i => nth i qpts vzero)) as [bs|] eqn:F; [|discriminate].
  destruct (averaged coeffs kB k c a bins bs) as [bavg|] eqn:A; [|discriminate].
  destruct (div (INR (List.length (g_rlu g))) (volume (zone (spglib_cell u (f_cell (o_d x))) (f_atom_r (o_d x)) types))) as [dens|] eqn:Dv; [|discriminate].
  destruct (Nat.eqb_spec (nq (et e)) (nq (et be))) as [N|N]; [|discriminate].
  destruct (sliced coeffs kB k c qaxis a bins qpts bs) as [bsls|] eqn:Sl; [|discriminate].
  intros H. exists g, bs, bavg, bsls, dens, d2. fold be. assert (x2 = x') as -> by congruence. split; [reflexivity|]. split; [exact F|]. split; [exact A|]. split; [exact Sl|]. split; [exact N|]. split; [exact Dv|congruence].
Qed.

Lemma sf_shape e qpt s : calculate_structure_factor e xt sl None qpt = Ok s -> nq (sft s) = nq (et e) /\ nm (sft s) = nm (et e) /\ sf_val s = sf_mode e xt sl None qpt.
Proof. unfold calculate_structure_factor. destruct (has_zero (et e)); [discriminate|]. intros H. assert (E : s = mkSF (mkF (nq (et e)) (nm (et e)) (freq (et e)) (fun _ => 1 / INR (nq (et e)))) (sf_mode e xt sl None qpt) None) by congruence. rewrite E. repeat split. Qed.

(** C93, the residuals of one grid *)
Lemma residuals junk l a r : tool junk l a = Ok r ->
  exists d mass born diel ps bkw qs w ms s y, l = LoadedForce d mass born diel /\ settings a = Some ps /\ brille_kwargs (bc_threads a) = Ok bkw /\
  let n := M_dynmat.n_atoms d in let x := new_fc d mass born diel in
  run (fun _ _ _ => 0) (with_kwargs (re_qpts r) (bc_kwargs a)) x = Ok (qs, w, ms) /\
  calculate_structure_factor (direct_table n ms) xt sl None (fun i => nth i qs vzero) = Ok s /\
  calculate_1d_average kB k c (re_bins r) s true None None = Ok y /\ as_broadened coeffs a (re_bins r) y (re_avg r) /\
  forall i p, nth_error ps i = Some p -> exists cv g d' x' bs y', nth_error (re_curves r) i = Some cv /\
    make (fun _ _ _ => 0) u types x (bc_grid a) (match bc_density a with Some _ => 1000 | None => p end) (match bc_density a with Some _ => Some p | None => None end) None (Some (bc_kwargs a)) = Ok (g, d', x') /\
    cu_n cv = List.length (g_rlu g) /\
    let b := interpolated interpolate kM cpus g (re_qpts r) bkw in
    calculate_structure_factor (brille_table kM n b) xt sl None (fun i => nth i (re_qpts r) vzero) = Ok bs /\
    calculate_1d_average kB k c (re_bins r) bs true None None = Ok y' /\ as_broadened coeffs a (re_bins r) y' (cu_avg cv) /\
    difference (cu_avg cv) (re_avg r) (cu_davg cv) /\
    List.length ms = List.length (re_qpts r) /\
    forall q m md, nth_error ms q = Some md -> (m < 3 * n)%nat ->
      entry (re_freq r) (3 * n) q m = m_freq md m * k /\ entry (cu_dfreq cv) (3 * n) q m = b_freq b q m / kM * k - m_freq md m * k /\
      entry (re_sf r) (3 * n) q m = sf_val s q m * c /\ entry (cu_dsf cv) (3 * n) q m = sf_val bs q m * c - sf_val s q m * c.
Proof.
  intros H. destruct (tool_inv _ _ _ _ _ _ _ _ _ _ _ _ _ _ _ _ _ _ _ _ _ _ _ _ _ _ H) as (d & mass & born & diel & bkw & qs & w & ms & e & s & bins & avg & sls & ps & -> & B & R & G & D & P & cvs & -> & A).
  cbv zeta in R, D, A. set (n := M_dynmat.n_atoms d) in *. set (x := new_fc d mass born diel) in *. set (qpts := sample_qpts phi (bc_npts a)) in *.
  destruct (direct_inv _ _ _ _ _ _ _ _ _ D) as (Ee & Sf & Av & Sl & _). subst e. destruct (averaged_inv _ _ _ _ Av) as (y & Y & YB).
  exists d, mass, born, diel, ps, bkw, qs, w, ms, s, y. split; [reflexivity|]. split; [exact P|]. split; [exact B|]. cbv zeta. cbn [re_qpts re_bins re_avg re_curves re_freq re_sf].
  fold n x. split; [exact (R _)|]. split; [exact Sf|]. split; [exact Y|]. split; [exact YB|].
  intros i p Hp.
  assert (K : exists cv, nth_error cvs i = Some cv /\ alone zone volume points erfc reigh ceigh argsort chunk interpolate coeffs kB k kM c cpus u types qaxis xt sl a bkw n qpts (direct_table n ms) s bins avg sls (match bc_density a with Some _ => true | None => false end) x (bc_kwargs a) p cv).
  { clear - A Hp. revert i Hp. induction A as [|q cv ps' cvs' H1 H2 IH]; intros [|i] Hp; try discriminate.
    - injection Hp as ->. exists cv. split; [reflexivity|exact H1].
    - exact (IH i Hp). }
  destruct K as (cv & Hcv & K). destruct (K (fun _ _ _ => 0)) as (d1 & x1 & K1).
  destruct (one_inv _ _ _ _ _ _ _ _ _ _ _ _ _ _ _ _ _ K1) as (g & bs & bavg & bsls & dens & d2 & M & BF & BA & BS & BN & _ & E).
  destruct (averaged_inv _ _ _ _ BA) as (y' & Y' & YB').
  exists cv, g, d2, x1, bs, y'. split; [exact Hcv|]. split; [destruct (bc_density a); exact M|]. subst cv. cbn [cu_n cu_avg cu_davg cu_dfreq cu_dsf]. split; [reflexivity|]. split; [exact BF|]. split; [exact Y'|]. split; [exact YB'|]. split; [apply minus_nan_difference|].
  assert (BN' : List.length ms = List.length qpts) by (rewrite <- (interpolated_qpts interpolate kM cpus g qpts bkw); exact BN). split; [exact BN'|].
  intros q m md Hq Hm. set (b := interpolated interpolate kM cpus g qpts bkw) in *.
  assert (Hq' : (q < List.length ms)%nat) by (apply nth_error_Some; congruence).
  assert (Mq : nth q ms (mkModes (fun _ => 0) (fun _ _ => Czero) None) = md) by (apply nth_error_nth; exact Hq).
  destruct (sf_shape _ _ _ Sf) as (S1 & S2 & _). destruct (sf_shape _ _ _ BF) as (S3 & S4 & _).
  assert (I1 : (q < nq (et (direct_table n ms)))%nat) by exact Hq'. assert (I2 : (q < nq (et (brille_table kM n b)))%nat) by (rewrite <- BN; exact I1).
  assert (F1 : entry (flat_freq k (direct_table n ms)) (3 * n) q m = m_freq md m * k).
  { unfold flat_freq. change (3 * n)%nat with (nm (et (direct_table n ms))). rewrite entry_map by assumption. cbn [fst snd direct_table et freq]. rewrite Mq. reflexivity. }
  assert (F2 : entry (flat_freq k (brille_table kM n b)) (3 * n) q m = b_freq b q m / kM * k).
  { unfold flat_freq. change (3 * n)%nat with (nm (et (brille_table kM n b))). rewrite entry_map by assumption. reflexivity. }
  assert (F3 : entry (flat_sf c s) (3 * n) q m = sf_val s q m * c).
  { unfold flat_sf. replace (3 * n)%nat with (nm (sft s)) by exact S2. rewrite entry_map; [reflexivity|rewrite S1; exact I1|rewrite S2; exact Hm]. }
  assert (F4 : entry (flat_sf c bs) (3 * n) q m = sf_val bs q m * c).
  { unfold flat_sf. replace (3 * n)%nat with (nm (sft bs)) by exact S4. rewrite entry_map; [reflexivity|rewrite S3; exact I2|rewrite S4; exact Hm]. }
  assert (L : forall nqv, (q < nqv)%nat -> (q * (3 * n) + m < nqv * (3 * n))%nat) by (intros; nia).
  split; [exact F1|]. split.
  { unfold entry in *. rewrite nth_minus; [rewrite F1, F2; reflexivity| |]; unfold flat_freq; rewrite map_length, length_pairs; [apply (L _ I2)|apply (L _ I1)]. }
  split; [exact F3|]. unfold entry in *. rewrite nth_minus; [rewrite F3, F4; reflexivity| |]; unfold flat_sf; rewrite map_length, length_pairs.
  - rewrite S3, S4. apply (L _ I2).
  - rewrite S1, S2. apply (L _ I1).
Qed.
End BC.
