(** Lemmas for C93: residuals that vanish, runs that cannot succeed, slices. *)
From Coq Require Import String FunctionalExtensionality.
From Verif Require Import Base Cpx Vec3 M_path M_broad M_dos M_sf M_bins M_sample M_fixed M_grid M_qpts M_dynmat M_dipole M_struct M_asr M_calc M_brille M_brconv
  S_qpts S_dynmat S_dipole S_asr S_calc S_acoustic S_unique S_brconv L_qpts L_calc L_sf L_acoustic3 L_unique L_unique2 L_brconv L_brconv2.
From Verif Require L_dos2.
Open Scope R_scope.

Lemma all_zero_map l l' : l = l' -> Forall all_zero (map (fun q => minus_nan (fst q) (snd q)) (combine l l')).
Proof. intros <-. induction l as [|x l IH]; cbn; [constructor|]. constructor; [apply minus_nan_self|exact IH]. Qed.

Section BC.
Context {Zn : Type}.
Variables (zone : M3 -> list V3 -> list nat -> Zn) (volume : Zn -> R) (points : gkind -> Zn -> kwargs -> res (list V3) brerr).
Variables (erfc : R -> R) (reigh : real_eigh) (ceigh : complex_eigh) (argsort : list R -> list nat) (chunk : nat).
Variable interpolate : grid -> list V3 -> kwargs -> (nat -> nat -> nat -> R) * (nat -> nat -> nat -> C).
Variables (coeffs : R -> list R) (kB k kM c cpus room phi u : R) (types : list nat) (qaxis : list V3 -> list R).
Variables (xt : xtal) (sl : nat -> R).
Notation make := (from_force_constants zone volume points erfc reigh ceigh argsort chunk).
Notation tool := (check_brille_settings zone volume points erfc reigh ceigh argsort chunk interpolate coeffs kB k kM c cpus room phi u types qaxis xt sl).
Notation run := (result erfc reigh ceigh argsort chunk).

Lemma averaged_same a bins s s' : same_maps s s' -> averaged coeffs kB k c a bins s = averaged coeffs kB k c a bins s'.
Proof. intros [_ H]. unfold averaged. rewrite H. reflexivity. Qed.
Lemma sliced_same a bins qpts s s' : same_maps s s' -> nq (sft s) = nq (sft s') -> sliced coeffs kB k c qaxis a bins qpts s = sliced coeffs kB k c qaxis a bins qpts s'.
Proof. intros [H _] N. unfold sliced, mapped. rewrite H, N. reflexivity. Qed.

Lemma tables_same n mass ms b : List.length ms = List.length (b_qpts b) -> same_modes n mass kM ms b ->
  exists D, same_points (direct_table n ms) (brille_table kM n b) /\ table_modes (direct_table n ms) mass D /\ table_modes (brille_table kM n b) mass D.
Proof.
  intros L H.
  destruct (finite_choice (fun q D => modes_of (3 * n) mass D (modes_at (direct_table n ms) q) /\ modes_of (3 * n) mass D (modes_at (brille_table kM n b) q))
    (fun _ _ => Czero) (List.length ms)) as [F HF].
  { intros q Hq. destruct (nth_error ms q) as [md|] eqn:E; [|apply nth_error_None in E; lia]. destruct (H q md E) as (D & H1 & H2). exists D. split; [|exact H2].
    assert (X : modes_at (direct_table n ms) q = mkModes (m_freq md) (m_evec md) None).
    { unfold modes_at, direct_table. cbn [et freq evec]. rewrite (nth_error_nth ms q _ E). f_equal. extensionality m. extensionality i. f_equal. symmetry. apply Nat.div_mod. lia. }
    rewrite X. exact H1. }
  exists F. split; [|split].
  - split; [reflexivity|]. split; [exact L|]. intros q _. unfold direct_table, brille_table. cbn [et wt]. rewrite L. reflexivity.
  - split; [reflexivity|]. intros q Hq. exact (proj1 (HF q Hq)).
  - split; [reflexivity|]. intros q Hq. cbn [brille_table et nq] in Hq. rewrite <- L in Hq. exact (proj2 (HF q Hq)).
Qed.

(** C93, no residuals where the interpolation is exact *)
Lemma exact_zero junk d mass born diel a r ps bkw qs w ms : tool junk (LoadedForce d mass born diel) a = Ok r ->
  i_insert (bc_kwargs a) = None -> settings a = Some ps -> brille_kwargs (bc_threads a) = Ok bkw ->
  run (fun _ _ _ => 0) (with_kwargs (re_qpts r) (bc_kwargs a)) (new_fc d mass born diel) = Ok (qs, w, ms) ->
  forall i p cv g d' x', nth_error ps i = Some p -> nth_error (re_curves r) i = Some cv ->
  make (fun _ _ _ => 0) u types (new_fc d mass born diel) (bc_grid a) (match bc_density a with Some _ => 1000 | None => p end) (match bc_density a with Some _ => Some p | None => None end) None (Some (bc_kwargs a)) = Ok (g, d', x') ->
  let n := M_dynmat.n_atoms d in let b := interpolated interpolate kM cpus g (re_qpts r) bkw in
  same_modes n mass kM ms b ->
  all_zero (cu_davg cv) /\ Forall all_zero (cu_dslices cv) /\
  ((forall q md, nth_error ms q = Some md -> ascending (3 * n) (m_freq md) /\ ascending (3 * n) (fun m => b_freq b q m / kM)) -> all_zero (Some (cu_dfreq cv))).
Proof.
  intros H NI P0 B0 R0 i p cv g d' x' Hp Hcv M0 n b SM.
  destruct (tool_inv _ _ _ _ _ _ _ _ _ _ _ _ _ _ _ _ _ _ _ _ _ _ _ _ _ _ H) as (d1 & mass1 & born1 & diel1 & bkw1 & qs1 & w1 & ms1 & e & s & bins & avg & sls & ps1 & E & B & R & G & D & P & cvs & Er & A).
  assert (d1 = d /\ mass1 = mass /\ born1 = born /\ diel1 = diel) as (-> & -> & -> & ->) by (split; [|split; [|split]]; congruence). clear E.
  assert (ps1 = ps) as -> by congruence. assert (bkw1 = bkw) as -> by congruence. subst r. cbn [re_qpts re_curves] in *.
  cbv zeta in R, D, A. fold n in D, A. set (x := new_fc d mass born diel) in *. set (qpts := sample_qpts phi (bc_npts a)) in *.
  pose proof (R (fun _ _ _ => 0)) as R1. rewrite R0 in R1. assert (qs1 = qs /\ ms1 = ms) as (-> & ->) by (split; congruence). clear R1.
  destruct (direct_inv _ _ _ _ _ _ _ _ _ _ _ _ _ _ _ _ _ D) as (Ee & Sf & Av & Sl & _). subst e.
  assert (K : alone zone volume points erfc reigh ceigh argsort chunk interpolate coeffs kB k kM c cpus u types qaxis xt sl a bkw n qpts (direct_table n ms) s bins avg sls (match bc_density a with Some _ => true | None => false end) x (bc_kwargs a) p cv).
  { clear - A Hp Hcv. revert i Hp Hcv. induction A as [|q cv' ps' cvs' H1 H2 IH]; intros [|i] Hp Hcv; try discriminate.
    - injection Hp as ->. injection Hcv as ->. exact H1.
    - exact (IH i Hp Hcv). }
  destruct (K (fun _ _ _ => 0)) as (d2 & x2 & K1).
  destruct (one_inv _ _ _ _ _ _ _ _ _ _ _ _ _ _ _ _ _ _ _ _ _ _ _ _ _ _ _ _ _ _ _ _ _ _ _ _ _ K1) as (g1 & bs & bavg & bsls & dens & d3 & M & BF & BA & BS & BN & _ & Ecv).
  assert (g1 = g) as ->. { destruct (bc_density a); rewrite M0 in M; congruence. }
  fold b in BF, BN, Ecv. destruct (result_shape _ _ _ _ _ _ _ _ _ _ _ R0) as (Eq & Lm).
  assert (Eqs : qs = qpts). { rewrite Eq. unfold the_qpts, with_kwargs. cbn [p_insert p_qpts]. rewrite NI. cbn [given]. rewrite andb_false_r. reflexivity. }
  subst qs. assert (Lb : List.length ms = List.length (b_qpts b)) by (unfold b; rewrite interpolated_qpts; rewrite Lm, Eqs; reflexivity).
  rewrite Eqs in *. destruct (tables_same n mass ms b Lb SM) as (DD & T1 & T2 & T3).
  pose proof (sf_same _ _ _ _ T1 T2 T3 xt sl (fun i => nth i qpts vzero) None None I) as SS. rewrite Sf, BF in SS. cbn [related] in SS.
  assert (Nq : nq (sft s) = nq (sft bs)).
  { rewrite (proj1 (sf_shape _ _ _ _ _ Sf)), (proj1 (sf_shape _ _ _ _ _ BF)). exact BN. }
  assert (Eavg : bavg = avg). { pose proof (averaged_same a bins s bs SS) as X. congruence. }
  assert (Esl : bsls = sls). { pose proof (sliced_same a bins qpts s bs SS Nq) as X. congruence. }
  rewrite Ecv. cbn [cu_davg cu_dslices cu_dfreq]. rewrite Eavg, Esl. split; [apply minus_nan_self|]. split; [apply all_zero_map; reflexivity|].
  intros As. assert (Ef : flat_freq k (brille_table kM n b) = flat_freq k (direct_table n ms)).
  { unfold flat_freq, pairs. assert (Q : nq (et (brille_table kM n b)) = nq (et (direct_table n ms))) by (symmetry; exact BN). rewrite Q. change (nm (et (brille_table kM n b))) with (3 * n)%nat. change (nm (et (direct_table n ms))) with (3 * n)%nat.
    apply map_ext_in. intros [q m] I2. apply in_prod_iff in I2. destruct I2 as [I1 I2]. apply in_seq in I1, I2. cbn [fst snd]. f_equal.
    change (nq (et (direct_table n ms))) with (List.length ms) in I1.
    destruct (nth_error ms q) as [md|] eqn:E; [|apply nth_error_None in E; lia]. destruct (SM q md E) as (D' & H1 & H2). destruct (As q md E) as [A1 A2].
    cbn [brille_table direct_table et freq]. rewrite (nth_error_nth ms q _ E). symmetry. exact (modes_equal _ _ _ _ _ H1 H2 A1 A2 m ltac:(lia)). }
  rewrite Ef. intros v. apply minus_self.
Qed.

(** C93, gamma: force constants that obey the sum rule *)
Lemma at_gamma_fails junk d mass born diel a : home_first d -> search_complete d -> det3 (zrows (f_sc d)) <> 0 -> fc_symmetric d -> symmetric3 diel -> csolves ceigh ->
  (forall i, (i < M_dynmat.n_atoms d)%nat -> 0 < mass i) -> (0 < M_dynmat.n_atoms d)%nat -> sum_rule d ->
  given (i_asr (bc_kwargs a)) None = None -> charges_fit erfc d born diel (with_kwargs [] (bc_kwargs a)) -> i_insert (bc_kwargs a) = None -> (0 < bc_npts a)%nat ->
  forall r, tool junk (LoadedForce d mass born diel) a <> Ok r.
Proof.
  intros Hh Hc Hd Hf He Hs Hm Hn Hr Ha Hq NI Np r H.
  destruct (tool_inv _ _ _ _ _ _ _ _ _ _ _ _ _ _ _ _ _ _ _ _ _ _ _ _ _ _ H) as (d1 & mass1 & born1 & diel1 & bkw1 & qs & w & ms & e & s & bins & avg & sls & ps1 & E & B & R & G & D & P & cvs & Er & A).
  assert (d1 = d /\ mass1 = mass /\ born1 = born /\ diel1 = diel) as (-> & -> & -> & ->) by (split; [|split; [|split]]; congruence). clear E.
  cbv zeta in R, D. set (qpts := sample_qpts phi (bc_npts a)) in *. set (o := with_kwargs qpts (bc_kwargs a)) in *.
  pose proof (R (fun _ _ _ => 0)) as R0. destruct (result_shape _ _ _ _ _ _ _ _ _ _ _ R0) as (Eq & Lm).
  assert (Eqs : qs = qpts). { rewrite Eq. unfold the_qpts, o, with_kwargs. cbn [p_insert p_qpts]. rewrite NI. cbn [given]. rewrite andb_false_r. reflexivity. }
  destruct (nth_error ms 0) as [md|] eqn:Md.
  2:{ apply nth_error_None in Md. rewrite Lm, Eqs in Md. unfold qpts in Md. rewrite length_sample in Md. lia. }
  destruct (acoustic_result erfc reigh ceigh argsort chunk d mass born diel Hh Hc Hd Hf He Hs Hm Hn Hr [] (fun _ _ _ => 0) o qs w ms Ha Hq R0 0%nat vzero md) as ((lz & ND & L3 & Z) & _).
  - rewrite Eqs. apply sample_first. exact Np.
  - left. reflexivity.
  - exact Md.
  - destruct lz as [|m0 lz]; [discriminate|]. destruct (Z m0 (or_introl eq_refl)) as [Z1 Z2].
    destruct (direct_inv _ _ _ _ _ _ _ _ _ _ _ _ _ _ _ _ _ D) as (Ee & Sf & _). subst e. unfold calculate_structure_factor in Sf.
    rewrite (has_zero_intro _ 0 m0) in Sf; [discriminate| | |].
    + cbn [direct_table et nq]. destruct ms; [discriminate|cbn; lia].
    + exact Z1.
    + cbn [direct_table et freq]. rewrite (nth_error_nth ms 0 _ Md). exact Z2.
Qed.

(** C93, refusals *)
Lemma refuse_other junk a : tool junk LoadedOther a = Err NeedForceConstants. Proof. reflexivity. Qed.
Lemma refuse_threads junk d mass born diel a : bc_threads a = None -> tool junk (LoadedForce d mass born diel) a = Err NoThreadsAttribute.
Proof. intros E. unfold check_brille_settings. rewrite E. reflexivity. Qed.
Lemma refuse_number junk l a r : settings a = None -> tool junk l a <> Ok r.
Proof. intros E H. destruct (tool_inv _ _ _ _ _ _ _ _ _ _ _ _ _ _ _ _ _ _ _ _ _ _ _ _ _ _ H) as (d1 & mass1 & born1 & diel1 & bkw1 & qs & w & ms & e & s & bins & avg & sls & ps1 & _ & _ & _ & _ & _ & P & _). congruence. Qed.
Lemma refuse_widths junk l a v v' ws r : bc_eb a = Some (PMany (v :: v' :: ws)) -> tool junk l a <> Ok r.
Proof.
  intros E H. destruct (tool_inv _ _ _ _ _ _ _ _ _ _ _ _ _ _ _ _ _ _ _ _ _ _ _ _ _ _ H) as (d1 & mass1 & born1 & diel1 & bkw1 & qs & w & ms & e & s & bins & avg & sls & ps1 & _ & _ & _ & _ & D & _).
  destruct (direct_inv _ _ _ _ _ _ _ _ _ _ _ _ _ _ _ _ _ D) as (_ & _ & Av & _). unfold averaged in Av. destruct (calculate_1d_average kB k c bins s true None None); [|discriminate].
  rewrite E in Av. discriminate.
Qed.

(** C93, slices *)
Lemma mapE_len {X Y E} (f : X -> res Y E) l out : mapE f l = Ok out -> List.length out = List.length l /\ forall i x, nth_error l i = Some x -> exists y, nth_error out i = Some y /\ f x = Ok y.
Proof.
  revert out. induction l as [|x l IH]; intros out H; cbn [mapE] in H.
  - injection H as <-. split; [reflexivity|]. intros [|i] y Hy; discriminate.
  - destruct (f x) as [y|] eqn:Fx; [|discriminate]. destruct (mapE f l) as [ys|] eqn:M; [|discriminate]. injection H as <-. destruct (IH ys eq_refl) as [I1 I2].
    split; [cbn; lia|]. intros [|i] z Hz; cbn in Hz; [injection Hz as <-; exists y; split; [reflexivity|exact Fx]|exact (I2 i z Hz)].
Qed.
Lemma slices_at junk l a r : tool junk l a = Ok r -> i_insert (bc_kwargs a) = None ->
  List.length (re_qpts r) = bc_npts a /\ (forall i, nth_error (re_qpts r) i = nth_error (sample_qpts phi (bc_npts a)) i) /\
  (bc_n a <= 0 \/ bc_n a < Z.of_nat (bc_npts a))%Z /\ List.length (re_slices r) = Z.to_nat (bc_n a) /\
  (bc_eb a = None -> forall i, (i < Z.to_nat (bc_n a))%nat ->
    exists d mass born diel qs w ms s z, l = LoadedForce d mass born diel /\ run (fun _ _ _ => 0) (with_kwargs (re_qpts r) (bc_kwargs a)) (new_fc d mass born diel) = Ok (qs, w, ms) /\
      calculate_structure_factor (direct_table (M_dynmat.n_atoms d) ms) xt sl None (fun i => nth i (re_qpts r) vzero) = Ok s /\
      sqw_map kB k c (re_bins r) s true None = Ok z /\ nth_error (re_slices r) i = Some (Some (nth (S i) z []))).
Proof.
  intros H NI. destruct (tool_inv _ _ _ _ _ _ _ _ _ _ _ _ _ _ _ _ _ _ _ _ _ _ _ _ _ _ H) as (d & mass & born & diel & bkw1 & qs & w & ms & e & s & bins & avg & sls & ps1 & E & B & R & G & D & P & cvs & Er & A).
  cbv zeta in R, D. set (qpts := sample_qpts phi (bc_npts a)) in *. set (o := with_kwargs qpts (bc_kwargs a)) in *. subst r. cbn [re_qpts re_slices re_bins].
  pose proof (R (fun _ _ _ => 0)) as R0. destruct (result_shape _ _ _ _ _ _ _ _ _ _ _ R0) as (Eq & Lm).
  assert (Eqs : qs = qpts). { rewrite Eq. unfold the_qpts, o, with_kwargs. cbn [p_insert p_qpts]. rewrite NI. cbn [given]. rewrite andb_false_r. reflexivity. }
  destruct (direct_inv _ _ _ _ _ _ _ _ _ _ _ _ _ _ _ _ _ D) as (Ee & Sf & _ & Sl & _). subst e.
  assert (Nq : nq (sft s) = bc_npts a). { rewrite (proj1 (sf_shape _ _ _ _ _ Sf)). cbn [direct_table et nq]. rewrite Lm, Eqs. apply length_sample. }
  split; [apply length_sample|]. split; [reflexivity|].
  unfold sliced in Sl. destruct (Z.ltb_spec 0 (bc_n a)) as [N|N].
  - destruct (mapped coeffs kB k c qaxis a bins qs s) as [z|] eqn:Mp; [|discriminate].
    destruct (mapE_len _ _ _ Sl) as [L1 L2]. rewrite seq_length in L1.
    assert (S1 : forall i, (i < Z.to_nat (bc_n a))%nat -> (S i < bc_npts a)%nat /\ nth_error sls i = Some (option_map (fun z => nth (S i) z []) z)).
    { intros i Hi. destruct (L2 i i) as (y & Y1 & Y2); [rewrite (nth_error_nth' _ 0%nat) by (rewrite seq_length; lia); rewrite seq_nth by lia; reflexivity|].
      unfold slice in Y2. rewrite Nq in Y2. destruct (Nat.ltb_spec (S i) (bc_npts a)) as [Hl|]; [|discriminate]. split; [exact Hl|]. rewrite Y1. congruence. }
    split; [|split; [exact L1|]].
    + right. destruct (S1 (Z.to_nat (bc_n a) - 1)%nat) as [X _]; [lia|]. lia.
    + intros Eb i Hi. destruct (S1 i Hi) as [_ X]. unfold mapped in Mp. rewrite Eb in Mp. cbn [the_width] in Mp.
      destruct (sqw_map kB k c bins s true None) as [z'|] eqn:SQ; [|discriminate]. injection Mp as <-.
      exists d, mass, born, diel, qs, w, ms, s, z'. split; [exact E|]. split; [exact R0|]. split; [rewrite <- Eqs; exact Sf|]. split; [exact SQ|exact X].
  - injection Sl as <-. split; [left; lia|]. split; [cbn; lia|]. intros _ i Hi. lia.
Qed.
End BC.
