(** Structure factors, Debye-Waller matrices and S(q,w): facts about the whole calls. *)
From Verif Require Import Base L_util Cpx Vec3 M_qpts M_cell L_cell L_nac M_path L_path M_broad S_broad M_dos S_dos L_dos L_dos2 M_sf S_sf L_sf L_sqw.
Open Scope R_scope.

Lemma no_zero t : (forall q m, (q < nq t)%nat -> (m < nm t)%nat -> freq t q m <> 0) -> has_zero t = false.
Proof.
  intros H. destruct (has_zero t) eqn:Z; [|reflexivity]. exfalso. unfold has_zero in Z. apply existsb_exists in Z.
  destruct Z as [[q m] [I Z]]. apply in_prod_iff in I. destruct I as [A B]. apply in_seq in A, B. cbn [fst snd] in Z.
  destruct (Reqb_spec (freq t q m) 0) as [E|E]; [|discriminate]. exact (H q m ltac:(lia) ltac:(lia) E).
Qed.

Definition dw_fits (e : etable) (dw : option dwaller) : Prop := match dw with Some d => dw_n d = n_atoms e | None => True end.

Lemma csf_ok e x sl dw qpt : has_zero (et e) = false -> dw_fits e dw ->
  calculate_structure_factor e x sl dw qpt
  = Ok (mkSF (mkF (nq (et e)) (nm (et e)) (freq (et e)) (fun _ => 1 / INR (nq (et e)))) (sf_mode e x sl dw qpt)
         (match dw with Some d => Some (dw_t d) | None => None end)).
Proof.
  intros Hz Hf. unfold calculate_structure_factor. destruct dw as [d|].
  - cbn in Hf. rewrite Hf, Nat.eqb_refl, Hz. reflexivity.
  - rewrite Hz. reflexivity.
Qed.
Lemma csf_inv e x sl dw qpt s : calculate_structure_factor e x sl dw qpt = Ok s ->
  has_zero (et e) = false /\ dw_fits e dw /\
  s = mkSF (mkF (nq (et e)) (nm (et e)) (freq (et e)) (fun _ => 1 / INR (nq (et e)))) (sf_mode e x sl dw qpt)
         (match dw with Some d => Some (dw_t d) | None => None end).
Proof.
  unfold calculate_structure_factor, dw_fits. destruct dw as [d|].
  - destruct (Nat.eqb_spec (dw_n d) (n_atoms e)) as [E|E]; [|discriminate]. destruct (has_zero (et e)); [discriminate|].
    intros H. injection H as <-. auto.
  - destruct (has_zero (et e)); [discriminate|]. intros H. injection H as <-. auto.
Qed.

Lemma structure_factor_formula e cell M pos sl dw qpt : det3 cell <> 0 ->
  (forall q m, (q < nq (et e))%nat -> (m < nm (et e))%nat -> freq (et e) q m <> 0) ->
  match dw with Some d => dw_n d = n_atoms e | None => True end ->
  exists s, calculate_structure_factor e (mkX M pos (reciprocal_cell cell)) sl dw qpt = Ok s /\
    nq (sft s) = nq (et e) /\ nm (sft s) = nm (et e) /\
    (forall q m, freq (sft s) q m = freq (et e) q m) /\
    sf_temp s = match dw with Some d => Some (dw_t d) | None => None end /\
    forall q m, sf_val s q m = one_phonon cell sl M pos (n_atoms e) dw (evec e q m) (qpt q) (freq (et e) q m) /\ 0 <= sf_val s q m.
Proof.
  intros Hd Hz Hf. eexists. split; [apply csf_ok; [apply no_zero; exact Hz|exact Hf]|]. cbn [sft sf_val sf_temp nq nm freq].
  split; [reflexivity|]. split; [reflexivity|]. split; [reflexivity|]. split; [reflexivity|]. intros q m.
  split; [apply sf_formula; exact Hd|apply sf_mode_nonneg].
Qed.

Lemma structure_factor_nonneg e x sl dw qpt s : calculate_structure_factor e x sl dw qpt = Ok s -> forall q m, 0 <= sf_val s q m.
Proof. intros H q m. apply csf_inv in H. destruct H as [_ [_ ->]]. apply sf_mode_nonneg. Qed.

Lemma structure_factor_invariant e M pos rc sl dw qpt s (u : nat -> nat -> C) (k : R) (t : V3) :
  calculate_structure_factor e (mkX M pos rc) sl dw qpt = Ok s ->
  (forall q m, Cnorm2 (u q m) = 1) ->
  exists s', calculate_structure_factor (mkE (et e) (n_atoms e) (fun q m a l => Cmul (u q m) (evec e q m a l)))
      (mkX M (fun a => vadd (pos a) t) rc) (fun a => k * sl a) dw qpt = Ok s' /\
    forall q m, sf_val s' q m = k ^ 2 * sf_val s q m.
Proof.
  intros H Hu. apply csf_inv in H. destruct H as [Hz [Hf ->]]. eexists. split; [apply csf_ok; [exact Hz|exact Hf]|].
  cbn [sf_val]. intros q m. rewrite sf_scale. rewrite (sf_phase _ _ _ _ _ u) by apply Hu. rewrite sf_translate. reflexivity.
Qed.

(** Time reversal: conjugate eigenvectors at -q. *)
Lemma Csum_conj {A} (l : list A) (f : A -> C) : Cconj (Csum l f) = Csum l (fun a => Cconj (f a)).
Proof. induction l as [|a l IH]; [apply C_eq; cbn; ring|]. rewrite !Csum_cons, <- IH. apply C_eq; cbn; ring. Qed.
Lemma structure_factor_reversal e M pos rc sl dw qpt s :
  calculate_structure_factor e (mkX M pos rc) sl dw qpt = Ok s ->
  exists s', calculate_structure_factor (mkE (et e) (n_atoms e) (fun q m a l => Cconj (evec e q m a l)))
      (mkX M pos rc) sl dw (fun q => vscal (-1) (qpt q)) = Ok s' /\
    forall q m, sf_val s' q m = sf_val s q m.
Proof.
  intros H. apply csf_inv in H. destruct H as [Hz [Hf ->]]. eexists. split; [apply csf_ok; [exact Hz|exact Hf]|].
  cbn [sf_val]. intros q m. rewrite <- (Rmult_1_l (sf_mode e _ sl dw qpt q m)). apply sf_mode_norm; [reflexivity|reflexivity|].
  replace (sf_term _ _ sl dw (fun q => vscal (-1) (qpt q)) q m) with (Cscal (-1) (Cconj (sf_term e (mkX M pos rc) sl dw qpt q m))).
  - rewrite Cnorm2_scal, Cnorm2_conj. ring.
  - unfold sf_term. rewrite Csum_conj, <- Csum_scal. cbn [n_atoms]. apply Csum_ext. intros a _.
    assert (Q : Qvec (mkX M pos rc) (vscal (-1) (qpt q)) = vscal (-1) (Qvec (mkX M pos rc) (qpt q))).
    { unfold Qvec. cbn [recip]. destruct (qpt q) as [[q0 q1] q2], rc as [[[[x1 x2] x3] [[y1 y2] y3]] [[z1 z2] z3]].
      apply V3_eq; unfold vmul, vscal, comp; cbn; ring. }
    assert (QC : forall l, comp (vscal (-1) (Qvec (mkX M pos rc) (qpt q))) l = - comp (Qvec (mkX M pos rc) (qpt q)) l).
    { intros l. destruct (Qvec (mkX M pos rc) (qpt q)) as [[a1 a2] a3]. destruct l as [|[|[|]]]; cbn; ring. }
    assert (EF : exp_factor (mkX M pos rc) dw (vscal (-1) (qpt q)) a = Cconj (exp_factor (mkX M pos rc) dw (qpt q) a)).
    { unfold exp_factor. cbn [M_sf.pos].
      assert (P : cis (2 * PI * dot (vscal (-1) (qpt q)) (pos a)) = Cconj (cis (2 * PI * dot (qpt q) (pos a)))).
      { rewrite <- cis_opp. f_equal. destruct (qpt q) as [[q0 q1] q2], (pos a) as [[p0 p1] p2]. unfold dot, vscal. cbn. ring. }
      rewrite P. destruct dw as [d|]; [|reflexivity]. rewrite Q.
      replace (Sum (seq 0 3) _) with (Sum (seq 0 3) (fun k => Sum (seq 0 3) (fun l => dw_w d a k l * comp (Qvec (mkX M pos rc) (qpt q)) k * comp (Qvec (mkX M pos rc) (qpt q)) l))).
      - apply C_eq; cbn; ring.
      - apply Sum_ext. intros k _. apply Sum_ext. intros l _. rewrite !QC. ring. }
    assert (EV : evec_dot_q (mkE (et e) (n_atoms e) (fun q m a l => Cconj (evec e q m a l))) (mkX M pos rc) (fun q => vscal (-1) (qpt q)) q m a
      = Cscal (-1) (Cconj (evec_dot_q e (mkX M pos rc) qpt q m a))).
    { unfold evec_dot_q. cbn [evec]. rewrite Q, Csum_conj, <- Csum_scal. apply Csum_ext. intros l _. rewrite QC. apply C_eq; cbn; ring. }
    rewrite EF, EV. cbn [mass]. set (z := evec_dot_q _ _ _ _ _ _). set (w := exp_factor _ _ _ _). apply C_eq; cbn; ring.
Qed.

(** C24 *)
Lemma average_uses_weights kB k c bins s cb given w y : 0 < k -> increasing bins -> (2 <= length bins)%nat ->
  calculate_1d_average kB k c bins s cb given (Some w) = Ok y ->
  length y = (length bins - 1)%nat /\ forall i, (i < length bins - 1)%nat ->
  nth i y 0 * (nth (S i) bins 0 - nth i bins 0) * Sum (seq 0 (nq (sft s))) w =
  c * Sum (seq 0 (nq (sft s))) (fun q => w q * Sum (seq 0 (nm (sft s))) (mode_area kB k s (temp_of s cb given) q (nth i bins 0) (nth (S i) bins 0))).
Proof.
  intros Hk Hinc Hlen H. assert (H' := H). unfold calculate_1d_average in H.
  destruct (sqw_map kB k c bins s cb given) as [p|] eqn:Hp; [|discriminate].
  destruct (Reqb_spec (Sum (seq 0 (nq (sft s))) w) 0) as [Z|Z]; [discriminate|].
  split; [injection H as <-; rewrite map_length, seq_length; reflexivity|]. intros i Hi.
  pose proof (average_spec _ _ _ _ _ _ _ _ _ _ Hp H' i Hi) as A. cbv beta zeta iota in A. rewrite A.
  destruct (sqw_map_spec kB k c bins s cb given p Hk Hinc Hlen Hp) as [_ S].
  set (d := nth (Datatypes.S i) bins 0 - nth i bins 0) in *.
  transitivity (Sum (seq 0 (nq (sft s))) (fun q => d * (w q * nth i (nth q p []) 0))); [rewrite Sum_scal; field; exact Z|].
  rewrite <- Sum_scal. apply Sum_ext. intros q Hq. apply in_seq in Hq. destruct (S q ltac:(lia)) as [_ V]. specialize (V i Hi). fold d in V.
  replace (d * (w q * nth i (nth q p []) 0)) with (w q * (nth i (nth q p []) 0 * d)) by ring. rewrite V. ring.
Qed.

Lemma average_equal_weights e x sl dw qpt s kB k c bins cb given w0 : calculate_structure_factor e x sl dw qpt = Ok s ->
  w0 <> 0 -> (0 < nq (et e))%nat -> (forall q, wt (et e) q = w0) ->
  calculate_1d_average kB k c bins s cb given None = calculate_1d_average kB k c bins s cb given (Some (wt (et e))).
Proof.
  intros H Hw Hn Hq. apply csf_inv in H. destruct H as [_ [_ ->]]. unfold calculate_1d_average. cbn [sft nq wt].
  destruct (sqw_map _ _ _ _ _ _ _) as [p|]; [|reflexivity].
  set (n := nq (et e)) in *. assert (Hi : INR n <> 0) by (apply not_0_INR; lia).
  assert (T1 : Sum (seq 0 n) (fun _ => 1 / INR n) = 1) by (rewrite Sum_const, seq_length; field; exact Hi).
  assert (T2 : Sum (seq 0 n) (wt (et e)) = INR n * w0) by (rewrite (Sum_ext _ _ (fun _ => w0)) by (intros; apply Hq); rewrite Sum_const, seq_length; ring).
  rewrite T1, T2. destruct (Reqb_spec 1 0) as [Z|_]; [lra|]. destruct (Reqb_spec (INR n * w0) 0) as [Z|_]; [apply Rmult_integral in Z; tauto|].
  f_equal. apply map_ext. intros i.
  rewrite (Sum_ext _ (fun q => wt (et e) q * _) (fun q => w0 * nth i (nth q p []) 0)) by (intros; rewrite Hq; reflexivity).
  rewrite !Sum_scal. field. split; assumption.
Qed.

Definition wit_e : etable := mkE (mkF 2 3 (fun _ _ => 1) (fun q => INR (1 + 2 * q))) 1 (fun _ m _ l => if Nat.eqb m l then RtoC 1 else RtoC 0).
Definition wit_x : xtal := mkX (fun _ => 1) (fun _ => (0, 0, 0)) (reciprocal_cell unit_cell3).
Definition wit_q (q : nat) : V3 := (INR (S q), 0, 0).
Lemma wit_sf q m : (m < 3)%nat -> sf_mode wit_e wit_x (fun _ => 1) None wit_q q m = if Nat.eqb m 0 then 2 * PI ^ 2 * INR (S q) ^ 2 else 0.
Proof.
  intros Hm. unfold sf_mode. cbv zeta. rewrite Cabs_sq. cbn [wit_e et freq n_atoms INR]. rewrite Rabs_R1.
  unfold sf_term. cbn [n_atoms wit_e seq]. rewrite Csum_cons, Csum_nil.
  assert (E0 : forall z, Cadd z Czero = z) by (intros; apply C_eq; cbn; ring). rewrite E0, Cnorm2_scal, Cnorm2_mul.
  unfold exp_factor. rewrite Cnorm2_cis. cbn [wit_x mass]. rewrite sqrt_1.
  unfold evec_dot_q. cbn [evec wit_e seq]. rewrite !Csum_cons, Csum_nil, E0. unfold Qvec. cbn [recip wit_x]. rewrite unit_recip.
  unfold wit_q. set (x := INR (S q)). destruct m as [|[|[|]]]; [| | |lia]; unfold Cnorm2, vmul, comp; cbn; field.
Qed.

Lemma weights_dropped : exists e x sl qpt s kB k c bins y y',
  (forall q, (q < nq (et e))%nat -> 0 < wt (et e) q) /\ (forall q m, 0 < freq (et e) q m) /\
  calculate_structure_factor e x sl None qpt = Ok s /\ 0 < k /\ 0 < c /\ increasing bins /\
  calculate_1d_average kB k c bins s false None None = Ok y /\
  calculate_1d_average kB k c bins s false None (Some (wt (et e))) = Ok y' /\ nth 0 y 0 <> nth 0 y' 0.
Proof.
  assert (Hz : has_zero (et wit_e) = false) by (apply no_zero; intros; cbn; lra).
  pose (s := mkSF (mkF 2 3 (fun _ _ => 1) (fun _ => 1 / INR 2)) (sf_mode wit_e wit_x (fun _ => 1) None wit_q) None).
  assert (Hs : calculate_structure_factor wit_e wit_x (fun _ => 1) None wit_q = Ok s) by (apply csf_ok; [exact Hz|exact I]).
  assert (Hinc : increasing [0; 2]).
  { intros i j Hij Hj; cbn in Hj; destruct i as [|[|]], j as [|[|]]; try lia; cbn; lra. }
  assert (B : forall w, Sum (seq 0 2) w <> 0 -> exists y, calculate_1d_average 1 1 1 [0; 2] s false None (Some w) = Ok y /\
      nth 0 y 0 * 2 * Sum (seq 0 2) w = (w 0%nat + 4 * w 1%nat) * (2 * PI ^ 2)).
  { intros w Hw. destruct (sqw_map_ok 1 1 1 [0; 2] s false None ltac:(lra) Hinc ltac:(apply no_zero; intros; cbn; lra) I) as [p Hp].
    assert (exists y, calculate_1d_average 1 1 1 [0; 2] s false None (Some w) = Ok y) as [y Hy].
    { unfold calculate_1d_average. rewrite Hp. cbn [s sft nq]. destruct (Reqb_spec (Sum (seq 0 2) w) 0); [contradiction|]. eexists; reflexivity. }
    exists y. split; [exact Hy|]. destruct (average_uses_weights 1 1 1 [0; 2] s false None w y ltac:(lra) Hinc ltac:(cbn; lia) Hy) as [_ A].
    specialize (A 0%nat ltac:(cbn; lia)). cbn [nth length s sft nq nm] in A. rewrite Rminus_0_r in A. rewrite A.
    assert (MA : forall q m, (m < 3)%nat -> mode_area 1 1 s (temp_of s false None) q 0 2 m = if Nat.eqb m 0 then 2 * PI ^ 2 * INR (S q) ^ 2 else 0).
    { intros q m Hm. unfold mode_area, inside. cbn [s sft freq temp_of at_plus at_minus sf_val]. fold s.
      rewrite (Rleb_true 0 (1 * 1)), (Rltb_true (1 * 1) 2), (Rleb_false 0 (- (1 * 1))) by lra. cbn [andb]. rewrite (wit_sf q m Hm). lra. }
    rewrite (Sum_ext _ _ (fun q => w q * (2 * PI ^ 2 * INR (S q) ^ 2))).
    - cbn [seq]. rewrite !Sum_cons, Sum_nil. rewrite !S_INR. cbn [INR]. ring.
    - intros q _. f_equal. rewrite (Sum_ext _ _ (fun m => if Nat.eqb m 0 then 2 * PI ^ 2 * INR (S q) ^ 2 else 0)).
      + cbn [seq]. rewrite !Sum_cons, Sum_nil. cbn [Nat.eqb]. ring.
      + intros m Hm. apply in_seq in Hm. apply MA. lia. }
  destruct (B (fun _ => 1 / INR 2)) as [y [Hy Vy]]; [cbn [seq]; rewrite !Sum_cons, Sum_nil; cbn [INR]; lra|].
  destruct (B (wt (et wit_e))) as [y' [Hy' Vy']]; [cbn [seq]; rewrite !Sum_cons, Sum_nil; cbn; lra|].
  exists wit_e, wit_x, (fun _ => 1), wit_q, s, 1, 1, 1, [0; 2], y, y'.
  split; [intros q _; cbn [wit_e et wt]; apply lt_0_INR; lia|]. split; [intros; cbn; lra|]. split; [exact Hs|]. split; [lra|]. split; [lra|].
  split; [exact Hinc|]. split; [exact Hy|]. split; [exact Hy'|].
  cbn [seq] in Vy, Vy'. rewrite !Sum_cons, Sum_nil in Vy, Vy'. cbn in Vy, Vy'. pose proof PI_RGT_0.
  intros E. rewrite E in Vy. assert (0 < PI * PI) by nra. lra.
Qed.

(** C25 *)
Lemma cdw_inv chunk e x kB T fmin ops d : (0 < chunk)%nat -> calculate_debye_waller chunk e x kB T fmin ops = Ok d ->
  has_zero (et e) = false /\ total_weight (et e) <> 0 /\ dw_n d = n_atoms e /\ dw_t d = T /\ ops <> Some [] /\
  forall a i j, dw_w d a i j = match ops with
    | None => dw_formula e (mass x) kB T fmin a i j
    | Some os => symmetrise (n_atoms e) os (fun a l l' => dw_raw chunk e x kB T fmin a l l' / total_weight (et e)) a i j end.
Proof.
  intros Hc H. unfold calculate_debye_waller in H. fold (total_weight (et e)) in H.
  destruct (has_zero (et e)) eqn:Hz; [discriminate|]. cbn [orb] in H. destruct (Reqb_spec (total_weight (et e)) 0) as [Z|Z]; [discriminate|].
  destruct ops as [[|o os]|]; [discriminate| |]; injection H as <-; (split; [reflexivity|]); (split; [exact Z|]); (split; [reflexivity|]); (split; [reflexivity|]);
  (split; [discriminate|]); intros a i j; cbn [dw_w]; [reflexivity|].
  rewrite dw_raw_all by exact Hc. apply dw_all_formula. exact Hz.
Qed.

Lemma symmetrise_ext n ops w w' j i m : (forall k a b, (k < n)%nat -> w k a b = w' k a b) -> symmetrise n ops w j i m = symmetrise n ops w' j i m.
Proof.
  intros H. rewrite !symmetrise_sum. f_equal. apply Sum_ext. intros o _. unfold source_term.
  destruct (last_source n (image o) j) as [k|] eqn:E; [|reflexivity]. apply last_source_in in E.
  unfold conjugate. apply Sum_ext. intros a _. apply Sum_ext. intros b _. rewrite H by lia. reflexivity.
Qed.

(** The matrices of a successful call, in closed form. *)
Definition dw_result (e : etable) (M : nat -> R) (kB T fmin : R) (ops : option (list symop)) (a i j : nat) : R :=
  match ops with
  | None => dw_formula e M kB T fmin a i j
  | Some os => / INR (length os) * Sum os (source_term (n_atoms e) (dw_formula e M kB T fmin) a i j)
  end.
Lemma cdw_value chunk e x kB T fmin ops d a i j : (0 < chunk)%nat -> calculate_debye_waller chunk e x kB T fmin ops = Ok d ->
  dw_w d a i j = dw_result e (mass x) kB T fmin ops a i j.
Proof.
  intros Hc H. destruct (cdw_inv _ _ _ _ _ _ _ _ Hc H) as [Hz [_ [_ [_ [_ V]]]]]. rewrite V. destruct ops as [os|]; [|reflexivity].
  unfold dw_result. rewrite <- symmetrise_sum. apply symmetrise_ext. intros k l l' _. rewrite dw_raw_all by exact Hc. apply dw_all_formula. exact Hz.
Qed.

Lemma cdw_runs chunk e x kB T fmin ops : (0 < chunk)%nat ->
  (forall q m, (q < nq (et e))%nat -> (m < nm (et e))%nat -> freq (et e) q m <> 0) -> total_weight (et e) <> 0 -> ops <> Some [] ->
  exists d, calculate_debye_waller chunk e x kB T fmin ops = Ok d /\ dw_n d = n_atoms e /\ dw_t d = T.
Proof.
  intros Hc Hz Ht Ho. unfold calculate_debye_waller. fold (total_weight (et e)). rewrite (no_zero _ Hz). cbn [orb].
  destruct (Reqb_spec (total_weight (et e)) 0); [contradiction|]. destruct ops as [[|o os]|]; [congruence| |]; eexists; repeat split; reflexivity.
Qed.

Lemma debye_waller_psd chunk e x kB T fmin ops : (0 < chunk)%nat -> 0 < kB -> 0 <= fmin ->
  (forall a, (a < n_atoms e)%nat -> 0 < mass x a) ->
  (forall q m, (q < nq (et e))%nat -> (m < nm (et e))%nat -> freq (et e) q m <> 0) ->
  (forall q, (q < nq (et e))%nat -> 0 <= wt (et e) q) -> 0 < total_weight (et e) -> ops <> Some [] ->
  exists d, calculate_debye_waller chunk e x kB T fmin ops = Ok d /\ dw_n d = n_atoms e /\ dw_t d = T /\
    forall a, (a < n_atoms e)%nat -> psd3 (dw_w d a) /\ symmetric3 (dw_w d a).
Proof.
  intros Hc Hk Hf HM Hz Hw Ht Ho. destruct (cdw_runs chunk e x kB T fmin ops Hc Hz ltac:(lra) Ho) as [d [Hd [Hn HT]]].
  exists d. split; [exact Hd|]. split; [exact Hn|]. split; [exact HT|]. intros a Ha.
  destruct (cdw_inv _ _ _ _ _ _ _ _ Hc Hd) as [Hz' [_ [_ [_ [_ V]]]]].
  assert (P : forall k, (k < n_atoms e)%nat -> psd3 (dw_formula e (mass x) kB T fmin k) /\ symmetric3 (dw_formula e (mass x) kB T fmin k)).
  { intros k Hk'. apply dw_formula_psd; auto. }
  assert (G : psd3 (dw_result e (mass x) kB T fmin ops a) /\ symmetric3 (dw_result e (mass x) kB T fmin ops a)).
  { destruct ops as [os|]; [|exact (P a Ha)]. destruct (symmetrise_psd (n_atoms e) os (dw_formula e (mass x) kB T fmin) a P) as [A B]. split.
    - eapply psd_ext; [|exact A]. intros i j. apply symmetrise_sum.
    - intros i j Hi Hj. unfold dw_result. rewrite <- !symmetrise_sum. apply B; assumption. }
  destruct G as [A B]. split.
  - eapply psd_ext; [|exact A]. intros i j. symmetry. exact (cdw_value _ _ _ _ _ _ _ _ a i j Hc Hd).
  - intros i j Hi Hj. rewrite !(cdw_value _ _ _ _ _ _ _ _ a _ _ Hc Hd). apply B; assumption.
Qed.

Lemma debye_waller_chunks chunk chunk' e x kB T fmin ops : (0 < chunk)%nat -> (0 < chunk')%nat ->
  match calculate_debye_waller chunk e x kB T fmin ops, calculate_debye_waller chunk' e x kB T fmin ops with
  | Ok d, Ok d' => dw_n d = dw_n d' /\ dw_t d = dw_t d' /\ forall a i j, dw_w d a i j = dw_w d' a i j
  | Err r, Err r' => r = r'
  | _, _ => False
  end.
Proof.
  intros Hc Hc'. destruct (calculate_debye_waller chunk e x kB T fmin ops) as [d|r] eqn:E, (calculate_debye_waller chunk' e x kB T fmin ops) as [d'|r'] eqn:E'.
  - destruct (cdw_inv _ _ _ _ _ _ _ _ Hc E) as [_ [_ [A [B _]]]], (cdw_inv _ _ _ _ _ _ _ _ Hc' E') as [_ [_ [A' [B' _]]]].
    split; [congruence|]. split; [congruence|]. intros a i j.
    rewrite (cdw_value _ _ _ _ _ _ _ _ a i j Hc E), (cdw_value _ _ _ _ _ _ _ _ a i j Hc' E'). reflexivity.
  - unfold calculate_debye_waller in E, E'. destruct (_ || _)%bool; [discriminate|]. destruct ops as [[|]|]; discriminate.
  - unfold calculate_debye_waller in E, E'. destruct (_ || _)%bool; [discriminate|]. destruct ops as [[|]|]; discriminate.
  - unfold calculate_debye_waller in E, E'. destruct (_ || _)%bool; [congruence|]. destruct ops as [[|]|]; congruence.
Qed.

Lemma debye_waller_formula chunk e x kB T fmin d : (0 < chunk)%nat -> calculate_debye_waller chunk e x kB T fmin None = Ok d ->
  forall a i j, dw_w d a i j = dw_formula e (mass x) kB T fmin a i j.
Proof. intros Hc H a i j. exact (cdw_value _ _ _ _ _ _ _ _ a i j Hc H). Qed.

Lemma debye_waller_cutoff chunk e e' x kB T fmin ops d d' : (0 < chunk)%nat ->
  nq (et e') = nq (et e) -> nm (et e') = nm (et e) -> n_atoms e' = n_atoms e -> (forall q, wt (et e') q = wt (et e) q) ->
  (forall q m, (freq (et e) q m < fmin /\ freq (et e') q m < fmin) \/
     (freq (et e') q m = freq (et e) q m /\ forall a l, evec e' q m a l = evec e q m a l)) ->
  calculate_debye_waller chunk e x kB T fmin ops = Ok d -> calculate_debye_waller chunk e' x kB T fmin ops = Ok d' ->
  forall a i j, dw_w d' a i j = dw_w d a i j.
Proof.
  intros Hc En Em Ea Ew H Hd Hd' a i j.
  assert (F : forall a i j, dw_formula e' (mass x) kB T fmin a i j = dw_formula e (mass x) kB T fmin a i j).
  { clear a i j. intros a i j. unfold dw_formula. rewrite En, Em. rewrite (Sum_ext _ (wt (et e')) (wt (et e))) by (intros; apply Ew). f_equal.
    apply Sum_ext. intros q _. rewrite Ew. f_equal. rewrite !Sum_filter. apply Sum_ext. intros m _.
    destruct (H q m) as [[A B]|[A B]].
    - rewrite !Rleb_false by lra. reflexivity.
    - rewrite A, !B. reflexivity. }
  rewrite (cdw_value _ _ _ _ _ _ _ _ a i j Hc Hd), (cdw_value _ _ _ _ _ _ _ _ a i j Hc Hd').
  destruct ops as [os|]; [|apply F]. unfold dw_result. rewrite Ea. rewrite <- !symmetrise_sum. apply symmetrise_ext. intros; apply F.
Qed.

Lemma zero_frequency_nan : exists e x kB T fmin, 0 < kB /\ 0 < T /\ 0 < fmin /\ 0 < total_weight (et e) /\
  (exists q m, (q < nq (et e))%nat /\ (m < nm (et e))%nat /\ 0 < freq (et e) q m) /\
  forall chunk ops, calculate_debye_waller chunk e x kB T fmin ops = Err NonFinite.
Proof.
  exists (mkE (mkF 1 3 (fun _ m => INR m) (fun _ => 1)) 1 (fun _ _ _ _ => RtoC 1)), wit_x, 1, 1, (1 / 10).
  split; [lra|]. split; [lra|]. split; [lra|]. split; [unfold total_weight; cbn [et nq wt seq]; rewrite Sum_cons, Sum_nil; lra|].
  split; [exists 0%nat, 1%nat; cbn; split; [lia|split; [lia|lra]]|]. intros chunk ops. unfold calculate_debye_waller.
  rewrite (has_zero_intro _ 0 0) by (cbn; first [lia|reflexivity]). reflexivity.
Qed.

(** C57 *)
Lemma rot_cart_mul cell r s i j : det3 cell <> 0 ->
  rot_cart (fun i j => Sum (seq 0 3) (fun k => r i k * s k j)) cell (reciprocal_cell cell) i j
  = Sum (seq 0 3) (fun k => rot_cart r cell (reciprocal_cell cell) i k * rot_cart s cell (reciprocal_cell cell) k j).
Proof.
  intros Hd. pose proof (reciprocal_dual cell Hd) as D. set (rc := reciprocal_cell cell) in *. pose proof PI_RGT_0 as HP.
  unfold rot_cart.
  assert (E : forall x y, (x < 3)%nat -> (y < 3)%nat -> Sum (seq 0 3) (fun k => comp (row rc x) k * comp (row cell y) k) = if Nat.eqb x y then 2 * PI else 0).
  { intros x y Hx Hy. pose proof (D y x Hy Hx) as F. rewrite (Nat.eqb_sym x y). rewrite <- F.
    destruct (row rc x) as [[a1 a2] a3], (row cell y) as [[b1 b2] b3]. unfold dot. cbn. unfold Sum. cbn. ring. }
  transitivity (Sum (seq 0 3) (fun a => Sum (seq 0 3) (fun b => Sum (seq 0 3) (fun c => Sum (seq 0 3) (fun d =>
     r a b * s c d * comp (row cell a) i * comp (row rc d) j * Sum (seq 0 3) (fun k => comp (row rc b) k * comp (row cell c) k))))) / (2 * PI) / (2 * PI)).
  - rewrite (Sum_ext (seq 0 3) (fun a => Sum _ (fun b => Sum _ (fun c => Sum _ (fun d => _ * Sum _ _))))
      (fun a => Sum (seq 0 3) (fun b => Sum (seq 0 3) (fun d => r a b * s b d * comp (row cell a) i * comp (row rc d) j * (2 * PI))))).
    + unfold Sum, Rsum. cbn [seq map fold_right]. field. lra.
    + intros a _. apply Sum_ext. intros b Hb. apply in_seq in Hb. rewrite Sum_exchange. apply Sum_ext. intros d _.
      rewrite (Sum_ext _ _ (fun c => r a b * s c d * comp (row cell a) i * comp (row rc d) j * (if Nat.eqb b c then 2 * PI else 0))).
      * cbn [seq]. rewrite !Sum_cons, !Sum_nil. destruct b as [|[|[|]]]; [| | |lia]; cbn [Nat.eqb]; ring.
      * intros c Hc. apply in_seq in Hc. rewrite E by lia. reflexivity.
  - clear E D. unfold Sum, Rsum. cbn [seq map fold_right]. field. lra.
Qed.

Lemma cart_ops_closed n cell l : det3 cell <> 0 -> group_table n l -> closed_ops n (cart_ops cell l).
Proof.
  intros Hd H g Hg. unfold cart_ops in Hg. apply in_map_iff in Hg. destruct Hg as [p [<- Hp]]. destruct (H p Hp) as [sigma [P Hs]].
  exists sigma. unfold cart_ops. rewrite map_length. split; [exact P|]. intros s d Hsl.
  assert (Hss : (sigma s < length l)%nat) by (destruct (perm_inj _ _ P) as [_ [R _]]; apply R; exact Hsl).
  rewrite !(map_nth_indep _ l _ p d) by assumption. cbn [rotc image]. destruct (Hs s p Hsl) as [A B]. split.
  - intros i j Hi Hj. rewrite <- rot_cart_mul by exact Hd. unfold rot_cart. f_equal. apply Sum_ext. intros a Ha. apply Sum_ext. intros b Hb.
    apply in_seq in Ha, Hb. rewrite A by lia. reflexivity.
  - exact B.
Qed.

Lemma debye_waller_invariant chunk e x kB T fmin cell l d : (0 < chunk)%nat -> det3 cell <> 0 ->
  group_table (n_atoms e) l -> (forall p, In p l -> Permutation (map (snd p) (seq 0 (n_atoms e))) (seq 0 (n_atoms e))) ->
  calculate_debye_waller chunk e x kB T fmin (Some (cart_ops cell l)) = Ok d ->
  forall rot im k i m, In (rot, im) l -> (k < n_atoms e)%nat -> (i < 3)%nat -> (m < 3)%nat ->
  dw_w d (im k) i m = Sum (seq 0 3) (fun a => Sum (seq 0 3) (fun b =>
    rot_cart rot cell (reciprocal_cell cell) i a * dw_w d k a b * rot_cart rot cell (reciprocal_cell cell) m b)).
Proof.
  intros Hc Hd Hg Hp Hr rot im k i m Hin Hk Hi Hm.
  assert (HP : permutes_atoms (n_atoms e) (cart_ops cell l)).
  { intros o Ho. unfold cart_ops in Ho. apply in_map_iff in Ho. destruct Ho as [p [<- Ho]]. exact (Hp p Ho). }
  assert (Hin' : In (mkOp (rot_cart rot cell (reciprocal_cell cell)) im) (cart_ops cell l)).
  { unfold cart_ops. apply in_map_iff. exists (rot, im). split; [reflexivity|exact Hin]. }
  pose proof (cdw_inv _ _ _ _ _ _ _ _ Hc Hr) as [_ [_ [_ [_ [_ V]]]]]. cbv beta iota in V.
  rewrite V. rewrite (symmetrise_invariant (n_atoms e) _ _ _ k i m HP (cart_ops_closed _ _ _ Hd Hg) Hin' Hk Hi Hm).
  unfold conjugate. cbn [rotc]. apply Sum_ext. intros a _. apply Sum_ext. intros b _. rewrite V. reflexivity.
Qed.

Lemma inversion_group : let l := [ (fun i j => if Nat.eqb i j then 1 else 0, fun k => k);
                                    (fun i j => if Nat.eqb i j then -1 else 0, fun k => (1 - k)%nat) ] in
  det3 unit_cell3 <> 0 /\ group_table 2 l /\ (forall p, In p l -> Permutation (map (snd p) (seq 0 2)) (seq 0 2)).
Proof.
  intros l. split; [cbn; lra|]. split.
  - intros g Hg. destruct Hg as [<-|[<-|[]]].
    + exists (fun s => s). split; [reflexivity|]. intros s d Hs. destruct s as [|[|s]]; [| |cbn in Hs; lia]; cbn [nth l fst snd]; split;
      try (intros i j Hi Hj; destruct i as [|[|[|]]], j as [|[|[|]]]; try lia; unfold Sum, Rsum; cbn; ring);
      intros k Hk; reflexivity.
    + exists (fun s => (1 - s)%nat). split; [apply perm_swap|]. intros s d Hs. destruct s as [|[|s]]; [| |cbn in Hs; lia]; cbn [nth l fst snd Nat.sub]; split;
      try (intros i j Hi Hj; destruct i as [|[|[|]]], j as [|[|[|]]]; try lia; unfold Sum, Rsum; cbn; ring);
      intros k Hk; destruct k as [|[|]]; try lia; reflexivity.
  - intros p [<-|[<-|[]]]; [reflexivity|apply perm_swap].
Qed.
