(** Lemmas about M_opt.v. *)
From Verif Require L_zone.
From Verif Require Import Base Vec3 M_cell M_qpts M_dynmat M_dipole M_struct M_asr M_calc M_opt S_opt L_cell L_scidx L_calc2.
Open Scope R_scope.

Lemma arange_in lo hi step p : 0 < step -> In p (arange lo hi step) <-> exists i, p = lo + INR i * step /\ p < hi.
Proof.
  intros Hs. unfold arange. rewrite in_map_iff. pose proof (Rceil_bounds ((hi - lo) / step)) as [Bl Bu].
  assert (M : forall i : nat, INR i < (hi - lo) / step <-> lo + INR i * step < hi).
  { intros i. split; intros H.
    - apply (Rmult_lt_compat_r step) in H; [|exact Hs]. unfold Rdiv in H. rewrite Rmult_assoc, Rinv_l, Rmult_1_r in H by lra. lra.
    - apply Rmult_lt_reg_r with step; [exact Hs|]. unfold Rdiv. rewrite Rmult_assoc, Rinv_l, Rmult_1_r by lra. lra. }
  split.
  - intros (i & <- & I). apply in_seq in I. exists i. split; [reflexivity|]. apply M.
    assert (Z.of_nat i < Rceil ((hi - lo) / step))%Z by lia. apply Z.lt_le_pred in H. apply IZR_le in H. rewrite <- INR_IZR_INZ in H. unfold Z.pred in H. rewrite plus_IZR in H. lra.
  - intros (i & -> & Hp). exists i. split; [reflexivity|]. apply in_seq. apply M in Hp.
    assert (IZR (Z.of_nat i) < IZR (Rceil ((hi - lo) / step))) by (rewrite <- INR_IZR_INZ; lra). apply lt_IZR in H. lia.
Qed.
Lemma arange_nth lo hi step i : (i < length (arange lo hi step))%nat -> nth_error (arange lo hi step) i = Some (lo + INR i * step).
Proof.
  unfold arange. rewrite map_length, seq_length. intros H. rewrite nth_error_map.
  rewrite (nth_error_nth' _ 0%nat) by (rewrite seq_length; exact H). rewrite seq_nth by exact H. reflexivity.
Qed.
Lemma arange_empty lo hi step : step < 0 -> lo <= hi -> arange lo (hi + step / 100) step = [] \/ exists p, arange lo (hi + step / 100) step = [p] /\ p = lo.
Proof.
  intros Hs Hl. unfold arange. set (r := (hi + step / 100 - lo) / step). assert (r <= 1 / 100).
  { unfold r. replace ((hi + step / 100 - lo) / step) with ((hi - lo) * / step + 1 / 100) by (field; lra).
    assert (/ step < 0) by (apply Rinv_lt_0_compat; exact Hs). assert ((hi - lo) * / step <= 0); [|lra].
    replace 0 with ((hi - lo) * 0) by ring. apply Rmult_le_compat_l; lra. }
  assert (Rceil r <= 1)%Z by (apply Rceil_least; lra).
  destruct (Z_le_gt_dec (Rceil r) 0) as [L|G]; [left|right].
  - replace (Z.to_nat (Rceil r)) with 0%nat by lia. reflexivity.
  - replace (Rceil r) with 1%Z by lia. exists (lo + INR 0 * step). split; [reflexivity|]. cbn. ring.
Qed.

Section Opt.
Variable erfc : R -> R.
Variable reigh : real_eigh.
Variable ceigh : complex_eigh.
Variable argsort : list R -> list nat.
Variable chunk : nat.
Variable junk : nat -> nat -> nat -> nat -> R.
Variable clock : nat -> R.
Notation call := (call erfc reigh ceigh argsort chunk).
Notation test_parameter := (test_parameter erfc reigh ceigh argsort chunk junk clock).
Notation test_all := (test_all erfc reigh ceigh argsort chunk junk clock).
Notation optimise := (optimise erfc reigh ceigh argsort chunk junk clock).

(** What a call that succeeds leaves *)
Lemma call_state j o x x1 w r : call j o x = (x1, (w, Ok r)) ->
  o_d x1 = o_d x /\ o_mass x1 = o_mass x /\ o_born x1 = o_born x /\ o_diel x1 = o_diel x /\
  o_images x1 <> None /\ o_dip x1 = dipole_of erfc x o /\ (p_asr o = Some Realspace -> o_asr x1 <> None) /\ (forall f, o_asr x = Some f -> o_asr x1 = Some f) /\
  (p_asr o <> Some Realspace -> o_asr x1 = o_asr x).
Proof.
  unfold M_calc.call. destruct (weights_ok o); cbn [negb]; [|discriminate]. destruct (the_q_dirs x o); [|discriminate].
  destruct (asr_of reigh argsort chunk x o) as [[[k fc] wr]|s] eqn:Ea; [|discriminate]. intros H. injection H as <- _ _.
  cbn [o_d o_mass o_born o_diel o_images o_dip o_asr].
  do 4 (split; [reflexivity|]). split; [discriminate|]. split; [reflexivity|]. unfold asr_of in Ea.
  destruct (p_asr o) as [[|]|].
  - destruct (o_asr x) as [f|].
    + injection Ea as <- _ _. split; [discriminate|]. split; [intros f' [= <-]; reflexivity|congruence].
    + destruct (enforce_realspace_asr _ _ _ _) as [[dn fc']|]; [|discriminate]. injection Ea as <- _ _. split; [discriminate|]. split; [discriminate|congruence].
  - injection Ea as <- _ _. split; [congruence|]. split; [tauto|reflexivity].
  - injection Ea as <- _ _. split; [congruence|]. split; [tauto|reflexivity].
Qed.
Lemma dipole_kept x o bo : o_born x = Some bo -> p_dipole o = true -> exists dd, dipole_of erfc x o = Some (p_param o, dd).
Proof.
  intros B D. unfold dipole_of. rewrite B, D. destruct (o_dip x) as [[p dd]|]; [|eexists; reflexivity].
  unfold Reqb. destruct (Req_EM_T (p_param o) p) as [<-|]; eexists; reflexivity.
Qed.
(** A call with nothing to do leaves the object as it is *)
Lemma idle_call j o x : (forall k, ~ does x o k) -> fst (call j o x) = x.
Proof.
  intros H. destruct x as [d m b e im dip asr]. pose proof (H ImageSearch) as H1. pose proof (H EwaldSetup) as H2. pose proof (H SumRuleFit) as H3. cbn [does o_images o_born o_dip o_asr] in *.
  destruct im as [t|]; [|congruence].
  assert (Dp : dipole_of erfc (mkObj d m b e (Some t) dip asr) o = dip).
  { unfold dipole_of. cbn [o_born o_dip o_d o_diel]. destruct b as [bo|]; [|reflexivity]. destruct (p_dipole o) eqn:Ep; [|reflexivity].
    destruct dip as [[p dd]|].
    - unfold Reqb. destruct (Req_EM_T (p_param o) p) as [E|N]; [reflexivity|]. exfalso. apply H2. split; [discriminate|]. split; [reflexivity|]. intros p' dd' E. injection E as <- _. congruence.
    - exfalso. apply H2. split; [discriminate|]. split; [reflexivity|discriminate]. }
  unfold M_calc.call. destruct (weights_ok o); cbn [negb]; [|reflexivity]. destruct (the_q_dirs _ o); [|reflexivity].
  rewrite Dp. unfold asr_of. cbn [o_asr o_d]. destruct (p_asr o) as [[|]|]; [|reflexivity..].
  destruct asr as [f|]; [reflexivity|]. exfalso. apply H3. split; reflexivity.
Qed.

(** After the first call of a trial nothing is left to do for the second *)
Lemma first_then_idle j kw p x x1 w r n : call j (first_options kw p) x = (x1, (w, Ok r)) -> forall k, ~ does x1 (second_options kw n p) k.
Proof.
  intros H. destruct (call_state _ _ _ _ _ _ H) as (_ & _ & B & _ & I & Dd & As & _). intros [| |] K; cbn [does second_options p_dipole p_param p_asr] in K.
  - exact (I K).
  - destruct K as (K1 & K2 & K3). rewrite B in K1. destruct (o_born x) as [bo|] eqn:Eb; [|congruence].
    destruct (dipole_kept x (first_options kw p) bo Eb K2) as [dd E]. rewrite E in Dd. exact (K3 _ _ Dd eq_refl).
  - destruct K as [K1 K2]. exact (As K1 K2).
Qed.

(** Turn number i *)
Lemma turn kw n i p x x' t : test_parameter kw n i p x = Ok (x', t) ->
  (0 < n)%Z /\ tr_param t = p /\ tr_before t = x /\ tr_between t = x' /\
  tr_init t = clock (4 * i + 1) - clock (4 * i) /\ tr_per t = (clock (4 * i + 3) - clock (4 * i + 2)) / IZR n /\
  (exists w r, call (junk (2 * i)) (first_options kw p) x = (x', (w, Ok r))) /\
  (exists w r, call (junk (2 * i + 1)) (second_options kw (Z.to_nat n) p) x' = (x', (w, Ok r))).
Proof.
  unfold M_opt.test_parameter, fc_call. destruct (call (junk (2 * i)) (first_options kw p) x) as [x1 [w [r|e]]] eqn:E1; [|discriminate].
  destruct (Z.ltb_spec n 0); [discriminate|]. destruct (Z.eqb_spec n 0); [discriminate|].
  pose proof (idle_call (junk (2 * i + 1)) (second_options kw (Z.to_nat n) p) x1 (first_then_idle _ _ _ _ _ _ _ _ E1)) as Id.
  destruct (call (junk (2 * i + 1)) (second_options kw (Z.to_nat n) p) x1) as [x2 [w2 [r2|e2]]] eqn:E2; [|discriminate]. cbn [fst] in Id. subst x2.
  intros Hr. injection Hr as <- <-. cbn [tr_param tr_before tr_between tr_init tr_per]. split; [lia|]. do 5 (split; [reflexivity|]). split; [exists w, r; reflexivity|exists w2, r2; exact E2].
Qed.
Lemma test_all_spec kw n : forall ps k x l, test_all kw n k ps x = Ok l ->
  length l = length ps /\ forall i t, nth_error l i = Some t ->
    nth_error ps i = Some (tr_param t) /\ tr_init t = clock (4 * (k + i) + 1) - clock (4 * (k + i)) /\ tr_per t = (clock (4 * (k + i) + 3) - clock (4 * (k + i) + 2)) / IZR n /\
    (0 < n)%Z /\
    tr_before t = match i with O => x | S i' => match nth_error l i' with Some t' => tr_between t' | None => x end end /\
    (exists w r, call (junk (2 * (k + i))) (first_options kw (tr_param t)) (tr_before t) = (tr_between t, (w, Ok r))) /\
    (exists w r, call (junk (2 * (k + i) + 1)) (second_options kw (Z.to_nat n) (tr_param t)) (tr_between t) = (tr_between t, (w, Ok r))).
Proof.
  induction ps as [|p ps IH]; intros k x l H; cbn [M_opt.test_all] in H.
  - injection H as <-. split; [reflexivity|]. intros [|i] t E; discriminate.
  - destruct (test_parameter kw n k p x) as [[x' t0]|] eqn:E0; [|discriminate]. destruct (test_all kw n (S k) ps x') as [l'|] eqn:E1; [|discriminate]. injection H as <-.
    destruct (IH _ _ _ E1) as [L P]. split; [cbn [length]; f_equal; exact L|].
    destruct (turn _ _ _ _ _ _ _ E0) as (Hn & T1 & T2 & T3 & T4 & T5 & T6 & T7).
    intros [|i] t E; cbn [nth_error] in E |- *.
    + injection E as <-. rewrite Nat.add_0_r, T1, T2, T3. do 5 (split; [first [reflexivity | assumption]|]). split; assumption.
    + destruct (P i t E) as (Q1 & Q2 & Q3 & Q4 & Q5 & Q6 & Q7). replace (k + S i)%nat with (S k + i)%nat by lia.
      split; [exact Q1|]. split; [exact Q2|]. split; [exact Q3|]. split; [exact Q4|]. split; [|split; assumption].
      rewrite Q5. destruct i as [|i]; [cbn [nth_error]; congruence|]; cbn [nth_error]. destruct (nth_error l' i) as [t'|] eqn:Ei; [reflexivity|].
      exfalso. apply nth_error_None in Ei. assert (S i < length l')%nat by (apply nth_error_Some; congruence). lia.
Qed.

Lemma optimise_inv loaded lo hi step n kw p ti tp l : optimise loaded lo hi step n kw = Ok (p, ti, tp, l) ->
  step <> 0 /\ exists x t, loaded = Some x /\ test_all kw n 0 (arange lo (hi + step / 100) step) x = Ok l /\
  l <> [] /\ (forall d, t = nth (argmin (map tr_per l)) l d) /\ p = tr_param t /\ ti = tr_init t /\ tp = tr_per t.
Proof.
  unfold M_opt.optimise, dipole_parameters, Reqb. destruct (Req_EM_T step 0) as [|Ns]; [discriminate|]. destruct loaded as [x|]; [|discriminate].
  destruct (test_all kw n 0 _ x) as [[|t0 l0]|] eqn:E; try discriminate. intros H. split; [exact Ns|].
  set (L := t0 :: l0) in *. assert (NL : L <> []) by discriminate.
  exists x, (nth (argmin (map tr_per L)) L t0). injection H as <- <- <- <-. split; [reflexivity|]. split; [exact E|]. split; [exact NL|].
  split; [|split; [|split]; reflexivity].
  intros d. apply nth_indep. destruct (argmin_spec (map tr_per L)) as [A _]; [unfold L; discriminate|]. rewrite map_length in A. exact A.
Qed.

(** The suggestion *)
Lemma suggestion loaded lo hi step n kw p ti tp l : optimise loaded lo hi step n kw = Ok (p, ti, tp, l) ->
  map tr_param l = arange lo (hi + step / 100) step /\
  (forall i t, nth_error l i = Some t -> tr_init t = clock (4 * i + 1) - clock (4 * i) /\ tr_per t = (clock (4 * i + 3) - clock (4 * i + 2)) / IZR n) /\
  exists k t, nth_error l k = Some t /\ p = tr_param t /\ ti = tr_init t /\ tp = tr_per t /\
    (forall i t', nth_error l i = Some t' -> tr_per t <= tr_per t' /\ ((i < k)%nat -> tr_per t < tr_per t')).
Proof.
  intros H. destruct (optimise_inv _ _ _ _ _ _ _ _ _ _ H) as (_ & x & t & -> & E & N & Et & -> & -> & ->).
  destruct (test_all_spec _ _ _ _ _ _ E) as [L P].
  split.
  { apply nth_ext with (d := 0) (d' := 0); [rewrite map_length; exact L|]. rewrite map_length. intros i Hi.
    destruct (nth_error l i) as [t'|] eqn:Ei; [|apply nth_error_None in Ei; lia]. destruct (P i t' Ei) as [Q _].
    apply nth_error_nth with (d := 0) in Q. rewrite Q. apply nth_error_nth. rewrite nth_error_map, Ei. reflexivity. }
  split; [intros i t' Ei; destruct (P i t' Ei) as (_ & Q2 & Q3 & _); split; [exact Q2|exact Q3]|].
  destruct (argmin_spec (map tr_per l)) as (A1 & A2 & A3); [destruct l; [congruence|discriminate]|]. set (k := argmin (map tr_per l)) in *. rewrite map_length in A1, A2.
  exists k, t. assert (Ek : nth_error l k = Some t) by (rewrite (Et t); apply nth_error_nth'; exact A1). split; [exact Ek|]. do 3 (split; [reflexivity|]).
  assert (V : forall i t', nth_error l i = Some t' -> nth i (map tr_per l) 0 = tr_per t') by (intros i t' Ei; apply nth_error_nth; rewrite nth_error_map, Ei; reflexivity).
  intros i t' Ei. rewrite <- (V _ _ Ek), <- (V _ _ Ei). split; [apply A2; apply nth_error_Some; congruence|apply A3].
Qed.

(** What is done in which call *)
Lemma nth_error_some_lt {A} (l : list A) i a : nth_error l i = Some a -> (i < length l)%nat.
Proof. intros H. apply nth_error_Some. congruence. Qed.
Lemma fixed_fields loaded lo hi step n kw p ti tp l : optimise (Some loaded) lo hi step n kw = Ok (p, ti, tp, l) ->
  forall i t, nth_error l i = Some t -> o_born (tr_before t) = o_born loaded /\ o_born (tr_between t) = o_born loaded.
Proof.
  intros H. destruct (optimise_inv _ _ _ _ _ _ _ _ _ _ H) as (_ & x & t0 & Ex & E & _). injection Ex as <-. destruct (test_all_spec _ _ _ _ _ _ E) as [L P]. clear H.
  induction i as [|i IH]; intros t Et; destruct (P _ _ Et) as (_ & _ & _ & _ & Q5 & (w & r & Q6) & _); destruct (call_state _ _ _ _ _ _ Q6) as (_ & _ & B & _).
  - rewrite B, Q5. split; reflexivity.
  - destruct (nth_error l i) as [t'|] eqn:Ei; [|apply nth_error_None in Ei; apply nth_error_some_lt in Et; lia]. destruct (IH _ eq_refl) as [_ B']. rewrite B, Q5, B'. split; reflexivity.
Qed.
Lemma jobs loaded lo hi step n kw p ti tp l : optimise (Some loaded) lo hi step n kw = Ok (p, ti, tp, l) ->
  forall i t, nth_error l i = Some t ->
  (forall k, ~ does (tr_between t) (second_options kw (Z.to_nat n) (tr_param t)) k) /\
  (i = 0%nat -> tr_before t = loaded) /\
  ((0 < i)%nat -> forall k, does (tr_before t) (first_options kw (tr_param t)) k <-> k = EwaldSetup /\ o_born loaded <> None /\ p_dipole kw = true).
Proof.
  intros H i t Et. destruct (optimise_inv _ _ _ _ _ _ _ _ _ _ H) as (Ns & x & t0 & Ex & E & _). injection Ex as <-. destruct (test_all_spec _ _ _ _ _ _ E) as [L P].
  destruct (P _ _ Et) as (Q1 & _ & _ & _ & Q5 & (w & r & Q6) & _). split; [exact (first_then_idle _ _ _ _ _ _ _ _ Q6)|].
  split; [intros ->; exact Q5|]. intros Hi. destruct i as [|i]; [lia|].
  destruct (nth_error l i) as [t'|] eqn:Ei; [|apply nth_error_None in Ei; apply nth_error_some_lt in Et; lia].
  destruct (P _ _ Ei) as (R1 & _ & _ & _ & _ & (w' & r' & R6) & _). destruct (call_state _ _ _ _ _ _ R6) as (_ & _ & B & _ & I & Dd & As & _).
  destruct (fixed_fields _ _ _ _ _ _ _ _ _ _ H _ _ Ei) as [B1 B2].
  assert (Np : tr_param t <> tr_param t').
  { pose proof (nth_error_some_lt _ _ _ Q1) as L1. pose proof (nth_error_some_lt _ _ _ R1) as L2. rewrite arange_nth in Q1, R1 by assumption.
    assert (P1 : tr_param t = lo + INR (S i) * step) by congruence. assert (P2 : tr_param t' = lo + INR i * step) by congruence. rewrite P1, P2, S_INR. intros C. apply Ns. lra. }
  rewrite Q5. intros k. destruct k; cbn [does first_options p_dipole p_param p_asr].
  - split; [intros K; exfalso; exact (I K)|intros [K _]; discriminate].
  - rewrite B2. split.
    + intros (K1 & K2 & _). split; [reflexivity|]. split; assumption.
    + intros (_ & K1 & K2). split; [exact K1|]. split; [exact K2|]. intros q dd Eq. rewrite Dd in Eq. destruct (o_born loaded) as [bo|] eqn:Eb; [|congruence].
      destruct (dipole_kept (tr_before t') (first_options kw (tr_param t')) bo B1 K2) as [dd' E']. rewrite E' in Eq. injection Eq as <- _. cbn. congruence.
  - split; [intros [K1 K2]; exfalso; exact (As K1 K2)|intros [K _]; discriminate].
Qed.

(** The q-points of the two calls *)
Lemma half_not_gamma : is_gamma (1 / 2, 1 / 2, 1 / 2) = false.
Proof.
  unfold is_gamma, frac_dist. rewrite L_zone.rint_half. unfold Rltb. destruct (Rlt_dec _ _) as [K|]; [|reflexivity].
  exfalso. unfold gamma_tol in K. rewrite Rminus_0_r, Rabs_right in K by lra. lra.
Qed.
Lemma where_none n : where_true (map is_gamma (half_qpts n)) = [].
Proof.
  unfold where_true.
  destruct (filter _ _) as [|i l] eqn:E; [reflexivity|]. assert (I : In i (i :: l)) by (left; reflexivity). rewrite <- E in I. apply filter_In in I. destruct I as [I T].
  exfalso. clear I. assert (F : forall k, nth k (map is_gamma (half_qpts n)) false = false); [|rewrite F in T; discriminate].
  clear. induction n as [|n IH]; intros [|k]; cbn [half_qpts repeat map nth]; [reflexivity..|exact half_not_gamma|apply IH].
Qed.
Lemma insert_none {A} (l : list A) : np_insert l [] [] = l.
Proof.
  unfold np_insert. cbn [combine filter map]. rewrite app_nil_r.
  assert (G : forall k, concat (map (fun p : nat * A => [] ++ [snd p]) (combine (seq k (length l)) l)) = l); [|exact (G 0%nat)].
  induction l as [|a l IH]; intros k; [reflexivity|]. cbn. f_equal. apply IH.
Qed.
Lemma no_insert x kw n p : the_qpts x (second_options kw n p) = half_qpts n /\ the_qpts x (first_options kw p) = half_qpts 1.
Proof.
  unfold the_qpts, insert_gamma_qpts, split_gamma. cbn [first_options second_options p_qpts p_insert]. rewrite !where_none. cbn [filter fancy map]. rewrite !insert_none.
  split; destruct (_ && _)%bool; reflexivity.
Qed.
Lemma second_evaluates x kw n p : evaluated x (second_options kw n p) = half_qpts n.
Proof. unfold evaluated. rewrite (proj1 (no_insert x kw n p)). reflexivity. Qed.
Lemma first_evaluates x kw p : evaluated x (first_options kw p) = half_qpts 1.
Proof.
  unfold evaluated. rewrite (proj2 (no_insert x kw 0 p)). cbn [first_options p_reduce]. unfold reduce_qpts. rewrite where_none. cbn [length Nat.ltb Nat.leb]. rewrite Bool.andb_false_r.
  cbn [fst half_qpts repeat norm_qpts map]. rewrite half_not_gamma. unfold qnorm. rewrite L_zone.rint_half. cbn. f_equal. f_equal; [f_equal|]; lra.
Qed.

(** It runs *)
Lemma one_runs kw n i p x : (0 < n)%Z -> p_weights kw = None -> p_asr kw <> Some Realspace -> (forall k M, ceigh k M <> None) ->
  exists x' t, test_parameter kw n i p x = Ok (x', t).
Proof.
  intros Hn W A Ce. unfold M_opt.test_parameter, fc_call.
  assert (G : forall j o y, p_weights o = None -> p_asr o <> Some Realspace -> exists y' w r, call j o y = (y', (w, Ok r))).
  { intros j o y W' A'. destruct (call j o y) as [y' [w [r|e]]] eqn:E; [exists y', w, r; reflexivity|]. exfalso.
    destruct (only_errors erfc reigh ceigh argsort chunk j o y e) as [(_ & w' & K & _)|[(s & _ & K & _)|(_ & M & K)]]; [unfold result; rewrite E; reflexivity|congruence..|exact (Ce _ _ K)]. }
  destruct (G (junk (2 * i)%nat) (first_options kw p) x W A) as (y & w & r & ->).
  destruct (Z.ltb_spec n 0); [lia|]. destruct (Z.eqb_spec n 0); [lia|].
  destruct (G (junk (2 * i + 1)%nat) (second_options kw (Z.to_nat n) p) y W A) as (y' & w' & r' & ->). eexists. eexists. reflexivity.
Qed.
Lemma all_run kw n : (0 < n)%Z -> p_weights kw = None -> p_asr kw <> Some Realspace -> (forall k M, ceigh k M <> None) ->
  forall ps i x, exists l, test_all kw n i ps x = Ok l.
Proof.
  intros Hn W A Ce. induction ps as [|p ps IH]; intros i x; cbn [M_opt.test_all]; [eexists; reflexivity|].
  destruct (one_runs kw n i p x Hn W A Ce) as (x' & t & ->). destruct (IH (S i) x') as [l ->]. eexists. reflexivity.
Qed.
Lemma runs x lo hi step n kw : 0 < step -> lo <= hi -> (0 < n)%Z -> p_weights kw = None -> p_asr kw <> Some Realspace -> (forall k M, ceigh k M <> None) ->
  exists r, optimise (Some x) lo hi step n kw = Ok r.
Proof.
  intros Hs Hl Hn W A Ce. unfold M_opt.optimise, dipole_parameters, Reqb. destruct (Req_EM_T step 0); [lra|].
  destruct (all_run kw n Hn W A Ce (arange lo (hi + step / 100) step) 0 x) as [l E]. rewrite E.
  destruct l as [|t0 l]; [|eexists; reflexivity]. exfalso. destruct (test_all_spec _ _ _ _ _ _ E) as [L _]. cbn in L. symmetry in L. apply length_zero_iff_nil in L.
  assert (I : In lo (arange lo (hi + step / 100) step)); [|rewrite L in I; destruct I]. apply arange_in; [exact Hs|]. exists 0%nat. cbn. split; lra.
Qed.

(** Errors *)
Lemma step_zero loaded lo hi n kw : optimise loaded lo hi 0 n kw = Err StepZero.
Proof. unfold M_opt.optimise, dipole_parameters, Reqb. destruct (Req_EM_T 0 0); [reflexivity|congruence]. Qed.
Lemma not_fc lo hi step n kw : step <> 0 -> optimise None lo hi step n kw = Err NotForceConstants.
Proof. intros H. unfold M_opt.optimise, dipole_parameters, Reqb. destruct (Req_EM_T step 0); [congruence|reflexivity]. Qed.
Lemma no_parameters x lo hi step n kw : 0 < step -> hi + step / 100 <= lo -> optimise (Some x) lo hi step n kw = Err NoParameters.
Proof.
  intros Hs Hl. unfold M_opt.optimise, dipole_parameters, Reqb. destruct (Req_EM_T step 0); [lra|].
  destruct (arange lo (hi + step / 100) step) as [|p ps] eqn:E; [reflexivity|]. exfalso.
  assert (I : In p (arange lo (hi + step / 100) step)) by (rewrite E; left; reflexivity). apply arange_in in I; [|exact Hs]. destruct I as (i & -> & K).
  assert (0 <= INR i * step) by (apply Rmult_le_pos; [apply pos_INR|lra]). lra.
Qed.
Lemma bad_count loaded lo hi step n kw r : (n <= 0)%Z -> optimise loaded lo hi step n kw <> Ok r.
Proof.
  intros Hn H. destruct r as [[[p ti] tp] l]. destruct (optimise_inv _ _ _ _ _ _ _ _ _ _ H) as (_ & x & t & _ & E & N & _).
  destruct l as [|t0 l]; [congruence|]. destruct (test_all_spec _ _ _ _ _ _ E) as [_ P]. destruct (P 0%nat t0 eq_refl) as (_ & _ & _ & Q & _). lia.
Qed.
End Opt.
