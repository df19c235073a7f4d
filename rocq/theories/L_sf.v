(** Lemmas on structure factors and Debye-Waller factors. *)
From Verif Require Import Base L_util Cpx Vec3 M_qpts M_cell L_cell M_path L_path M_broad S_broad M_dos S_dos L_dos L_dos2 M_sf S_sf.
Open Scope R_scope.

Lemma Cabs_sq z : Cabs (Cmul z (Cconj z)) = Cnorm2 z.
Proof.
  rewrite Cmul_conj. unfold Cabs, RtoC. unfold Cnorm2 at 1. cbn [re im].
  replace (Cnorm2 z * Cnorm2 z + 0 * 0) with (Cnorm2 z * Cnorm2 z) by ring. apply sqrt_square. apply Cnorm2_nonneg.
Qed.
Lemma Cscal_comp a b z : Cscal a (Cscal b z) = Cscal (a * b) z.
Proof. apply C_eq; cbn; ring. Qed.
Lemma Cmul_scal_r a z w : Cmul z (Cscal a w) = Cscal a (Cmul z w).
Proof. apply C_eq; cbn; ring. Qed.
Lemma Cmul_scal_l a z w : Cmul (Cscal a z) w = Cscal a (Cmul z w).
Proof. apply C_eq; cbn; ring. Qed.
Lemma Cnorm2_scal a z : Cnorm2 (Cscal a z) = a * a * Cnorm2 z.
Proof. unfold Cnorm2. cbn. ring. Qed.

Lemma dot_frac_cart cell q r : det3 cell <> 0 -> dot (vmul q (reciprocal_cell cell)) (vmul r cell) = 2 * PI * dot q r.
Proof.
  intros Hd. pose proof (reciprocal_dual cell Hd) as D.
  pose proof (D 0 0 ltac:(lia) ltac:(lia))%nat as D00. pose proof (D 0 1 ltac:(lia) ltac:(lia))%nat as D01. pose proof (D 0 2 ltac:(lia) ltac:(lia))%nat as D02.
  pose proof (D 1 0 ltac:(lia) ltac:(lia))%nat as D10. pose proof (D 1 1 ltac:(lia) ltac:(lia))%nat as D11. pose proof (D 1 2 ltac:(lia) ltac:(lia))%nat as D12.
  pose proof (D 2 0 ltac:(lia) ltac:(lia))%nat as D20. pose proof (D 2 1 ltac:(lia) ltac:(lia))%nat as D21. pose proof (D 2 2 ltac:(lia) ltac:(lia))%nat as D22.
  clear D. cbn [Nat.eqb] in *. destruct (reciprocal_cell cell) as [[[[x1 x2] x3] [[y1 y2] y3]] [[z1 z2] z3]].
  destruct cell as [[[[a1 a2] a3] [[b1 b2] b3]] [[c1 c2] c3]]. destruct q as [[q1 q2] q3], r as [[r1 r2] r3].
  cbn [row dot vmul vadd vscal] in *.
  transitivity (q1 * r1 * (a1*x1+a2*x2+a3*x3) + q1 * r2 * (b1*x1+b2*x2+b3*x3) + q1 * r3 * (c1*x1+c2*x2+c3*x3)
    + q2 * r1 * (a1*y1+a2*y2+a3*y3) + q2 * r2 * (b1*y1+b2*y2+b3*y3) + q2 * r3 * (c1*y1+c2*y2+c3*y3)
    + q3 * r1 * (a1*z1+a2*z2+a3*z3) + q3 * r2 * (b1*z1+b2*z2+b3*z3) + q3 * r3 * (c1*z1+c2*z2+c3*z3)); [ring|].
  rewrite D00, D01, D02, D10, D11, D12, D20, D21, D22. ring.
Qed.

Lemma sf_formula e cell M pos sl dw qpt q m : det3 cell <> 0 ->
  sf_mode e (mkX M pos (reciprocal_cell cell)) sl dw qpt q m
  = one_phonon cell sl M pos (n_atoms e) dw (evec e q m) (qpt q) (freq (et e) q m).
Proof.
  intros Hd. unfold sf_mode, one_phonon. rewrite Cabs_sq.
  replace (sf_term e (mkX M pos (reciprocal_cell cell)) sl dw qpt q m) with
    (Csum (seq 0 (n_atoms e)) (fun a => Cscal (sl a / sqrt (M a) * exp (- dw_exponent dw (vmul (qpt q) (reciprocal_cell cell)) a))
      (Cmul (Csum (seq 0 3) (fun l => Cscal (comp (vmul (qpt q) (reciprocal_cell cell)) l) (Cconj (evec e q m a l)))) (cis (dot (vmul (qpt q) (reciprocal_cell cell)) (vmul (pos a) cell)))))).
  - unfold Rdiv. rewrite !Rinv_mult. ring.
  - unfold sf_term. apply Csum_ext. intros a _. unfold evec_dot_q, exp_factor, Qvec. cbn [mass M_sf.pos recip].
    rewrite dot_frac_cart by exact Hd. destruct dw as [d|]; cbn [dw_exponent].
    + rewrite Cmul_scal_r, Cscal_comp. f_equal. f_equal. f_equal. f_equal. apply Sum_ext. intros k _. apply Sum_ext. intros l _. ring.
    + replace (exp (- 0)) with 1 by (rewrite Ropp_0, exp_0; reflexivity). rewrite Rmult_1_r. reflexivity.
Qed.

Lemma one_phonon_nonneg cell b M pos N dw ev q w : 0 <= one_phonon cell b M pos N dw ev q w.
Proof.
  unfold one_phonon. cbv zeta. apply Rmult_le_pos; [apply Cnorm2_nonneg|].
  assert (H : 0 <= 2 * INR N * Rabs w) by (apply Rmult_le_pos; [pose proof (pos_INR N); lra|apply Rabs_pos]).
  destruct H as [H|H]; [left; apply Rinv_0_lt_compat; exact H|]. rewrite <- H, Rinv_0. lra.
Qed.

Lemma sf_mode_nonneg e x sl dw qpt q m : 0 <= sf_mode e x sl dw qpt q m.
Proof.
  unfold sf_mode. cbv zeta. rewrite Cabs_sq. unfold Rdiv. rewrite Rmult_assoc. apply Rmult_le_pos; [apply Cnorm2_nonneg|].
  assert (I : forall y, 0 <= y -> 0 <= / y).
  { intros y [Hy|<-]; [left; apply Rinv_0_lt_compat; exact Hy|rewrite Rinv_0; lra]. }
  apply Rmult_le_pos; apply I; [apply Rabs_pos|pose proof (pos_INR (n_atoms e)); lra].
Qed.

Lemma sf_mode_norm e x sl dw qpt e' x' sl' dw' qpt' q m c :
  n_atoms e' = n_atoms e -> freq (et e') q m = freq (et e) q m ->
  Cnorm2 (sf_term e' x' sl' dw' qpt' q m) = c * Cnorm2 (sf_term e x sl dw qpt q m) ->
  sf_mode e' x' sl' dw' qpt' q m = c * sf_mode e x sl dw qpt q m.
Proof.
  intros Hn Hf H. unfold sf_mode. cbv zeta. rewrite !Cabs_sq, H, Hn, Hf. unfold Rdiv. ring.
Qed.

Lemma sf_phase e x sl dw qpt (u : nat -> nat -> C) q m : Cnorm2 (u q m) = 1 ->
  sf_mode (mkE (et e) (n_atoms e) (fun q m a l => Cmul (u q m) (evec e q m a l))) x sl dw qpt q m = sf_mode e x sl dw qpt q m.
Proof.
  intros Hu. rewrite <- (Rmult_1_l (sf_mode e x sl dw qpt q m)). apply sf_mode_norm; [reflexivity|reflexivity|].
  replace (sf_term _ x sl dw qpt q m) with (Cmul (Cconj (u q m)) (sf_term e x sl dw qpt q m)).
  - rewrite Cnorm2_mul, Cnorm2_conj, Hu. reflexivity.
  - unfold sf_term. rewrite <- Csum_mul. apply Csum_ext. intros a _. unfold evec_dot_q. cbn [evec n_atoms].
    rewrite Cmul_scal_r. f_equal.
    replace (Csum (seq 0 3) (fun l => Cscal (comp (Qvec x (qpt q)) l) (Cconj (Cmul (u q m) (evec e q m a l)))))
      with (Cmul (Cconj (u q m)) (Csum (seq 0 3) (fun l => Cscal (comp (Qvec x (qpt q)) l) (Cconj (evec e q m a l))))).
    + ring.
    + rewrite <- Csum_mul. apply Csum_ext. intros l _. rewrite Cconj_mul, Cmul_scal_r. reflexivity.
Qed.

Lemma sf_scale e x sl dw qpt k q m : sf_mode e x (fun a => k * sl a) dw qpt q m = k ^ 2 * sf_mode e x sl dw qpt q m.
Proof.
  apply sf_mode_norm; [reflexivity|reflexivity|].
  replace (sf_term e x (fun a => k * sl a) dw qpt q m) with (Cscal k (sf_term e x sl dw qpt q m)).
  - rewrite Cnorm2_scal. ring.
  - unfold sf_term. rewrite <- Csum_scal. apply Csum_ext. intros a _. rewrite Cscal_comp. f_equal. unfold Rdiv. ring.
Qed.

Lemma sf_translate e M pos rc sl dw qpt (t : V3) q m :
  sf_mode e (mkX M (fun a => vadd (pos a) t) rc) sl dw qpt q m = sf_mode e (mkX M pos rc) sl dw qpt q m.
Proof.
  rewrite <- (Rmult_1_l (sf_mode e (mkX M pos rc) sl dw qpt q m)). apply sf_mode_norm; [reflexivity|reflexivity|].
  replace (sf_term e (mkX M (fun a => vadd (pos a) t) rc) sl dw qpt q m) with (Cmul (cis (2 * PI * dot (qpt q) t)) (sf_term e (mkX M pos rc) sl dw qpt q m)).
  - rewrite Cnorm2_mul, Cnorm2_cis. ring.
  - unfold sf_term. rewrite <- Csum_mul. apply Csum_ext. intros a _. cbn [mass].
    rewrite Cmul_scal_r. f_equal.
    assert (E : exp_factor (mkX M (fun a => vadd (pos a) t) rc) dw (qpt q) a = Cmul (cis (2 * PI * dot (qpt q) t)) (exp_factor (mkX M pos rc) dw (qpt q) a)).
    { unfold exp_factor, Qvec. cbn [M_sf.pos recip].
      assert (Ec : cis (2 * PI * dot (qpt q) (vadd (pos a) t)) = Cmul (cis (2 * PI * dot (qpt q) t)) (cis (2 * PI * dot (qpt q) (pos a)))).
      { rewrite <- cis_add. f_equal. destruct (qpt q) as [[? ?] ?], (pos a) as [[? ?] ?], t as [[? ?] ?]. cbn. ring. }
      destruct dw; rewrite Ec; [rewrite Cmul_scal_r|]; reflexivity. }
    rewrite E. change (evec_dot_q e (mkX M (fun a => vadd (pos a) t) rc) qpt q m a) with (evec_dot_q e (mkX M pos rc) qpt q m a). ring.
Qed.

Lemma has_zero_false t q m : has_zero t = false -> (q < nq t)%nat -> (m < nm t)%nat -> freq t q m <> 0.
Proof.
  intros H Hq Hm E. unfold has_zero in H.
  assert (T : existsb (fun qm => Reqb (freq t (fst qm) (snd qm)) 0) (pairs t) = true).
  { apply existsb_exists. exists (q, m). split; [apply in_prod; apply in_seq; lia|]. cbn [fst snd]. rewrite E.
    destruct (Reqb_spec 0 0); [reflexivity|congruence]. }
  congruence.
Qed.
Lemma has_zero_intro t q m : (q < nq t)%nat -> (m < nm t)%nat -> freq t q m = 0 -> has_zero t = true.
Proof.
  intros Hq Hm E. destruct (has_zero t) eqn:Z; [reflexivity|]. exfalso. exact (has_zero_false t q m Z Hq Hm E).
Qed.

(** Debye-Waller: chunks. *)
Lemma Sum_seq_split f a b c : (a <= b <= c)%nat -> Sum (seq a (c - a)) f = Sum (seq a (b - a)) f + Sum (seq b (c - b)) f.
Proof.
  intros H. replace (c - a)%nat with ((b - a) + (c - b))%nat by lia. rewrite seq_app, Sum_app.
  replace (a + (b - a))%nat with b by lia. reflexivity.
Qed.

Lemma chunk_fold (f : nat -> R) n chunk k : (0 < chunk)%nat ->
  fold_left (fun acc i => acc + Sum (seq (i * chunk) (Nat.min ((i + 1) * chunk) n - i * chunk)) f) (seq 0 k) 0
  = Sum (seq 0 (Nat.min (k * chunk) n)) f.
Proof.
  intros Hc. induction k as [|k IH]; [reflexivity|].
  rewrite seq_S, fold_left_app, IH. cbn [fold_left Nat.add].
  destruct (Nat.le_gt_cases (k * chunk) n) as [L|L].
  - replace (Nat.min (k * chunk) n) with (k * chunk)%nat by lia.
    pose proof (Sum_seq_split f 0 (k * chunk) (Nat.min ((k + 1) * chunk) n)) as S. rewrite !Nat.sub_0_r in S.
    rewrite <- S by (split; [lia|apply Nat.min_glb; lia]). f_equal. f_equal. lia.
  - replace (Nat.min ((k + 1) * chunk) n - k * chunk)%nat with 0%nat by lia. cbn [seq]. rewrite Sum_nil, Rplus_0_r.
    f_equal. f_equal. lia.
Qed.

Definition dw_all (e : etable) (x : xtal) (kB T fmin : R) (a l l' : nat) : R :=
  dw_chunk e x kB T fmin 0 (nq (et e)) a l l'.
Lemma dw_raw_all chunk e x kB T fmin a l l' : (0 < chunk)%nat -> dw_raw chunk e x kB T fmin a l l' = dw_all e x kB T fmin a l l'.
Proof.
  intros Hc. unfold dw_raw, dw_all, dw_chunk. rewrite Nat.sub_0_r.
  set (f := fun q => Sum (seq 0 (nm (et e))) _).
  rewrite (chunk_fold f (nq (et e)) chunk _ Hc). f_equal. f_equal. apply Nat.min_r.
  set (n := nq (et e)). pose proof (Nat.div_mod (n - 1) chunk ltac:(lia)) as D.
  pose proof (Nat.mod_upper_bound (n - 1) chunk ltac:(lia)). nia.
Qed.

Lemma dw_term_formula kB T fmin f c : f <> 0 ->
  tanh_term kB T f * freq_mask fmin f * c = if Rleb fmin f then c / f * coth_factor kB T f else 0.
Proof.
  intros Hf. unfold tanh_term, freq_mask, coth_factor.
  destruct (Rltb_spec f fmin) as [L|L].
  - rewrite Rleb_false by lra. ring.
  - rewrite Rleb_true by lra. destruct (Rltb 0 T); unfold Rdiv; rewrite ?Rinv_mult; ring.
Qed.

Lemma dw_all_formula e x kB T fmin a l l' : has_zero (et e) = false ->
  dw_all e x kB T fmin a l l' / total_weight (et e) = dw_formula e (mass x) kB T fmin a l l'.
Proof.
  intros Hz. unfold dw_all, dw_chunk, dw_formula. fold (total_weight (et e)). rewrite Nat.sub_0_r.
  unfold Rdiv at 1. rewrite Rmult_comm, Rinv_mult, Rinv_mult.
  rewrite <- !Sum_scal. apply Sum_ext. intros q Hq. apply in_seq in Hq.
  rewrite Sum_filter. rewrite <- !Sum_scal. apply Sum_ext. intros m Hm. apply in_seq in Hm.
  pose proof (dw_term_formula kB T fmin (freq (et e) q m) (evec_term e q m a l l') (has_zero_false (et e) q m Hz (proj2 Hq) (proj2 Hm))) as D.
  unfold evec_term in *.
  transitivity (/ total_weight (et e) * (wt (et e) q * (1 / (4 * mass x a))) *
    (tanh_term kB T (freq (et e) q m) * freq_mask fmin (freq (et e) q m) * re (Cmul (evec e q m a l) (Cconj (evec e q m a l'))))); [ring|].
  rewrite D. unfold Rdiv. rewrite !Rinv_mult. destruct (Rleb _ _); ring.
Qed.

(** Positive semi-definiteness. *)
Lemma tanh_pos x : 0 < x -> 0 < tanh x.
Proof.
  intros H. unfold tanh, sinh, cosh. assert (exp (- x) < exp x) by (apply exp_increasing; lra).
  pose proof (exp_pos x). pose proof (exp_pos (- x)). apply Rdiv_lt_0_compat; lra.
Qed.
Lemma coth_factor_pos kB T f : 0 < kB -> 0 < f -> 0 < coth_factor kB T f.
Proof.
  intros Hk Hf. unfold coth_factor. destruct (Rltb_spec 0 T) as [L|L]; [|lra].
  apply Rinv_0_lt_compat. apply tanh_pos. apply Rdiv_lt_0_compat; [exact Hf|]. nra.
Qed.
Lemma evec_term_quad e q m a v :
  Sum (seq 0 3) (fun i => Sum (seq 0 3) (fun j => v i * evec_term e q m a i j * v j))
  = (Sum (seq 0 3) (fun i => v i * re (evec e q m a i))) ^ 2 + (Sum (seq 0 3) (fun i => v i * im (evec e q m a i))) ^ 2.
Proof. unfold evec_term. cbn [seq]. rewrite !Sum_cons, !Sum_nil. cbn [Cmul Cconj re im]. ring. Qed.

Lemma quad_scal c w v : Sum (seq 0 3) (fun i => Sum (seq 0 3) (fun j => v i * (c * w i j) * v j))
  = c * Sum (seq 0 3) (fun i => Sum (seq 0 3) (fun j => v i * w i j * v j)).
Proof. rewrite <- Sum_scal. apply Sum_ext. intros i _. rewrite <- Sum_scal. apply Sum_ext. intros j _. ring. Qed.
Lemma quad_Sum {A} (la : list A) (w : A -> nat -> nat -> R) v :
  Sum (seq 0 3) (fun i => Sum (seq 0 3) (fun j => v i * Sum la (fun a => w a i j) * v j))
  = Sum la (fun a => Sum (seq 0 3) (fun i => Sum (seq 0 3) (fun j => v i * w a i j * v j))).
Proof.
  rewrite (Sum_exchange la). apply Sum_ext. intros i _. rewrite (Sum_exchange la). apply Sum_ext. intros j _.
  rewrite <- Sum_scal, <- Sum_scal_r. reflexivity.
Qed.

Lemma psd_scal c w : 0 <= c -> psd3 w -> psd3 (fun i j => c * w i j).
Proof. intros Hc H v. rewrite quad_scal. apply Rmult_le_pos; [exact Hc|apply H]. Qed.
Lemma psd_Sum {A} (la : list A) (w : A -> nat -> nat -> R) : (forall a, In a la -> psd3 (w a)) -> psd3 (fun i j => Sum la (fun a => w a i j)).
Proof. intros H v. rewrite quad_Sum. apply Sum_nonneg. intros a Ha. apply (H a Ha v). Qed.
Lemma psd_ext w w' : (forall i j, w i j = w' i j) -> psd3 w -> psd3 w'.
Proof.
  intros E H v. specialize (H v). eapply Rle_trans; [exact H|]. right. apply Sum_ext. intros i _. apply Sum_ext. intros j _. rewrite E. reflexivity.
Qed.

Lemma dw_formula_psd e M kB T fmin a : 0 < M a -> 0 < kB -> 0 <= fmin -> has_zero (et e) = false ->
  (forall q, (q < nq (et e))%nat -> 0 <= wt (et e) q) -> 0 < total_weight (et e) ->
  psd3 (dw_formula e M kB T fmin a) /\ symmetric3 (dw_formula e M kB T fmin a).
Proof.
  intros HM Hk Hf Hz Hw Ht. split.
  - unfold dw_formula. fold (total_weight (et e)). apply psd_scal.
    + left. apply Rinv_0_lt_compat. nra.
    + apply psd_Sum. intros q Hq. apply in_seq in Hq. apply psd_scal; [apply Hw; lia|]. apply psd_Sum. intros m Hm.
      apply filter_In in Hm. destruct Hm as [Hm HL]. apply in_seq in Hm. apply Rleb_iff in HL.
      assert (Hp : 0 < freq (et e) q m).
      { pose proof (has_zero_false _ q m Hz ltac:(lia) ltac:(lia)). destruct (Rtotal_order 0 (freq (et e) q m)) as [A|[A|A]]; [exact A|congruence|lra]. }
      apply (psd_ext (fun i j => (coth_factor kB T (freq (et e) q m) / freq (et e) q m) * evec_term e q m a i j)).
      { intros i j. unfold evec_term, Rdiv. ring. }
      apply psd_scal.
      * left. apply Rdiv_lt_0_compat; [apply coth_factor_pos; assumption|exact Hp].
      * intros v. rewrite evec_term_quad. apply Rplus_le_le_0_compat; apply pow2_ge_0.
  - intros i j _ _. unfold dw_formula. f_equal. apply Sum_ext. intros q _. f_equal. apply Sum_ext. intros m _. cbn [Cmul Cconj re im]. unfold Rdiv. ring.
Qed.

(** Symmetrisation. *)
Lemma conjugate_quad r w v : Sum (seq 0 3) (fun i => Sum (seq 0 3) (fun m => v i * conjugate r w i m * v m))
  = Sum (seq 0 3) (fun j => Sum (seq 0 3) (fun l => Sum (seq 0 3) (fun i => v i * r i j) * w j l * Sum (seq 0 3) (fun i => v i * r i l))).
Proof. unfold conjugate. cbn [seq]. rewrite !Sum_cons, !Sum_nil. ring. Qed.
Lemma conjugate_psd r w : psd3 w -> psd3 (conjugate r w).
Proof. intros H v. rewrite conjugate_quad. apply (H (fun j => Sum (seq 0 3) (fun i => v i * r i j))). Qed.
Lemma conjugate_sym r w : symmetric3 w -> symmetric3 (conjugate r w).
Proof.
  intros H i m _ _. unfold conjugate. cbn [seq]. rewrite !Sum_cons, !Sum_nil.
  rewrite (H 1 0)%nat, (H 2 0)%nat, (H 2 1)%nat by lia. ring.
Qed.

Definition source_term (n : nat) (w : nat -> nat -> nat -> R) (j i m : nat) (o : symop) : R :=
  match last_source n (image o) j with Some k => conjugate (rotc o) (w k) i m | None => 0 end.
Lemma sym_fold n w ops acc j i m : fold_left (sym_step n w) ops acc j i m = acc j i m + Sum ops (source_term n w j i m).
Proof.
  revert acc. induction ops as [|o ops IH]; intros acc; cbn [fold_left]; [rewrite Sum_nil; lra|].
  rewrite IH, Sum_cons. unfold sym_step, source_term at 2. destruct (last_source n (image o) j); lra.
Qed.
Lemma symmetrise_sum n ops w j i m : symmetrise n ops w j i m = / INR (length ops) * Sum ops (source_term n w j i m).
Proof. unfold symmetrise. rewrite sym_fold. unfold Rdiv. ring. Qed.

Lemma last_source_in n im j k : last_source n im j = Some k -> (k < n)%nat /\ im k = j.
Proof.
  unfold last_source. rewrite <- (seq_length n 0) at 2.
  assert (G : forall l acc, fold_left (fun acc k => if Nat.eqb (im k) j then Some k else acc) l acc = Some k ->
     acc = Some k \/ (In k l /\ im k = j)).
  { induction l as [|a l IH]; intros acc H; cbn [fold_left] in H; [left; exact H|].
    destruct (IH _ H) as [E|[E1 E2]].
    - destruct (Nat.eqb_spec (im a) j) as [Ea|Ea]; [injection E as <-; right; split; [left; reflexivity|exact Ea]|left; exact E].
    - right. split; [right; exact E1|exact E2]. }
  intros H. destruct (G _ _ H) as [E|[E1 E2]]; [discriminate|]. apply in_seq in E1. rewrite seq_length. split; [lia|exact E2].
Qed.
Lemma last_source_inj n im j k : (forall a b, (a < n)%nat -> (b < n)%nat -> im a = im b -> a = b) -> (k < n)%nat -> im k = j ->
  last_source n im j = Some k.
Proof.
  intros Hinj Hk Ej. destruct (last_source n im j) as [k'|] eqn:E.
  - destruct (last_source_in _ _ _ _ E) as [A B]. f_equal. apply Hinj; [exact A|exact Hk|congruence].
  - exfalso. unfold last_source in E.
    assert (G : forall l acc, In k l \/ acc <> None -> fold_left (fun acc k => if Nat.eqb (im k) j then Some k else acc) l acc <> None).
    { induction l as [|a l IH]; intros acc H; cbn [fold_left]; [destruct H as [[]|H]; exact H|]. apply IH.
      destruct (Nat.eqb_spec (im a) j) as [Ea|Ea]; [right; discriminate|]. destruct H as [[H|H]|H]; [congruence|left; exact H|right; exact H]. }
    apply (G (seq 0 n) None); [left; apply in_seq; lia|exact E].
Qed.

Lemma source_term_psd n w j o : (forall k, (k < n)%nat -> psd3 (w k)) -> psd3 (fun i m => source_term n w j i m o).
Proof.
  intros H. unfold source_term. destruct (last_source n (image o) j) as [k|] eqn:E.
  - apply last_source_in in E. apply (conjugate_psd (rotc o) (w k)). apply H. lia.
  - intros v. rewrite (Sum_ext _ _ (fun _ => 0)); [rewrite Sum_zero; lra|]. intros i _. rewrite (Sum_ext _ _ (fun _ => 0)); [apply Sum_zero|]. intros; ring.
Qed.
Lemma symmetrise_psd n ops w j : (forall k, (k < n)%nat -> psd3 (w k) /\ symmetric3 (w k)) ->
  psd3 (symmetrise n ops w j) /\ symmetric3 (symmetrise n ops w j).
Proof.
  intros H. split.
  - apply (psd_ext (fun i m => / INR (length ops) * Sum ops (source_term n w j i m))); [intros; symmetry; apply symmetrise_sum|].
    apply psd_scal.
    + destruct ops; [cbn; rewrite Rinv_0; lra|]. left. apply Rinv_0_lt_compat. apply lt_0_INR. cbn; lia.
    + apply (psd_Sum ops (fun o i m => source_term n w j i m o)). intros o _. apply source_term_psd. intros k Hk. apply H. exact Hk.
  - intros i m Hi Hm. rewrite !symmetrise_sum. f_equal. apply Sum_ext. intros o _. unfold source_term.
    destruct (last_source n (image o) j) as [k|] eqn:E; [|reflexivity]. apply last_source_in in E. apply conjugate_sym; [apply H; lia|exact Hi|exact Hm].
Qed.

(** Invariance of the symmetrised matrices. *)
Lemma conjugate_comp r s w i m : (forall a b, (a < 3)%nat -> (b < 3)%nat -> True) -> (i < 3)%nat -> (m < 3)%nat ->
  conjugate (fun i j => Sum (seq 0 3) (fun k => r i k * s k j)) w i m = conjugate r (conjugate s w) i m.
Proof. intros _ _ _. unfold conjugate. cbn [seq]. rewrite !Sum_cons, !Sum_nil. ring. Qed.
Lemma conjugate_ext r r' w w' i m : (i < 3)%nat -> (m < 3)%nat ->
  (forall a b, (a < 3)%nat -> (b < 3)%nat -> r a b = r' a b) -> (forall a b, (a < 3)%nat -> (b < 3)%nat -> w a b = w' a b) ->
  conjugate r w i m = conjugate r' w' i m.
Proof.
  intros Hi Hm H H'. unfold conjugate. apply Sum_ext. intros j Hj. apply in_seq in Hj. apply Sum_ext. intros l Hl. apply in_seq in Hl.
  rewrite !H, H' by lia. reflexivity.
Qed.
Lemma conjugate_scal r c w i m : conjugate r (fun a b => c * w a b) i m = c * conjugate r w i m.
Proof. unfold conjugate. cbn [seq]. rewrite !Sum_cons, !Sum_nil. ring. Qed.
Lemma conjugate_Sum {A} (la : list A) r (w : A -> nat -> nat -> R) i m :
  conjugate r (fun a b => Sum la (fun x => w x a b)) i m = Sum la (fun x => conjugate r (w x) i m).
Proof.
  unfold conjugate. rewrite (Sum_exchange la). apply Sum_ext. intros j _. rewrite (Sum_exchange la). apply Sum_ext. intros l _.
  rewrite <- Sum_scal, <- Sum_scal_r. reflexivity.
Qed.

Lemma perm_inj n (im : nat -> nat) : Permutation (map im (seq 0 n)) (seq 0 n) ->
  (forall a b, (a < n)%nat -> (b < n)%nat -> im a = im b -> a = b) /\ (forall a, (a < n)%nat -> (im a < n)%nat) /\
  (forall j, (j < n)%nat -> exists k, (k < n)%nat /\ im k = j).
Proof.
  intros P. split; [|split].
  - assert (ND : NoDup (map im (seq 0 n))) by (apply (Permutation_NoDup (Permutation_sym P)); apply seq_NoDup).
    intros a b Ha Hb E.
    assert (Na : nth_error (map im (seq 0 n)) a = Some (im a)) by (rewrite nth_error_map, (nth_error_nth' (seq 0 n) 0%nat) by (rewrite seq_length; lia); rewrite seq_nth by lia; reflexivity).
    assert (Nb : nth_error (map im (seq 0 n)) b = Some (im b)) by (rewrite nth_error_map, (nth_error_nth' (seq 0 n) 0%nat) by (rewrite seq_length; lia); rewrite seq_nth by lia; reflexivity).
    rewrite NoDup_nth_error in ND. apply ND; [rewrite map_length, seq_length; exact Ha|]. rewrite Na, Nb, E. reflexivity.
  - intros a Ha. assert (I : In (im a) (seq 0 n)) by (apply (Permutation_in _ P); apply in_map; apply in_seq; lia). apply in_seq in I. lia.
  - intros j Hj. assert (I : In j (map im (seq 0 n))) by (apply (Permutation_in _ (Permutation_sym P)); apply in_seq; lia).
    apply in_map_iff in I. destruct I as [k [E I]]. apply in_seq in I. exists k. split; [lia|exact E].
Qed.

Lemma Sum_index {A} (l : list A) d (f : A -> R) : Sum l f = Sum (seq 0 (length l)) (fun s => f (nth s l d)).
Proof.
  induction l as [|a l IH]; [reflexivity|]. cbn [length seq]. rewrite !Sum_cons. cbn [nth]. f_equal.
  rewrite <- seq_shift, Sum_map. exact IH.
Qed.

Lemma symmetrise_invariant n ops w g k i m : permutes_atoms n ops -> closed_ops n ops -> In g ops ->
  (k < n)%nat -> (i < 3)%nat -> (m < 3)%nat ->
  symmetrise n ops w (image g k) i m = conjugate (rotc g) (symmetrise n ops w k) i m.
Proof.
  intros Hperm Hcl Hg Hk Hi Hm. destruct (Hcl g Hg) as [sigma [P Hs]].
  rewrite symmetrise_sum.
  rewrite (conjugate_ext (rotc g) (rotc g) (symmetrise n ops w k) (fun a b => / INR (length ops) * Sum ops (source_term n w k a b)) i m Hi Hm (fun _ _ _ _ => eq_refl) (fun a b _ _ => symmetrise_sum n ops w k a b)).
  rewrite conjugate_scal. f_equal.
  rewrite (conjugate_Sum ops (rotc g) (fun o a b => source_term n w k a b o)).
  rewrite (Sum_index ops g). rewrite <- (Sum_perm _ _ _ P), Sum_map.
  rewrite (Sum_index ops g). apply Sum_ext. intros s Hin. apply in_seq in Hin. destruct (Hs s g ltac:(lia)) as [Hr Him].
  assert (Hos : In (nth s ops g) ops) by (apply nth_In; lia).
  assert (Hsl : (sigma s < length ops)%nat).
  { destruct (perm_inj _ _ P) as [_ [R _]]. apply R. lia. }
  assert (Hos' : In (nth (sigma s) ops g) ops) by (apply nth_In; exact Hsl).
  destruct (perm_inj n _ (Hperm _ Hos)) as [I1 [I2 I3]]. destruct (perm_inj n _ (Hperm _ Hos')) as [J1 _].
  destruct (I3 k Hk) as [k0 [Hk0 E0]].
  unfold source_term at 1. rewrite (last_source_inj n _ (image g k) k0 J1 Hk0) by (rewrite Him, E0 by exact Hk0; reflexivity).
  rewrite (conjugate_ext _ (fun a b => Sum (seq 0 3) (fun c => rotc g a c * rotc (nth s ops g) c b)) _ (w k0) i m Hi Hm (fun a b Ha Hb => Hr a b Ha Hb) (fun _ _ _ _ => eq_refl)).
  rewrite conjugate_comp by auto. apply conjugate_ext; auto. intros a b _ _. unfold source_term.
  rewrite (last_source_inj n _ k k0 I1 Hk0 E0). reflexivity.
Qed.
