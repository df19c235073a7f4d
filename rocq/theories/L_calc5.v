(** The Ewald sum of one atom in a unit cube at gamma, with Born charge b and dielectric e,
    when the stored data belong to charge 1 and dielectric 1 (C64). *)
From Verif Require Import Base Cpx Vec3 M_grid M_cell M_qpts M_dynmat M_dipole L_util L_qpts L_dynmat2 L_dipole L_nac L_total L_total2 L_cmain.
Open Scope R_scope.

Lemma Sum_pos_at {A} (l : list A) f x : (forall y, In y l -> 0 <= f y) -> In x l -> 0 < f x -> 0 < Sum l f.
Proof.
  intros H Hx Hp. apply in_split in Hx. destruct Hx as (l1 & l2 & ->). rewrite Sum_app, Sum_cons.
  assert (0 <= Sum l1 f) by (apply Sum_nonneg; intros y Y; apply H; apply in_or_app; now left).
  assert (0 <= Sum l2 f) by (apply Sum_nonneg; intros y Y; apply H; apply in_or_app; right; now right). lra.
Qed.
Definition flip (a : nat) (g : Z3) : Z3 := let '(x, y, z) := g in match a with 0%nat => (- x, y, z)%Z | 1%nat => (x, - y, z)%Z | _ => (x, y, - z)%Z end.
Lemma flip_flip a g : flip a (flip a g) = g.
Proof. destruct g as [[x y] z]. destruct a as [|[|a]]; cbn; rewrite Z.opp_involutive; reflexivity. Qed.
Lemma flip_norm a g : znorm (flip a g) = znorm g.
Proof. destruct g as [[x y] z]. destruct a as [|[|a]]; cbn; rewrite Z.abs_opp; reflexivity. Qed.
Notation gs := (fun M => flat_map shell (seq 1 M)).
Lemma in_gs M c : In c (gs M) <-> (1 <= znorm c < 1 + M)%nat.
Proof.
  rewrite in_flat_map. split.
  - intros [k [Hk Hc]]. apply in_seq in Hk. apply in_shell in Hc. lia.
  - intros H. exists (znorm c). split; [apply in_seq; lia|apply in_shell; reflexivity].
Qed.
Lemma nodup_gs M : NoDup (gs M).
Proof.
  apply NoDup_flat_map; [apply seq_NoDup|intros; apply NoDup_shell|].
  intros x y c _ _ H1 H2. apply in_shell in H1. apply in_shell in H2. congruence.
Qed.
Lemma flip_perm a M : Permutation (map (flip a) (gs M)) (gs M).
Proof.
  apply NoDup_Permutation; [|apply nodup_gs|].
  - apply NoDup_map_inj; [|apply nodup_gs]. intros x y _ _ E. rewrite <- (flip_flip a x), <- (flip_flip a y), E. reflexivity.
  - intros c. rewrite in_map_iff. split.
    + intros [y [<- Hy]]. apply in_gs. apply in_gs in Hy. rewrite flip_norm. exact Hy.
    + intros H. exists (flip a c). split; [apply flip_flip|]. apply in_gs. apply in_gs in H. rewrite flip_norm. exact H.
Qed.
Notation rec3 := (reciprocal_cell unit_cell3).
Definition gvec (g : Z3) : V3 := vmul (zvec g) rec3.
Lemma gvec_val g : gvec g = vscal (2 * PI) (zvec g).
Proof. unfold gvec. rewrite unit_recip. destruct g as [[x y] z]. cbn. apply V3_eq; ring. Qed.
Notation unit := unit_cell3.
Definition iso (e : R) : M3 := ((e, 0, 0), (0, e, 0), (0, 0, e)).
Lemma iso_one : iso 1 = unit. Proof. reflexivity. Qed.
Definition g2 (g : Z3) : R := dot (zvec g) (zvec g).
Lemma iso_len e l2 g : 0 < l2 -> k_len_2 (iso e) l2 (gvec g) = e * (PI * PI * g2 g / l2).
Proof.
  intros L. rewrite gvec_val. destruct g as [[x y] z]. unfold k_len_2, idx3, g2. rewrite !Sum_cons, !Sum_nil. unfold mget, iso. cbn. field. lra.
Qed.
Lemma g2_pos M g : In g (gs M) -> 0 < g2 g.
Proof.
  intros H. apply in_gs in H. destruct g as [[x y] z]. unfold g2. cbn in *.
  assert (E : (0 < x * x + y * y + z * z)%Z).
  { destruct (Z.eq_dec x 0) as [->|]; [|nia]. destruct (Z.eq_dec y 0) as [->|]; [|nia]. destruct (Z.eq_dec z 0) as [->|]; [cbn in H; lia|nia]. }
  apply IZR_lt in E. rewrite !plus_IZR, !mult_IZR in E. lra.
Qed.
Definition S (l2 e : R) (M a b : nat) : R := Sum (gs M) (fun g => recip_term (iso e) l2 (gvec g) a b).
Lemma flip_comp a g c : (a < 3)%nat -> (c < 3)%nat -> comp (gvec (flip a g)) c = (if Nat.eqb a c then -1 else 1) * comp (gvec g) c.
Proof.
  intros A Cc. rewrite !gvec_val. destruct g as [[x y] z]. destruct a as [|[|[|a]]]; try lia; destruct c as [|[|[|c]]]; try lia; cbn; rewrite ?opp_IZR; ring.
Qed.
Lemma flip_g2 a g : g2 (flip a g) = g2 g.
Proof. destruct g as [[x y] z]. destruct a as [|[|a]]; unfold g2; cbn; rewrite opp_IZR; ring. Qed.
Lemma S_off l2 e M a b : 0 < l2 -> (a < 3)%nat -> (b < 3)%nat -> a <> b -> S l2 e M a b = 0.
Proof.
  intros L A B N. assert (E : S l2 e M a b = - S l2 e M a b).
  { unfold S. rewrite <- (Sum_perm (map (flip a) (gs M)) (gs M)) at 1 by apply flip_perm. rewrite Sum_map, <- Sum_opp. apply Sum_ext. intros g _.
    unfold recip_term. rewrite !iso_len by exact L. rewrite flip_g2, !flip_comp by assumption. rewrite Nat.eqb_refl. destruct (Nat.eqb_spec a b); [contradiction|]. ring. }
  lra.
Qed.
Lemma term_diag l2 e g a : 0 < l2 -> recip_term (iso e) l2 (gvec g) a a = (comp (gvec g) a) ^ 2 * (exp (- (e * (PI * PI * g2 g / l2))) / (e * (PI * PI * g2 g / l2))).
Proof. intros L. unfold recip_term. rewrite iso_len by exact L. ring. Qed.
Definition axis (a : nat) : Z3 := match a with 0%nat => (1,0,0)%Z | 1%nat => (0,1,0)%Z | _ => (0,0,1)%Z end.
Lemma axis_in a M : (1 <= M)%nat -> In (axis a) (gs M).
Proof. intros H. apply in_gs. destruct a as [|[|a]]; cbn; lia. Qed.
Lemma axis_comp a : (a < 3)%nat -> comp (gvec (axis a)) a = 2 * PI.
Proof. intros A. rewrite gvec_val. destruct a as [|[|[|a]]]; try lia; cbn; ring. Qed.
Lemma arg_pos l2 e M g : 0 < l2 -> 0 < e -> In g (gs M) -> 0 < e * (PI * PI * g2 g / l2).
Proof. intros L E G. apply Rmult_lt_0_compat; [exact E|]. apply Rdiv_lt_0_compat; [|exact L]. pose proof PI_RGT_0. apply Rmult_lt_0_compat; [nra|exact (g2_pos M g G)]. Qed.
Lemma S_pos l2 e M a : 0 < l2 -> 0 < e -> (1 <= M)%nat -> (a < 3)%nat -> 0 < S l2 e M a a.
Proof.
  intros L E M1 A. unfold S. apply (Sum_pos_at _ _ (axis a)); [|exact (axis_in a M M1)|].
  - intros g G. rewrite term_diag by exact L. apply Rmult_le_pos; [apply pow2_ge_0|]. apply Rlt_le, Rdiv_lt_0_compat; [apply exp_pos|]. exact (arg_pos l2 e M g L E G).
  - rewrite term_diag by exact L. rewrite axis_comp by exact A. pose proof PI_RGT_0. apply Rmult_lt_0_compat; [nra|]. apply Rdiv_lt_0_compat; [apply exp_pos|]. exact (arg_pos l2 e M _ L E (axis_in a M M1)).
Qed.
Lemma decay t : 0 < t -> exp (- (2 * t)) / (2 * t) < exp (- (1 * t)) / (1 * t).
Proof.
  intros T. apply (Rmult_lt_reg_r (2 * t)); [lra|]. unfold Rdiv. rewrite !Rmult_assoc. rewrite Rinv_l by lra. replace (/ (1 * t) * (2 * t)) with 2 by (field; lra).
  assert (exp (- (2 * t)) < exp (- (1 * t))) by (apply exp_increasing; lra). pose proof (exp_pos (- (1 * t))). lra.
Qed.
Lemma S_decay l2 M a : 0 < l2 -> (1 <= M)%nat -> (a < 3)%nat -> S l2 2 M a a < S l2 1 M a a.
Proof.
  intros L M1 A. enough (0 < Sum (gs M) (fun g => recip_term (iso 1) l2 (gvec g) a a - recip_term (iso 2) l2 (gvec g) a a)) as P by (rewrite Sum_minus in P; unfold S; lra).
  assert (K : forall g, In g (gs M) -> exp (- (2 * (PI * PI * g2 g / l2))) / (2 * (PI * PI * g2 g / l2)) < exp (- (1 * (PI * PI * g2 g / l2))) / (1 * (PI * PI * g2 g / l2))).
  { intros g G. apply decay. pose proof (arg_pos l2 1 M g L Rlt_0_1 G). lra. }
  apply (Sum_pos_at _ _ (axis a)); [|exact (axis_in a M M1)|].
  - intros g G. rewrite !term_diag by exact L. specialize (K g G). pose proof (pow2_ge_0 (comp (gvec g) a)). nra.
  - rewrite !term_diag by exact L. specialize (K _ (axis_in a M M1)). rewrite axis_comp by exact A. pose proof PI_RGT_0. assert (0 < (2 * PI) ^ 2) by nra. nra.
Qed.

(** ** The stored data, for charge b0 and dielectric e0 *)
Section D.
Variable erfc : R -> R.
Variables b0 e0 : R.
Hypothesis e0_pos : 0 < e0.
Definition lam1 : R := upper_lambda unit (iso e0) 1 1.
Lemma lam1_pos : 0 < lam1.
Proof.
  unfold lam1, upper_lambda. pose proof PI_RGT_0. rewrite Rmult_1_r. unfold np_linalg_det. repeat apply Rmult_lt_0_compat.
  - apply sqrt_lt_R0; assumption.
  - apply Rinv_0_lt_compat. apply exp_pos.
  - apply exp_pos.
  - apply exp_pos.
Qed.
Lemma l2_pos : 0 < lam1 ^ 2. Proof. apply pow_lt, lam1_pos. Qed.
Definition factor : R := PI / (cell_volume unit * lam1 ^ 2).
Lemma factor_pos : 0 < factor.
Proof. unfold factor. pose proof PI_RGT_0. pose proof l2_pos. apply Rdiv_lt_0_compat; [assumption|]. apply Rmult_lt_0_compat; [|assumption]. unfold cell_volume. cbn. lra. Qed.

Lemma Cabs_pos r : 0 < r -> 0 < Cabs (RtoC r).
Proof. intros H. unfold Cabs. apply sqrt_lt_R0. unfold Cnorm2. cbn [re im RtoC]. nra. Qed.
Lemma Cdiv_one : Cdiv Cone Cone = Cone.
Proof. rewrite <- cis_0, Cdiv_cis. f_equal. ring. Qed.
Lemma phase_one g : nth 0 (snd (g_row rec3 [vzero] g)) Czero = Cone.
Proof. rewrite g_row_nth by (cbn; lia). cbn [nth]. replace (2 * PI * dot (zvec g) vzero) with 0; [apply cis_0|]. destruct g as [[? ?] ?]. cbn. ring. Qed.
Lemma tmp_val e l2 l a b : recip_q0_tmp (iso e) l2 (map (g_row rec3 [vzero]) l) 0 0 a b = RtoC (Sum l (fun g => recip_term (iso e) l2 (gvec g) a b)).
Proof.
  unfold recip_q0_tmp. cbn [Nat.ltb Nat.leb]. rewrite Csum_map. rewrite (Csum_ext _ _ (fun g => RtoC (recip_term (iso e) l2 (gvec g) a b))).
  - apply C_eq; cbn; [reflexivity|]. apply Sum_zero_ext. reflexivity.
  - intros g _. rewrite phase_one, Cdiv_one. cbn [g_row fst]. apply C_eq; cbn; unfold gvec; ring.
Qed.
Lemma iso_contract e m i j a b : (a < 3)%nat -> (b < 3)%nat -> born_contract (fun _ => iso e) m i j a b = Cscal (e * e) (m i j a b).
Proof.
  intros A B. unfold born_contract, idx3. rewrite !Csum_cons, !Csum_nil. unfold mget, iso.
  destruct a as [|[|[|a]]]; try lia; destruct b as [|[|[|b]]]; try lia; apply C_eq; cbn; ring.
Qed.
Definition dd := dipole_init erfc unit [vzero] (fun _ => iso b0) (iso e0) 1.
Lemma first_shell : 0 < block_amax 1 (recip_q0_tmp (iso e0) (lam1 ^ 2) (map (g_row rec3 [vzero]) (shell 1))).
Proof.
  apply Rlt_le_trans with (Cabs (recip_q0_tmp (iso e0) (lam1 ^ 2) (map (g_row rec3 [vzero]) (shell 1)) 0 0 0 0)).
  - rewrite tmp_val. assert (P : 0 < S (lam1 ^ 2) e0 1 0 0) by (apply S_pos; [exact l2_pos|exact e0_pos|lia|lia]). unfold S in P. cbn [seq flat_map] in P. rewrite app_nil_r in P.
    apply Cabs_pos. exact P.
  - unfold block_amax. apply amax_ge. apply in_flat_map. exists 0%nat. split; [now left|]. apply in_flat_map. exists 0%nat. split; [now left|]. apply in_flat_map. exists 0%nat. split; [now left|]. apply in_map_iff. exists 0%nat. split; [reflexivity|now left].
Qed.
Lemma dd_shape : exists M, (1 <= M)%nat /\ dd_lambda dd = lam1 /\ used_g dd vzero = map (g_row rec3 [vzero]) (gs M) /\ dd_cells dd = [] /\ dd_H dd = [] /\
  forall a b, (a < 3)%nat -> (b < 3)%nat -> dd_q0 dd 0 a b = RtoC (1 / 2 * (b0 * b0) * (factor * S (lam1 ^ 2) e0 M a b + factor * S (lam1 ^ 2) e0 M b a)).
Proof.
  destruct (one_atom_no_cells erfc unit vzero (fun _ => iso b0) (iso e0) 1) as [Hc Hh]. fold dd in Hc, Hh. rewrite Hc, Hh.
  unfold dd, dipole_init in *. change (upper_lambda unit (iso e0) (length [vzero]) 1) with lam1 in *. set (mk := H_row _ _ _ _ _) in *.
  destruct (real_shells mk (length [vzero]) (seq 0 50) 0) as [cells H]. 
  assert (X : exists M, (1 <= M)%nat /\ fst (recip_shells (iso e0) rec3 (lam1 ^ 2) [vzero] (seq 1 49) 0 (fun _ _ _ _ => Czero)) = map (g_row rec3 [vzero]) (gs M) /\
     forall a b, snd (recip_shells (iso e0) rec3 (lam1 ^ 2) [vzero] (seq 1 49) 0 (fun _ _ _ _ => Czero)) 0%nat 0%nat a b = RtoC (S (lam1 ^ 2) e0 M a b)).
  { change (seq 1 49) with (1 :: seq 2 48)%nat. cbn [recip_shells]. change (Nat.eqb 1 1) with true. cbv iota.
    assert (Q : Rltb (frac_tol * block_amax (length [vzero]) (recip_q0_tmp (iso e0) (lam1 ^ 2) (map (g_row rec3 [vzero]) (shell 1)))) (block_amax (length [vzero]) (recip_q0_tmp (iso e0) (lam1 ^ 2) (map (g_row rec3 [vzero]) (shell 1)))) = true).
    { apply Rltb_iff. pose proof first_shell. pose proof frac_tol_range. change (length [vzero]) with 1%nat. nra. }
    rewrite Q. clear Q.
    match goal with |- context [recip_shells _ _ _ _ _ ?f ?acc] => set (acc' := acc); set (f' := f) end.
    destruct (recip_shells_spec (iso e0) rec3 (lam1 ^ 2) [vzero] (seq 2 48) f' acc') as [N [HN [Hg Ha]]].
    destruct (recip_shells (iso e0) rec3 (lam1 ^ 2) [vzero] (seq 2 48) f' acc') as [l sm]. cbn [fst snd] in *.
    rewrite seq_length in HN. rewrite firstn_seq in Hg, Ha by exact HN.
    exists (Datatypes.S N). split; [lia|]. cbn [seq flat_map]. rewrite map_app, Hg. split; [reflexivity|].
    intros a b. rewrite Ha. unfold acc', S. cbn [seq flat_map]. rewrite !tmp_val, Sum_app. apply C_eq; cbn; ring. }
  destruct X as (M & M1 & Xg & Xs). exists M. split; [exact M1|].
  destruct (recip_shells (iso e0) rec3 (lam1 ^ 2) [vzero] (seq 1 49) 0 (fun _ _ _ _ => Czero)) as [l sm]. cbn [fst snd] in Xg, Xs.
  cbn [dd_lambda dd_cells dd_H dd_q0 dd_gcart dd_gph] in *. split; [reflexivity|].
  split. { unfold used_g. cbn [dd_gcart dd_gph]. rewrite combine_fst_snd, is_gamma_vzero. cbn [tl]. exact Xg. }
  split; [reflexivity|]. split; [reflexivity|]. subst cells H.
  intros a b A B. unfold dipole_q0. change (length [vzero]) with 1%nat. cbn [seq].
  match goal with |- context [born_contract _ ?f _ _ a b] => set (diff := f) end.
  assert (Q : forall a b, diff 0%nat 0%nat a b = RtoC (factor * S (lam1 ^ 2) e0 M a b)).
  { intros u v. unfold diff, fill_lower. cbn [Nat.ltb Nat.leb]. rewrite Xs. unfold triu_fill. destruct (pair_index 0 0 (triu 1)); apply C_eq; cbn [Csub Cscal re im RtoC Cadd Copp Czero]; rewrite ?Sum_nil; unfold factor; ring. }
  clearbody diff. rewrite !Csum_cons, !Csum_nil. rewrite !(iso_contract b0) by assumption. rewrite !Q. apply C_eq; cbn; ring.
Qed.
(** The correction at gamma *)
Lemma stale_dipole b e x y : (x < 3)%nat -> (y < 3)%nat -> exists M, (1 <= M)%nat /\ dipole_correction unit [vzero] (fun _ => iso b) (iso e) dd vzero x y = RtoC (factor * (b * b * S (lam1 ^ 2) e M x y - 1 / 2 * (b0 * b0) * (S (lam1 ^ 2) e0 M x y + S (lam1 ^ 2) e0 M y x))).
Proof.
  intros X Y. destruct dd_shape as (M & M1 & Hl & Hg & Hc & Hh & Hq). exists M. split; [exact M1|].
  unfold dipole_correction. rewrite qnorm_vzero.
  rewrite !Nat.div_small, !Nat.mod_small by assumption. rewrite Nat.eqb_refl. rewrite iso_contract by assumption. rewrite Hq by assumption.
  unfold add_lower. cbn [Nat.ltb Nat.leb]. unfold real_dipole. rewrite Hc, Hh. unfold recip_dipole. cbn [Nat.ltb Nat.leb]. rewrite Hl, Hg, Csum_map.
  rewrite (Csum_ext _ _ (fun g => RtoC (recip_term (iso e) (lam1 ^ 2) (gvec g) x y))).
  - unfold triu_fill. assert (T : RtoC (S (lam1 ^ 2) e M x y) = Csum (gs M) (fun g => RtoC (recip_term (iso e) (lam1 ^ 2) (gvec g) x y))).
    { apply C_eq; cbn; [reflexivity|]. symmetry. apply Sum_zero_ext. reflexivity. }
    rewrite <- T. fold factor. destruct (pair_index 0 0 (triu (length [vzero]))); cbn [combine]; rewrite ?Csum_nil; apply C_eq; cbn; ring.
  - intros g _. rewrite phase_one. cbn [nth]. replace (2 * PI * dot vzero vzero) with 0 by (cbn; ring). rewrite cis_0.
    replace (Cmul Cone Cone) with Cone by (apply C_eq; cbn; ring). rewrite Cdiv_one. cbn [g_row fst]. fold (gvec g).
    replace (vadd (gvec g) (vmul vzero rec3)) with (gvec g); [apply C_eq; cbn; ring|]. rewrite unit_recip. destruct (gvec g) as [[? ?] ?]. cbn. apply V3_eq; ring.
Qed.
End D.
