(** Lemmas for C37. *)
From Verif Require Import Base L_util M_qpts M_path M_dos M_bins M_kin S_kin L_path2.
Open Scope R_scope.

Lemma cos_shift x (k : Z) : cos (x + IZR k * 2 * PI) = cos x.
Proof.
  destruct (Z_le_gt_dec 0 k) as [H|H].
  - rewrite <- (Z2Nat.id k) by exact H. rewrite <- INR_IZR_INZ. replace (x + INR (Z.to_nat k) * 2 * PI) with (x + 2 * INR (Z.to_nat k) * PI) by ring.
    apply cos_period.
  - rewrite <- (cos_period (x + IZR k * 2 * PI) (Z.to_nat (- k))). f_equal. rewrite INR_IZR_INZ, Z2Nat.id by lia. rewrite opp_IZR. ring.
Qed.

Lemma floor_unique x k : IZR k <= x < IZR k + 1 -> Int_part x = k.
Proof. intros [A B]. unfold Int_part. assert (up x = (k + 1)%Z); [symmetry; apply tech_up; rewrite plus_IZR; lra|lia]. Qed.

Lemma Rmax_list_in x l : In (Rmax_list x l) (x :: l).
Proof.
  unfold Rmax_list. revert x. induction l as [|a l IH]; intros x; cbn [fold_left]; [left; reflexivity|].
  destruct (IH (Rmax x a)) as [E|E]; [|right; right; exact E]. rewrite <- E. unfold Rmax. destruct (Rle_dec x a); [right; left; reflexivity|left; reflexivity].
Qed.
Lemma Rmin_list_in x l : In (Rmin_list x l) (x :: l).
Proof.
  unfold Rmin_list. revert x. induction l as [|a l IH]; intros x; cbn [fold_left]; [left; reflexivity|].
  destruct (IH (Rmin x a)) as [E|E]; [|right; right; exact E]. rewrite <- E. unfold Rmin. destruct (Rle_dec x a); [left; reflexivity|right; left; reflexivity].
Qed.

Section Range.
Variables a b : R.
Let lo := Rmin a b.
Let hi := Rmax a b.
Let k := Int_part (lo / (PI * 2)).
Let lower := lo - IZR k * (PI * 2).
Let upper := hi - IZR k * 2 * PI.

Lemma lo_hi : lo <= hi.
Proof. unfold lo, hi. apply Rle_trans with a; [apply Rmin_l|apply Rmax_l]. Qed.
Lemma lower_bounds : 0 <= lower < 2 * PI.
Proof.
  unfold lower, k. pose proof PI_RGT_0 as P. destruct (base_Int_part (lo / (PI * 2))) as [A B].
  assert (E : lo = lo / (PI * 2) * (PI * 2)) by (field; lra). set (z := IZR (Int_part (lo / (PI * 2)))) in *. set (r := lo / (PI * 2)) in *.
  rewrite E. nra.
Qed.
Lemma lower_upper : lower <= upper.
Proof. unfold lower, upper. pose proof lo_hi. lra. Qed.

Lemma l2_cases x : In x (cos a :: snd (cos_range a b, (let l0 := [cos b] in
  let l1 := if (Rltb lower PI && Rltb PI upper)%bool then l0 ++ [-1] else l0 in
  if (Rltb lower (2 * PI) && Rltb (2 * PI) upper)%bool then l1 ++ [1] else l1))) <->
  x = cos a \/ x = cos b \/ (x = -1 /\ lower < PI < upper) \/ (x = 1 /\ lower < 2 * PI < upper).
Proof.
  cbn [snd]. cbn zeta. destruct (Rltb lower PI && Rltb PI upper)%bool eqn:E1; destruct (Rltb lower (2 * PI) && Rltb (2 * PI) upper)%bool eqn:E2;
    rewrite ?andb_true_iff, ?andb_false_iff, ?Rltb_iff, ?Rltb_nf in E1; rewrite ?andb_true_iff, ?andb_false_iff, ?Rltb_iff, ?Rltb_nf in E2; cbn [app In]; (split; intros H; repeat match goal with Q : _ \/ _ |- _ => destruct Q as [Q|Q] | Q : _ /\ _ |- _ => destruct Q | Q : False |- _ => destruct Q end; try lra; auto 10).
Qed.

Let ext := (let l0 := [cos b] in
  let l1 := if (Rltb lower PI && Rltb PI upper)%bool then l0 ++ [-1] else l0 in
  if (Rltb lower (2 * PI) && Rltb (2 * PI) upper)%bool then l1 ++ [1] else l1).
Lemma cos_range_eq : cos_range a b = (Rmax_list (cos a) ext, Rmin_list (cos a) ext).
Proof. reflexivity. Qed.

Lemma endpoints : (lo = a /\ hi = b) \/ (lo = b /\ hi = a).
Proof. unfold lo, hi, Rmin, Rmax. destruct (Rle_dec a b); auto. Qed.

Lemma in_ext_attained x : In x (cos a :: ext) -> exists t, lo <= t <= hi /\ cos t = x.
Proof.
  intros H. apply l2_cases in H. pose proof lo_hi as LH.
  assert (Ha : lo <= a <= hi) by (unfold lo, hi; split; [apply Rmin_l|apply Rmax_l]).
  assert (Hb : lo <= b <= hi) by (unfold lo, hi; split; [apply Rmin_r|apply Rmax_r]).
  destruct H as [H|[H|[[H I]|[H I]]]].
  - exists a. auto.
  - exists b. auto.
  - exists (PI + IZR k * 2 * PI). split; [unfold lower, upper in I; lra|]. rewrite cos_shift, cos_PI. auto.
  - exists (2 * PI + IZR k * 2 * PI). split; [unfold lower, upper in I; lra|]. rewrite cos_shift, cos_2PI. auto.
Qed.

Lemma cos_lo_hi : In (cos lower) (cos a :: ext) /\ In (cos upper) (cos a :: ext).
Proof.
  assert (L : cos lower = cos lo) by (rewrite <- (cos_shift lower k); f_equal; unfold lower; ring).
  assert (U : cos upper = cos hi) by (rewrite <- (cos_shift upper k); f_equal; unfold upper; ring).
  rewrite L, U. split; apply l2_cases; destruct endpoints as [[E1 E2]|[E1 E2]]; rewrite ?E1, ?E2; auto.
Qed.

Lemma cos_range_bounds t : upper <= 3 * PI -> lo <= t <= hi -> snd (cos_range a b) <= cos t <= fst (cos_range a b).
Proof.
  intros N Ht. rewrite cos_range_eq. cbn [fst snd]. pose proof PI_RGT_0 as P. pose proof lower_bounds as [L0 L2]. pose proof lower_upper as LU.
  set (s := t - IZR k * 2 * PI). assert (Es : cos t = cos s) by (rewrite <- (cos_shift s k); f_equal; unfold s; ring).
  rewrite Es. assert (Hs : lower <= s <= upper) by (unfold s, lower, upper; lra). clearbody s. clear Es Ht.
  destruct cos_lo_hi as [IL IU].
  pose proof (Rmin_list_le _ _ _ IL) as ML. pose proof (Rmin_list_le _ _ _ IU) as MU.
  pose proof (Rmax_list_ge _ _ _ IL) as XL. pose proof (Rmax_list_ge _ _ _ IU) as XU.
  pose proof (COS_bound s) as Bs.
  assert (Dec : forall x y, 0 <= x -> x <= y -> y <= PI -> cos y <= cos x).
  { intros x y A B D. destruct (Req_dec x y) as [Q|Q]; [rewrite Q; lra|]. left. apply cos_decreasing_1; lra. }
  assert (Inc : forall x y, PI <= x -> x <= y -> y <= 2 * PI -> cos x <= cos y).
  { intros x y A B D. destruct (Req_dec x y) as [Q|Q]; [rewrite Q; lra|]. left. apply cos_increasing_1; lra. }
  assert (Dec3 : forall x y, 2 * PI <= x -> x <= y -> y <= 3 * PI -> cos y <= cos x).
  { intros x y A B D. assert (S : forall z, cos z = cos (z - 2 * PI)) by (intros z; rewrite <- (cos_shift (z - 2 * PI) 1); f_equal; ring).
    rewrite (S x), (S y). apply Dec; lra. }
  split.
  - destruct (Rlt_dec lower PI) as [D|D]; [destruct (Rlt_dec PI upper) as [D'|D']|].
    + assert (I : In (-1) (cos a :: ext)) by (apply l2_cases; right; right; left; split; [reflexivity|split; assumption]).
      pose proof (Rmin_list_le _ _ _ I). lra.
    + apply Rle_trans with (cos upper); [exact MU|]. apply Dec; lra.
    + destruct (Rle_dec s (2 * PI)) as [F|F].
      * apply Rle_trans with (cos lower); [exact ML|]. apply Inc; lra.
      * apply Rle_trans with (cos upper); [exact MU|]. apply Dec3; lra.
  - destruct (Rlt_dec (2 * PI) upper) as [D|D].
    + assert (I : In 1 (cos a :: ext)) by (apply l2_cases; right; right; right; split; [reflexivity|split; assumption]).
      pose proof (Rmax_list_ge _ _ _ I). lra.
    + destruct (Rle_dec s PI) as [F|F].
      * apply Rle_trans with (cos lower); [apply Dec; lra|exact XL].
      * apply Rle_trans with (cos upper); [apply Inc; lra|exact XU].
Qed.
Lemma cos_range_attained : (exists t, lo <= t <= hi /\ cos t = fst (cos_range a b)) /\ (exists t, lo <= t <= hi /\ cos t = snd (cos_range a b)).
Proof. rewrite cos_range_eq. cbn [fst snd]. split; apply in_ext_attained; [apply Rmax_list_in|apply Rmin_list_in]. Qed.

(** The missed turning point. *)
Lemma cos_range_missed : PI < lower -> 3 * PI < upper < 5 * PI -> -1 < snd (cos_range a b).
Proof.
  intros L U. rewrite cos_range_eq. cbn [snd]. pose proof lower_bounds as [_ L2]. pose proof PI_RGT_0 as P.
  pose proof (Rmin_list_in (cos a) ext) as I. set (m := Rmin_list (cos a) ext) in *. clearbody m. apply l2_cases in I.
  assert (A : -1 < cos lower) by (rewrite <- cos_PI; apply cos_increasing_1; lra).
  assert (B : -1 < cos upper).
  { replace upper with ((upper - 2 * PI) + IZR 1 * 2 * PI) by ring. rewrite cos_shift. set (v := upper - 2 * PI).
    assert (PI < v < 3 * PI) by (unfold v; lra). destruct (Rle_dec v (2 * PI)) as [F|F].
    - rewrite <- cos_PI. apply cos_increasing_1; lra.
    - replace v with ((v - 2 * PI) + IZR 1 * 2 * PI) by ring. rewrite cos_shift, <- cos_PI. apply cos_decreasing_1; lra. }
  assert (L' : cos lower = cos lo) by (rewrite <- (cos_shift lower k); f_equal; unfold lower; ring).
  assert (U' : cos upper = cos hi) by (rewrite <- (cos_shift upper k); f_equal; unfold upper; ring).
  rewrite L' in A. rewrite U' in B.
  destruct endpoints as [[E1 E2]|[E1 E2]]; rewrite E1 in A; rewrite E2 in B; destruct I as [I|[I|[[_ I]|[I _]]]]; lra.
Qed.
End Range.

(** Intermediate values of cos. *)
Lemma cos_ivt t1 t2 lo hi v : lo <= t1 <= hi -> lo <= t2 <= hi -> cos t1 <= v <= cos t2 -> exists t, lo <= t <= hi /\ cos t = v.
Proof.
  intros H1 H2 Hv. assert (Ct : continuity (fun x => cos x - v)).
  { apply continuity_minus; [exact continuity_cos|apply continuity_const; intros x y; reflexivity]. }
  destruct (Rle_dec t1 t2) as [D|D].
  - destruct (IVT_cor (fun x => cos x - v) t1 t2 Ct D) as (z & Hz & Ez); [nra|]. exists z. split; lra.
  - destruct (IVT_cor (fun x => cos x - v) t2 t1 Ct) as (z & Hz & Ez); [lra|nra|]. exists z. split; lra.
Qed.

Lemma law_of_cosines ki kf t : (ki - kf * cos t) ^ 2 + (kf * sin t) ^ 2 = ki ^ 2 + kf ^ 2 - 2 * cos t * (ki * kf).
Proof. pose proof (sin2_cos2 t) as S. unfold Rsqr in S. replace ((ki - kf * cos t) ^ 2 + (kf * sin t) ^ 2) with (ki ^ 2 - 2 * cos t * (ki * kf) + kf ^ 2 * (sin t * sin t + cos t * cos t)) by ring. rewrite S. ring. Qed.

Lemma bound_ok ki kf c : 0 <= ki -> 0 <= kf -> -1 <= c <= 1 ->
  0 <= ki ^ 2 + kf ^ 2 - 2 * c * (ki * kf) /\ q_bound (ki ^ 2) (kf ^ 2) c = Some (sqrt (ki ^ 2 + kf ^ 2 - 2 * c * (ki * kf))).
Proof.
  intros Hi Hf Hc. assert (P : 0 <= ki * kf) by nra.
  assert (N : 0 <= ki ^ 2 + kf ^ 2 - 2 * c * (ki * kf)).
  { pose proof (Rle_0_sqr (ki - kf)) as Q. unfold Rsqr in Q. nra. }
  split; [exact N|]. unfold q_bound.
  assert (Z : Rltb (ki ^ 2 * kf ^ 2) 0 = false) by (apply Rltb_nf; nra). rewrite Z.
  replace (sqrt (ki ^ 2 * kf ^ 2)) with (ki * kf).
  2:{ replace (ki ^ 2 * kf ^ 2) with ((ki * kf) * (ki * kf)) by ring. rewrite sqrt_square by exact P. reflexivity. }
  rewrite (proj2 (Rltb_nf _ _)) by exact N.
  replace (- (2 * c * 0)) with 0 by ring. destruct (Reqb_spec 0 0) as [E|E]; [reflexivity|congruence].
Qed.

Lemma bound_forbidden k2 m2 c : 0 <= k2 -> m2 < 0 -> c <> 0 -> q_bound k2 m2 c = None /\ q_bound m2 k2 c = None.
Proof.
  intros Hk Hm Hc. assert (G : forall x y, (x = k2 /\ y = m2 \/ x = m2 /\ y = k2) -> q_bound x y c = None).
  { intros x y H. unfold q_bound. assert (E : x * y = k2 * m2 /\ x + y = k2 + m2) by (destruct H as [[-> ->]|[-> ->]]; split; ring).
    destruct E as [E1 E2]. rewrite E1, E2. destruct (Rltb (k2 * m2) 0) eqn:D.
    - apply Rltb_iff in D. assert (S : 0 < sqrt (- (k2 * m2))) by (apply sqrt_lt_R0; lra).
      destruct (Reqb_spec (- (2 * c * sqrt (- (k2 * m2)))) 0) as [F|F]; [|reflexivity]. exfalso.
      assert (c * sqrt (- (k2 * m2)) = 0) by lra. apply Rmult_integral in H0. destruct H0; lra.
    - apply Rltb_nf in D. assert (K : k2 = 0) by nra. rewrite K, Rmult_0_l, sqrt_0.
      rewrite (proj2 (Rltb_iff (0 + m2 - 2 * c * 0) 0)) by lra. rewrite orb_true_r. reflexivity. }
  split; apply G; auto.
Qed.

Lemma bank_rad ang : Rmin (fst ang * PI / 180) (snd ang * PI / 180) = Rmin (fst ang) (snd ang) * PI / 180 /\
  Rmax (fst ang * PI / 180) (snd ang * PI / 180) = Rmax (fst ang) (snd ang) * PI / 180.
Proof.
  destruct ang as [a b]. cbn [fst snd]. pose proof PI_RGT_0 as P. unfold Rmin, Rmax.
  destruct (Rle_dec a b); destruct (Rle_dec (a * PI / 180) (b * PI / 180)); try (split; reflexivity); exfalso; nra.
Qed.

Section Mask.
Variables (hm : R) (ang : R * R).
Hypothesis Hm : 0 < hm.
Variable kk : Z.
Hypothesis Hk : 360 * IZR kk <= Rmin (fst ang) (snd ang) < 360 * IZR kk + 360.
Let cr := cos_range (fst ang * PI / 180) (snd ang * PI / 180).

Lemma shift_is : Int_part (Rmin (fst ang * PI / 180) (snd ang * PI / 180) / (PI * 2)) = kk.
Proof.
  apply floor_unique. rewrite (proj1 (bank_rad ang)). pose proof PI_RGT_0 as P.
  replace (Rmin (fst ang) (snd ang) * PI / 180 / (PI * 2)) with (Rmin (fst ang) (snd ang) / 360) by (field; lra). lra.
Qed.

Lemma range_ok : Rmax (fst ang) (snd ang) <= 360 * IZR kk + 540 ->
  (forall t, in_bank ang t -> snd cr <= cos t <= fst cr) /\ (exists t, in_bank ang t /\ cos t = fst cr) /\ (exists t, in_bank ang t /\ cos t = snd cr).
Proof.
  intros W. destruct (bank_rad ang) as [B1 B2]. unfold in_bank. rewrite <- B1, <- B2. split; [|apply cos_range_attained].
  intros t Ht. apply cos_range_bounds; [|exact Ht]. rewrite shift_is, B2. pose proof PI_RGT_0 as P. nra.
Qed.

Lemma mask_allowed ki kf lo hi : Rmax (fst ang) (snd ang) <= 360 * IZR kk + 540 -> 0 <= ki -> 0 <= kf -> lo <= hi ->
  (masked (ki ^ 2) (kf ^ 2) cr lo hi = false <-> reachable hm (hm * ki ^ 2) (hm * kf ^ 2) ang lo hi).
Proof.
  intros W Hi Hf Hl. destruct (range_ok W) as (Bd & (tM & IM & EM) & (tm & Im & Em)).
  assert (CM : -1 <= fst cr <= 1) by (rewrite <- EM; apply COS_bound). assert (Cm : -1 <= snd cr <= 1) by (rewrite <- Em; apply COS_bound).
  destruct (bound_ok ki kf _ Hi Hf CM) as [N0 B0]. destruct (bound_ok ki kf _ Hi Hf Cm) as [N1 B1].
  unfold masked. rewrite B0, B1. rewrite orb_false_iff, !Rltb_nf.
  set (q0 := sqrt (ki ^ 2 + kf ^ 2 - 2 * fst cr * (ki * kf))). set (q1 := sqrt (ki ^ 2 + kf ^ 2 - 2 * snd cr * (ki * kf))).
  assert (S0 : q0 ^ 2 = ki ^ 2 + kf ^ 2 - 2 * fst cr * (ki * kf)) by (unfold q0; rewrite <- Rsqr_pow2; apply Rsqr_sqrt; exact N0).
  assert (S1 : q1 ^ 2 = ki ^ 2 + kf ^ 2 - 2 * snd cr * (ki * kf)) by (unfold q1; rewrite <- Rsqr_pow2; apply Rsqr_sqrt; exact N1).
  assert (P0 : 0 <= q0) by apply sqrt_pos. assert (P1 : 0 <= q1) by apply sqrt_pos. clearbody q0 q1.
  assert (PP : 0 <= ki * kf) by nra.
  split.
  - intros [A B]. assert (Q01 : q0 <= q1).
    { apply Rsqr_incr_0; [|assumption|assumption]. rewrite !Rsqr_pow2, S0, S1. destruct (Bd tM IM) as [X _]. rewrite EM in X. nra. }
    set (q := Rmax lo q0). assert (Hq : q0 <= q <= q1 /\ lo <= q <= hi).
    { unfold q, Rmax. destruct (Rle_dec lo q0); lra. }
    clearbody q. destruct Hq as [Q1 Q2].
    destruct (Req_dec (ki * kf) 0) as [Z|Z].
    + exists tM, q. split; [exact IM|]. split; [exact Q2|]. exists ki, kf. split; [exact Hi|]. split; [exact Hf|]. split; [reflexivity|]. split; [reflexivity|].
      split; [lra|]. rewrite law_of_cosines, Z. rewrite Z in S0, S1. assert (q0 ^ 2 <= q ^ 2) by nra. assert (q ^ 2 <= q1 ^ 2) by nra. lra.
    + assert (PZ : 0 < ki * kf) by lra. set (v := (ki ^ 2 + kf ^ 2 - q ^ 2) / (2 * (ki * kf))).
      assert (Ev : 2 * v * (ki * kf) = ki ^ 2 + kf ^ 2 - q ^ 2) by (unfold v; field; split; intros Q; rewrite Q in PZ; lra).
      assert (Hv : cos tm <= v <= cos tM).
      { rewrite Em, EM. assert (q0 ^ 2 <= q ^ 2) by nra. assert (q ^ 2 <= q1 ^ 2) by nra.
        split; apply (Rmult_le_reg_r (2 * (ki * kf))); try lra.
        all: replace (v * (2 * (ki * kf))) with (2 * v * (ki * kf)) by ring; rewrite Ev; lra. }
      destruct (cos_ivt tm tM _ _ v Im IM Hv) as (t & It & Et).
      exists t, q. split; [exact It|]. split; [exact Q2|]. exists ki, kf. split; [exact Hi|]. split; [exact Hf|]. split; [reflexivity|]. split; [reflexivity|].
      split; [lra|]. rewrite law_of_cosines, Et, Ev. ring.
  - intros (t & q & It & Hq & (ki' & kf' & H1 & H2 & H3 & H4 & H5 & H6)).
    assert (Sq : forall x y, 0 <= x -> 0 <= y -> hm * x ^ 2 = hm * y ^ 2 -> x = y).
    { intros x y A B E. apply Rsqr_inj; [exact A|exact B|]. rewrite !Rsqr_pow2. apply (Rmult_eq_reg_l hm); [exact E|lra]. }
    apply Sq in H3; [|assumption|assumption]. apply Sq in H4; [|assumption|assumption]. subst ki' kf'.
    rewrite law_of_cosines in H6. destruct (Bd t It) as [X Y].
    assert (q0 <= q) by (apply Rsqr_incr_0; [rewrite !Rsqr_pow2, S0, H6; nra|assumption|assumption]).
    assert (q <= q1) by (apply Rsqr_incr_0; [rewrite !Rsqr_pow2, S1, H6; nra|assumption|assumption]).
    lra.
Qed.

Lemma mask_forbidden ei ef lo hi : Rmax (fst ang) (snd ang) <= 360 * IZR kk + 540 -> (exists t, in_bank ang t /\ cos t <> 0) ->
  (0 <= ei /\ ef < 0 \/ ei < 0 /\ 0 <= ef) -> masked (ei / hm) (ef / hm) cr lo hi = true /\ ~ reachable hm ei ef ang lo hi.
Proof.
  intros W (t & It & Nt) H. destruct (range_ok W) as (Bd & _ & _). specialize (Bd t It).
  assert (Nz : fst cr <> 0 \/ snd cr <> 0).
  { destruct (Req_dec (fst cr) 0) as [A|A]; [|left; exact A]. destruct (Req_dec (snd cr) 0) as [B|B]; [|right; exact B]. exfalso. apply Nt. lra. }
  assert (Dp : forall x, 0 <= x -> 0 <= x / hm) by (intros x Hx; apply Rmult_le_pos; [exact Hx|left; apply Rinv_0_lt_compat; exact Hm]).
  assert (Dn : forall x, x < 0 -> x / hm < 0).
  { intros x Hx. pose proof (Rinv_0_lt_compat _ Hm). unfold Rdiv. nra. }
  split.
  - unfold masked. assert (G : forall c, c <> 0 -> q_bound (ei / hm) (ef / hm) c = None).
    { intros c Hc. destruct H as [[A B]|[A B]]; [apply (bound_forbidden (ei / hm) (ef / hm) c (Dp _ A) (Dn _ B) Hc)|apply (bound_forbidden (ef / hm) (ei / hm) c (Dp _ B) (Dn _ A) Hc)]. }
    destruct Nz as [Nz|Nz]; rewrite (G _ Nz); [reflexivity|]. destruct (q_bound _ _ _); reflexivity.
  - intros (t' & q & _ & _ & (ki & kf & _ & _ & E1 & E2 & _)). assert (0 <= ki ^ 2) by nra. assert (0 <= kf ^ 2) by nra. destruct H as [[A B]|[A B]]; nra.
Qed.

Lemma mask_spec ei ef lo hi : Rmax (fst ang) (snd ang) <= 360 * IZR kk + 540 -> (exists t, in_bank ang t /\ cos t <> 0) -> lo <= hi ->
  0 <= ei \/ 0 <= ef -> (masked (ei / hm) (ef / hm) cr lo hi = false <-> reachable hm ei ef ang lo hi).
Proof.
  intros W Nt Hl Hp.
  assert (Two : (0 <= ei /\ 0 <= ef) \/ (0 <= ei /\ ef < 0 \/ ei < 0 /\ 0 <= ef)).
  { destruct (Rle_dec 0 ei); destruct (Rle_dec 0 ef); [left; lra|right; left; lra|right; right; lra|exfalso; destruct Hp; lra]. }
  destruct Two as [[A B]|F].
  - assert (Dp : forall x, 0 <= x -> 0 <= x / hm) by (intros x Hx; apply Rmult_le_pos; [exact Hx|left; apply Rinv_0_lt_compat; exact Hm]).
    assert (Ei : ei / hm = (sqrt (ei / hm)) ^ 2) by (rewrite <- Rsqr_pow2; symmetry; apply Rsqr_sqrt; apply Dp; exact A).
    assert (Ef : ef / hm = (sqrt (ef / hm)) ^ 2) by (rewrite <- Rsqr_pow2; symmetry; apply Rsqr_sqrt; apply Dp; exact B).
    pose proof (mask_allowed (sqrt (ei / hm)) (sqrt (ef / hm)) lo hi W (sqrt_pos _) (sqrt_pos _) Hl) as M.
    rewrite <- Ei, <- Ef in M. replace (hm * (ei / hm)) with ei in M by (field; lra). replace (hm * (ef / hm)) with ef in M by (field; lra). exact M.
  - destruct (mask_forbidden ei ef lo hi W Nt F) as [M R']. rewrite M. split; [discriminate|]. intros Q. contradiction.
Qed.

(** A bank containing 180 degrees whose turning point is missed. *)
Lemma missed_mask ei lo hi : 360 * IZR kk + 180 < Rmin (fst ang) (snd ang) -> 360 * IZR kk + 540 < Rmax (fst ang) (snd ang) < 360 * IZR kk + 900 ->
  0 < ei -> lo = 2 * sqrt (ei / hm) -> lo <= hi -> masked (ei / hm) (ei / hm) cr lo hi = true /\ reachable hm ei ei ang lo hi.
Proof.
  intros L U He El Hl. pose proof PI_RGT_0 as P. destruct (bank_rad ang) as [B1 B2].
  assert (Ms : -1 < snd cr).
  { apply cos_range_missed; rewrite shift_is, ?B1, ?B2; nra. }
  assert (Dp : 0 < ei / hm) by (apply Rmult_lt_0_compat; [exact He|apply Rinv_0_lt_compat; exact Hm]).
  set (k := sqrt (ei / hm)) in *. assert (Pk : 0 < k) by (apply sqrt_lt_R0; exact Dp).
  assert (Ek : ei / hm = k ^ 2) by (unfold k; rewrite <- Rsqr_pow2; symmetry; apply Rsqr_sqrt; lra).
  destruct (cos_range_attained (fst ang * PI / 180) (snd ang * PI / 180)) as ((t1 & _ & E1) & (t2 & _ & E2)). fold cr in E1, E2.
  assert (CM : -1 <= fst cr <= 1) by (rewrite <- E1; apply COS_bound). assert (Cm : -1 <= snd cr <= 1) by (rewrite <- E2; apply COS_bound).
  assert (Hk0 : 0 <= k) by lra.
  destruct (bound_ok k k _ Hk0 Hk0 CM) as [N0 Q0]. destruct (bound_ok k k _ Hk0 Hk0 Cm) as [N1 Q1].
  split.
  - unfold masked. rewrite Ek, Q0, Q1. apply orb_true_iff. right. apply Rltb_iff. rewrite El.
    apply Rsqr_incrst_0; [|apply sqrt_pos|lra]. rewrite Rsqr_sqrt by exact N1. unfold Rsqr. nra.
  - exists (PI + IZR (kk + 1) * 2 * PI), lo. split; [|split].
    + unfold in_bank. rewrite plus_IZR. nra.
    + lra.
    + exists k, k. assert (Ee : ei = hm * k ^ 2) by (rewrite <- Ek; field; lra). split; [exact Hk0|]. split; [exact Hk0|]. split; [exact Ee|]. split; [exact Ee|].
      split; [lra|]. rewrite law_of_cosines, cos_shift, cos_PI, El. ring.
Qed.
End Mask.

(** The whole function. *)
Lemma kin_errors hm e_i e_f ang nx ny x y z : (e_i = None <-> e_f = None) -> apply_kinematic_constraints hm e_i e_f ang nx ny x y z = Err NotExactlyOne.
Proof. unfold apply_kinematic_constraints, energies. destruct e_i, e_f; intros H; try reflexivity; exfalso; destruct H as [H1 H2]; [specialize (H2 eq_refl)|specialize (H1 eq_refl)]; discriminate. Qed.

Lemma kin_direct hm ang kk e nx ny x y z cs es : 0 < hm -> 0 <= e ->
  360 * IZR kk <= Rmin (fst ang) (snd ang) < 360 * IZR kk + 360 -> Rmax (fst ang) (snd ang) <= 360 * IZR kk + 540 ->
  (exists t, in_bank ang t /\ cos t <> 0) ->
  get_bin_centres ny y = Ok cs -> get_bin_edges nx x = Ok es ->
  exists out, apply_kinematic_constraints hm (Some e) None ang nx ny x y z = Ok out /\
  forall i j, nth i es 0 <= nth (S i) es 0 ->
  (out i j = Some (z i j) /\ reachable hm e (e - nth j cs 0) ang (nth i es 0) (nth (S i) es 0)) \/
  (out i j = None /\ ~ reachable hm e (e - nth j cs 0) ang (nth i es 0) (nth (S i) es 0)).
Proof.
  intros Hm He Hk W Nt Ec Ee. unfold apply_kinematic_constraints, energies. rewrite Ec, Ee. eexists. split; [reflexivity|].
  intros i j Hl. cbv beta. pose proof (mask_spec hm ang Hm kk Hk e (e - nth j cs 0) _ _ W Nt Hl (or_introl He)) as M.
  destruct (masked _ _ _ _ _); [right|left]; (split; [reflexivity|]); [intros Q; apply M in Q; discriminate|apply M; reflexivity].
Qed.
Lemma kin_indirect hm ang kk e nx ny x y z cs es : 0 < hm -> 0 <= e ->
  360 * IZR kk <= Rmin (fst ang) (snd ang) < 360 * IZR kk + 360 -> Rmax (fst ang) (snd ang) <= 360 * IZR kk + 540 ->
  (exists t, in_bank ang t /\ cos t <> 0) ->
  get_bin_centres ny y = Ok cs -> get_bin_edges nx x = Ok es ->
  exists out, apply_kinematic_constraints hm None (Some e) ang nx ny x y z = Ok out /\
  forall i j, nth i es 0 <= nth (S i) es 0 ->
  (out i j = Some (z i j) /\ reachable hm (nth j cs 0 + e) e ang (nth i es 0) (nth (S i) es 0)) \/
  (out i j = None /\ ~ reachable hm (nth j cs 0 + e) e ang (nth i es 0) (nth (S i) es 0)).
Proof.
  intros Hm He Hk W Nt Ec Ee. unfold apply_kinematic_constraints, energies. rewrite Ec, Ee. eexists. split; [reflexivity|].
  intros i j Hl. cbv beta. pose proof (mask_spec hm ang Hm kk Hk (nth j cs 0 + e) e _ _ W Nt Hl (or_intror He)) as M.
  destruct (masked _ _ _ _ _); [right|left]; (split; [reflexivity|]); [intros Q; apply M in Q; discriminate|apply M; reflexivity].
Qed.

(** Detector angles between -180 and 180 degrees. *)
Lemma usual_bank ang : -180 <= fst ang <= 180 -> -180 <= snd ang <= 180 -> exists kk, 360 * IZR kk <= Rmin (fst ang) (snd ang) < 360 * IZR kk + 360 /\ Rmax (fst ang) (snd ang) <= 360 * IZR kk + 540.
Proof.
  intros A B. assert (M1 : -180 <= Rmin (fst ang) (snd ang) <= 180) by (unfold Rmin; destruct (Rle_dec _ _); assumption).
  assert (M2 : -180 <= Rmax (fst ang) (snd ang) <= 180) by (unfold Rmax; destruct (Rle_dec _ _); assumption).
  destruct (Rle_dec 0 (Rmin (fst ang) (snd ang))) as [D|D]; [exists 0%Z|exists (-1)%Z]; lra.
Qed.

Lemma missed_bin hm ang kk e hi z : 0 < hm -> 0 < e ->
  360 * IZR kk + 180 < Rmin (fst ang) (snd ang) < 360 * IZR kk + 360 -> 360 * IZR kk + 540 < Rmax (fst ang) (snd ang) < 360 * IZR kk + 900 ->
  2 * sqrt (e / hm) <= hi ->
  exists out, apply_kinematic_constraints hm (Some e) None ang 1 1 [2 * sqrt (e / hm); hi] [0] z = Ok out /\ out 0%nat 0%nat = None /\
  reachable hm e (e - 0) ang (2 * sqrt (e / hm)) hi.
Proof.
  intros Hm He Hk Hu Hl. eexists. split; [reflexivity|]. cbv beta iota zeta delta [energies nth]. rewrite Rminus_0_r.
  assert (Hk' : 360 * IZR kk <= Rmin (fst ang) (snd ang) < 360 * IZR kk + 360) by lra.
  destruct (missed_mask hm ang Hm kk Hk' e _ hi (proj1 Hk) Hu He eq_refl Hl) as [A B]. rewrite A. split; [reflexivity|exact B].
Qed.
