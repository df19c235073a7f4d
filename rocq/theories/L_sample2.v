(** Lemmas for C38: the improved polar sampling always succeeds with npts points. *)
From Coq Require Import String.
From Verif Require Import Base Vec3 L_util M_qpts M_path M_sample S_sample L_path L_path2 L_qpts L_sample.
Open Scope R_scope.

Lemma PI_bounds : 3 < PI <= 4.
Proof. pose proof PI2_3_2. pose proof PI_4. lra. Qed.

Lemma sin_lower x : 0 <= x <= 1 -> x - x ^ 3 / 6 <= sin x.
Proof.
  intros H. pose proof PI_bounds as P. destruct (SIN x) as [L _]; [lra|lra|]. apply Rle_trans with (sin_lb x); [|exact L].
  unfold sin_lb, sin_approx, sin_term. cbn [sum_f_R0]. cbn [Nat.mul Nat.add]. 
  replace (INR (fact 1)) with 1 by (cbn; ring). replace (INR (fact 3)) with 6 by (cbn; ring). replace (INR (fact 5)) with 120 by (cbn; ring). replace (INR (fact 7)) with 5040 by (cbn; ring).
  assert (Q : 0 <= x ^ 5 * (1 / 120 - x ^ 2 / 5040)).
  { apply Rmult_le_pos; [apply pow_le; lra|]. assert (x ^ 2 <= 1) by nra. lra. }
  replace ((-1) ^ 0 * (x ^ 1 / 1) + (-1) ^ 1 * (x ^ 3 / 6) + (-1) ^ 2 * (x ^ 5 / 120) + (-1) ^ 3 * (x ^ 7 / 5040)) with (x - x ^ 3 / 6 + x ^ 5 * (1 / 120 - x ^ 2 / 5040)) by field. lra.
Qed.

Lemma n_theta_bounds npts : (6 <= npts)%nat -> (2 <= n_theta_of npts)%nat /\ 4 * INR (n_theta_of npts) ^ 2 <= PI * INR npts.
Proof.
  intros H. pose proof PI_bounds as P. apply le_INR in H. replace (INR 6) with 6 in H by (cbn; ring). unfold n_theta_of.
  set (r := sqrt (PI / 4 * INR npts)). assert (R0 : 0 <= r) by apply sqrt_pos. assert (R2 : r * r = PI / 4 * INR npts) by (apply sqrt_sqrt; nra).
  assert (R4 : 2 <= r) by (apply Rsqr_incr_0; unfold Rsqr; nra).
  destruct (base_Int_part r) as [A B]. set (z := Int_part r) in *. clearbody z.
  assert (Z2 : (2 <= z)%Z) by (assert (1 < z)%Z by (apply lt_IZR; lra); lia).
  rewrite INR_IZR_INZ, Z2Nat.id by lia. split; [lia|]. assert (0 <= IZR z) by (apply (IZR_le 0); lia). nra.
Qed.

(** Sum of the sines of the ring angles. *)
Lemma sine_sum x n : Rsum (map (fun i => sin ((2 * INR i + 1) * x)) (seq 0 n)) * (2 * sin x) = 1 - cos (2 * INR n * x).
Proof.
  induction n as [|n IH].
  { replace (2 * INR 0 * x) with 0 by (cbn [INR]; ring). rewrite cos_0. cbn. ring. }
  rewrite seq_S, map_app. cbn [plus map].
  assert (E : forall l a, Rsum (l ++ [a]) = Rsum l + a).
  { intros l a. induction l as [|b l IHl]; cbn [app Rsum fold_right]; [ring|]. unfold Rsum in IHl |- *. cbn [fold_right app]. rewrite IHl. ring. }
  rewrite E, Rmult_plus_distr_r, IH. rewrite S_INR.
  replace (2 * (INR n + 1) * x) with ((2 * INR n + 1) * x + x) by ring. replace (2 * INR n * x) with ((2 * INR n + 1) * x - x) by ring.
  rewrite cos_plus, cos_minus. ring.
Qed.

Lemma sine_min x t : 0 < x -> x <= t <= PI - x -> 0 < sin x <= sin t.
Proof.
  intros Hx Ht. pose proof PI_bounds as P. split; [apply sin_gt_0; lra|].
  destruct (Rle_dec t (PI / 2)) as [D|D]; [apply sin_incr_1; lra|].
  rewrite <- (sin_PI_x t). apply sin_incr_1; lra.
Qed.

(** Two steps of the dropped points fit in every ring. *)
Lemma two_steps npts n : (6 <= npts)%nat -> (2 <= n)%nat -> 4 * INR n ^ 2 <= PI * INR npts ->
  2 <= (INR npts - 1) * sin (PI / (2 * INR n)) ^ 2.
Proof.
  intros H6 Hn Hb. pose proof PI_bounds as P. apply le_INR in H6. replace (INR 6) with 6 in H6 by (cbn; ring).
  destruct (Nat.eq_dec n 2) as [E|E].
  - subst n. replace (PI / (2 * INR 2)) with (PI / 4) by (cbn; field). rewrite sin_PI4.
    assert (Q : (1 / sqrt 2) ^ 2 = 1 / 2).
    { assert (sqrt 2 * sqrt 2 = 2) by (apply sqrt_sqrt; lra). assert (0 < sqrt 2) by (apply sqrt_lt_R0; lra). replace ((1 / sqrt 2) ^ 2) with (1 / (sqrt 2 * sqrt 2)) by (field; lra). rewrite H. reflexivity. }
    rewrite Q. lra.
  - assert (N3 : 3 <= INR n) by (replace 3 with (INR 3) by (cbn; ring); apply le_INR; lia).
    set (x := PI / (2 * INR n)). assert (Ex : x * (2 * INR n) = PI) by (unfold x; field; lra).
    assert (Px : 0 < x) by (unfold x; apply Rdiv_lt_0_compat; lra). assert (Ux : x <= 2 / 3) by nra.
    pose proof (sin_lower x ltac:(lra)) as S. assert (Y : x - x ^ 3 / 6 = x * (1 - x ^ 2 / 6)) by field. rewrite Y in S.
    assert (X2 : 0 < x ^ 2 <= 4 / 9) by nra. set (y := x ^ 2) in *.
    assert (S2 : y * (1 - y / 6) ^ 2 <= sin x ^ 2).
    { replace (y * (1 - y / 6) ^ 2) with ((x * (1 - y / 6)) ^ 2) by (unfold y; ring). apply pow_incr. split; [nra|exact S]. }
    assert (B : PI <= INR npts * y).
    { assert (4 * INR n ^ 2 * y = PI ^ 2) by (rewrite <- Ex; unfold y; ring). assert (PI ^ 2 <= PI * INR npts * y) by (rewrite <- H; apply Rmult_le_compat_r; lra). nra. }
    assert (C1 : (PI - y) * (1 - y / 6) ^ 2 <= (INR npts - 1) * sin x ^ 2).
    { apply Rle_trans with ((INR npts - 1) * (y * (1 - y / 6) ^ 2)); [|apply Rmult_le_compat_l; [lra|exact S2]].
      replace ((INR npts - 1) * (y * (1 - y / 6) ^ 2)) with ((INR npts * y - y) * (1 - y / 6) ^ 2) by ring.
      apply Rmult_le_compat_r; [apply pow2_ge_0|lra]. }
    assert (C2 : 2 <= (3 - 4 / 9) * (25 / 27) ^ 2) by lra.
    assert (C3 : (25 / 27) ^ 2 <= (1 - y / 6) ^ 2) by (apply pow_incr; lra).
    assert (C4 : (3 - 4 / 9) * (25 / 27) ^ 2 <= (PI - y) * (1 - y / 6) ^ 2) by (apply Rmult_le_compat; try lra; apply pow2_ge_0).
    lra.
Qed.

(** ** Counting points in bins *)
Lemma list_sum_ones {A} (P : nat -> A -> bool) n a : (forall p, In p a -> exists i, (i < n)%nat /\ P i p = true /\ forall j, (j < n)%nat -> P j p = true -> j = i) ->
  list_sum (map (fun i => length (filter (P i) a)) (seq 0 n)) = length a.
Proof.
  induction a as [|p a IH]; intros H.
  - cbn [filter length]. clear. induction n as [|n IH]; [reflexivity|]. rewrite seq_S, map_app, list_sum_app, IH. reflexivity.
  - assert (E : forall m, list_sum (map (fun i => length (filter (P i) (p :: a))) (seq 0 m)) =
      (list_sum (map (fun i => if P i p then 1 else 0) (seq 0 m)) + list_sum (map (fun i => length (filter (P i) a)) (seq 0 m)))%nat).
    { induction m as [|m IHm]; [reflexivity|]. rewrite seq_S, !map_app, !list_sum_app, IHm. cbn [plus map list_sum fold_right filter]. destruct (P m p); cbn [length]; lia. }
    rewrite E, IH by (intros q I; apply H; right; exact I). cbn [length].
    destruct (H p (or_introl eq_refl)) as (i & Hi & Pi & U).
    assert (F : forall m, (m <= n)%nat -> list_sum (map (fun i => if P i p then 1%nat else 0%nat) (seq 0 m)) = (if Nat.ltb i m then 1 else 0)%nat).
    { induction m as [|m IHm]; intros Hm; [reflexivity|]. rewrite seq_S, map_app, list_sum_app, IHm by lia. cbn [plus map list_sum fold_right].
      destruct (P m p) eqn:Em; [apply U in Em; [|lia]; subst m|].
      - rewrite (proj2 (Nat.ltb_ge i i)) by lia. rewrite (proj2 (Nat.ltb_lt i (S i))) by lia. reflexivity.
      - assert (m <> i) by congruence. destruct (Nat.ltb_spec i m); destruct (Nat.ltb_spec i (S m)); lia. }
    rewrite F by lia. rewrite (proj2 (Nat.ltb_lt _ _) Hi). reflexivity.
Qed.

Lemma find_bin (e : nat -> R) p m : e 0%nat <= p -> p < e m -> exists i, (i < m)%nat /\ e i <= p < e (S i).
Proof.
  induction m as [|m IH]; intros A B; [lra|]. destruct (Rle_dec (e m) p) as [D|D]; [exists m; split; [lia|lra]|].
  destruct IH as (i & Hi & Ei); [exact A|lra|]. exists i. split; [lia|exact Ei].
Qed.
Lemma mono_le (e : nat -> R) n : (forall i, (i < n)%nat -> e i < e (S i)) -> forall i j, (i <= j)%nat -> (j <= n)%nat -> e i <= e j.
Proof. intros H i j Hij. induction Hij as [|j Hij IH]; intros Hn; [lra|]. specialize (H j ltac:(lia)). specialize (IH ltac:(lia)). lra. Qed.

Lemma histogram_total a edges n : length edges = S n -> (0 < n)%nat -> (forall i, (i < n)%nat -> nth i edges 0 < nth (S i) edges 0) ->
  (forall p, In p a -> nth 0 edges 0 <= p <= nth n edges 0) -> length (histogram a edges) = n /\ list_sum (histogram a edges) = length a.
Proof.
  intros L Hn M Hp. unfold histogram. rewrite L. cbn [Nat.sub]. rewrite Nat.sub_0_r. rewrite map_length, seq_length. split; [reflexivity|].
  apply (list_sum_ones (fun i p => (Rleb (nth i edges 0) p && (if Nat.eqb (S i) n then Rleb p (nth (S i) edges 0) else Rltb p (nth (S i) edges 0)))%bool)). intros p I. specialize (Hp p I). set (e := fun i => nth i edges 0) in *.
  assert (Mo : forall i j, (i <= j)%nat -> (j <= n)%nat -> e i <= e j) by (apply mono_le; exact M).
  assert (Spec : forall i, (i < n)%nat -> ((Rleb (nth i edges 0) p && (if Nat.eqb (S i) n then Rleb p (nth (S i) edges 0) else Rltb p (nth (S i) edges 0)))%bool = true <->
     e i <= p /\ (S i = n \/ p < e (S i)))).
  { intros i Hi. rewrite andb_true_iff, Rleb_iff. destruct (Nat.eqb_spec (S i) n) as [E|E].
    - rewrite Rleb_iff. split; [intros [A _]; split; [exact A|left; exact E]|]. intros [A _]. split; [exact A|]. rewrite E. apply Hp.
    - rewrite Rltb_iff. split; [intros [A B]; split; [exact A|right; exact B]|]. intros [A [B|B]]; [congruence|split; assumption]. }
  assert (Ex : exists i, (i < n)%nat /\ e i <= p /\ (S i = n \/ p < e (S i))).
  { destruct (Rle_dec (e (n - 1)%nat) p) as [D|D].
    - exists (n - 1)%nat. split; [lia|]. split; [exact D|left; lia].
    - destruct (find_bin e p (n - 1) (proj1 Hp)) as (i & Hi & A & B); [lra|]. exists i. split; [lia|]. split; [exact A|right; exact B]. }
  destruct Ex as (i & Hi & A & B). exists i. split; [exact Hi|]. split; [apply Spec; [exact Hi|split; assumption]|].
  intros j Hj Pj. apply Spec in Pj; [|exact Hj]. destruct Pj as [C D].
  destruct (Nat.lt_trichotomy j i) as [Q|[Q|Q]]; [exfalso|exact Q|exfalso].
  - destruct D as [D|D]; [lia|]. pose proof (Mo (S j) i ltac:(lia) ltac:(lia)). lra.
  - destruct B as [B|B]; [lia|]. pose proof (Mo (S i) j ltac:(lia) ltac:(lia)). lra.
Qed.

Lemma two_in_bin (f : R -> bool) s n k : 0 < s -> (k + 1 < n)%nat -> f (INR k * s) = true -> f (INR (k + 1) * s) = true ->
  (2 <= length (filter f (map (fun i => (INR i * s)%R) (seq 0 n))))%nat.
Proof.
  intros Hs Hk F1 F2. change 2%nat with (length [INR k * s; INR (k + 1) * s]). apply NoDup_incl_length.
  - constructor; [|constructor; [intros []|constructor]]. intros [E|[]]. rewrite plus_INR in E. cbn [INR] in E. nra.
  - intros y [E|[E|[]]]; subst y; apply filter_In; (split; [|assumption]); apply (in_map (fun i => INR i * s)); apply in_seq; lia.
Qed.

(** ** The rings *)
Section Rings.
Variable npts : nat.
Hypothesis H6 : (6 <= npts)%nat.
Let n := n_theta_of npts.
Let x := PI / (2 * INR n).
Let c := circumferences n.
Let edges := 0 :: cumsum c.
Let s := Rsum c / INR (npts - 1).

Lemma n2 : (2 <= n)%nat. Proof. apply n_theta_bounds. exact H6. Qed.
Lemma xpos : 0 < x /\ 2 * INR n * x = PI.
Proof.
  pose proof n2 as N. assert (P : 0 < INR n) by (apply lt_0_INR; lia). pose proof PI_bounds. unfold x. split; [apply Rdiv_lt_0_compat; lra|field; lra].
Qed.
Lemma length_c : length c = n.
Proof. unfold c, circumferences. rewrite map_length. apply length_theta. Qed.
Lemma nth_c i : (i < n)%nat -> nth i c 0 = 2 * PI * sin ((2 * INR i + 1) * x) /\ 0 < sin x <= sin ((2 * INR i + 1) * x).
Proof.
  intros Hi. destruct xpos as [X1 X2]. pose proof PI_bounds as P.
  assert (B : 0 < sin x <= sin ((2 * INR i + 1) * x)).
  { pose proof (pos_INR i). assert (INR i + 1 <= INR n) by (rewrite <- S_INR; apply le_INR; lia). apply sine_min; [exact X1|split; nra]. }
  split; [|exact B]. unfold c, circumferences. rewrite (map_nth_indep _ _ _ 0 0) by (rewrite length_theta; exact Hi). rewrite nth_theta by exact Hi. fold x.
  rewrite Rabs_pos_eq by lra. reflexivity.
Qed.
Lemma total_c : Rsum c * sin x = 2 * PI.
Proof.
  destruct xpos as [X1 X2]. assert (E : c = map (fun i => 2 * PI * sin ((2 * INR i + 1) * x)) (seq 0 n)).
  { apply (nth_ext _ _ 0 0); [rewrite length_c, map_length, seq_length; reflexivity|]. intros i Hi. rewrite length_c in Hi.
    rewrite (proj1 (nth_c i Hi)). rewrite (map_nth_indep _ _ _ 0%nat 0) by (rewrite seq_length; exact Hi). rewrite seq_nth by exact Hi. reflexivity. }
  pose proof (sine_sum x n) as S. rewrite X2, cos_PI in S.
  assert (F : Rsum c = 2 * PI * Rsum (map (fun i => sin ((2 * INR i + 1) * x)) (seq 0 n))).
  { rewrite E. generalize (seq 0 n). induction l as [|a l IH]; cbn [map Rsum fold_right]; [ring|]. unfold Rsum in *. rewrite IH. ring. }
  rewrite F. set (T := Rsum (map _ _)) in *. replace (2 * PI * T * sin x) with (PI * (T * (2 * sin x))) by ring. rewrite S. ring.
Qed.
Lemma npts1 : 5 <= INR (npts - 1) /\ INR (npts - 1) = INR npts - 1.
Proof.
  rewrite minus_INR by lia. split; [|reflexivity]. apply le_INR in H6. replace (INR 6) with 6 in H6 by (cbn; ring). cbn [INR]. lra.
Qed.
Lemma step_pos : 0 < s /\ forall i, (i < n)%nat -> 2 * s <= nth i c 0.
Proof.
  pose proof PI_bounds as P. destruct npts1 as [N1 N2]. pose proof (nth_c 0 ltac:(pose proof n2; lia)) as [_ S0].
  assert (T : 0 < Rsum c) by (pose proof total_c; nra). split; [unfold s; apply Rdiv_lt_0_compat; lra|].
  intros i Hi. destruct (nth_c i Hi) as [E B]. rewrite E. apply Rle_trans with (2 * PI * sin x); [|nra].
  destruct (n_theta_bounds npts H6) as [A1 A2]. pose proof (two_steps npts n H6 A1 A2) as W. fold x in W. rewrite <- N2 in W.
  assert (Es : s * INR (npts - 1) = Rsum c) by (unfold s; field; lra). pose proof total_c as T2. rewrite <- Es in T2.
  (* s * N * sin x = 2 pi, 2 <= N sin^2 x *)
  set (N := INR (npts - 1)) in *. set (w := sin x) in *. assert (Sp : 0 < s) by nra.
  replace (2 * PI * w) with (s * (N * w ^ 2)) by (rewrite <- T2; ring). nra.
Qed.
Lemma nth_edges i : (i <= n)%nat -> nth i edges 0 = Rsum (firstn i c).
Proof.
  intros Hi. destruct i as [|i]; [reflexivity|]. unfold edges. cbn [nth]. unfold cumsum. rewrite nth_cumsum_from by (rewrite length_c; lia). ring.
Qed.
Lemma edges_step i : (i < n)%nat -> nth (S i) edges 0 = nth i edges 0 + nth i c 0.
Proof.
  intros Hi. rewrite !nth_edges by lia. assert (Hc : (i < length c)%nat) by (rewrite length_c; exact Hi). clear - Hc. revert i Hc. generalize c as l. clear. induction l as [|a l IH]; intros i Hi; [cbn in Hi; lia|]. 
  destruct i as [|i]; [cbn; ring|]. cbn [length] in Hi. specialize (IH i ltac:(lia)).
  change (Rsum (firstn (S (S i)) (a :: l))) with (a + Rsum (firstn (S i) l)). change (Rsum (firstn (S i) (a :: l))) with (a + Rsum (firstn i l)). cbn [nth]. rewrite IH. ring.
Qed.
Lemma edges_last : nth n edges 0 = Rsum c.
Proof. rewrite nth_edges by lia. rewrite <- length_c, firstn_all. reflexivity. Qed.
Lemma points_are : linspace 0 (Rsum c) npts = map (fun i => INR i * s) (seq 0 npts).
Proof. unfold linspace, s. apply map_ext. intros i. rewrite Rplus_0_l, Rminus_0_r. reflexivity. Qed.
Lemma last_point : INR (npts - 1) * s = Rsum c.
Proof. unfold s. destruct npts1. field. lra. Qed.

Lemma counts : length (ring_counts npts) = n /\ list_sum (ring_counts npts) = npts /\ forall i, (i < n)%nat -> (2 <= nth i (ring_counts npts) 0)%nat.
Proof.
  destruct step_pos as [S1 S2]. pose proof n2 as N2. destruct npts1 as [Q1 Q2].
  assert (Le : length edges = S n) by (unfold edges, cumsum; cbn [length]; rewrite length_cumsum_from, length_c; reflexivity).
  unfold ring_counts. fold n. fold c. fold edges. rewrite points_are.
  assert (Mo : forall i, (i < n)%nat -> nth i edges 0 < nth (S i) edges 0).
  { intros i Hi. rewrite edges_step by exact Hi. specialize (S2 i Hi). lra. }
  destruct (histogram_total (map (fun i => INR i * s) (seq 0 npts)) edges n Le ltac:(lia) Mo) as [A B].
  { intros p I. apply in_map_iff in I. destruct I as (k & <- & Ik). apply in_seq in Ik. rewrite edges_last. change (nth 0 edges 0) with 0.
    pose proof (pos_INR k). assert (INR k <= INR (npts - 1)) by (apply le_INR; lia). pose proof last_point as Lp. rewrite <- Lp. split; nra. }
  split; [exact A|]. split; [rewrite B, map_length, seq_length; reflexivity|].
  intros i Hi. unfold histogram. rewrite Le. replace (S n - 1)%nat with n by lia. rewrite (map_nth_indep _ _ _ 0%nat 0%nat) by (rewrite seq_length; exact Hi).
  rewrite seq_nth by exact Hi. cbn [plus]. set (e0 := nth i edges 0). set (e1 := nth (S i) edges 0).
  assert (E : e1 = e0 + nth i c 0) by (apply edges_step; exact Hi). specialize (S2 i Hi).
  assert (E0 : 0 <= e0) by (pose proof (mono_le (fun j => nth j edges 0) n Mo 0 i ltac:(lia) ltac:(lia)) as Q; exact Q).
  assert (E1 : e1 <= Rsum c) by (rewrite <- edges_last; exact (mono_le (fun j => nth j edges 0) n Mo (S i) n ltac:(lia) ltac:(lia))).
  (* the first point at or after e0 *)
  set (q := e0 / s). assert (Eq : q * s = e0) by (unfold q; field; lra). assert (Q0 : 0 <= q) by nra.
  destruct (base_Int_part (- q)) as [I1 I2]. set (z := Int_part (- q)) in *. clearbody z.
  assert (Z0 : (0 <= - z)%Z) by (apply le_IZR; rewrite opp_IZR; lra).
  set (k := Z.to_nat (- z)). assert (Ek : INR k = - IZR z) by (unfold k; rewrite INR_IZR_INZ, Z2Nat.id by exact Z0; apply opp_IZR).
  assert (K1 : e0 <= INR k * s) by nra. assert (K2 : INR (k + 1) * s < e1) by (rewrite plus_INR; cbn [INR]; nra).
  assert (K3 : (k + 1 < npts)%nat).
  { apply INR_lt. pose proof last_point as Lp. assert (INR (k + 1) < INR (npts - 1)) by nra. lra. }
  assert (K4 : INR k * s <= INR (k + 1) * s) by (rewrite plus_INR; cbn [INR]; nra).
  apply (two_in_bin _ s npts k S1 K3).
  - rewrite (proj2 (Rleb_iff _ _)) by lra. destruct (Nat.eqb (S i) n); [apply Rleb_iff|apply Rltb_iff]; lra.
  - rewrite (proj2 (Rleb_iff _ _)) by lra. destruct (Nat.eqb (S i) n); [apply Rleb_iff|apply Rltb_iff]; lra.
Qed.
End Rings.

Lemma ring_ok theta dtheta count r : (2 <= count)%nat -> exists l, ring theta dtheta count r = Ok l /\ length l = count /\ forall p, In p l -> on_sphere p.
Proof.
  intros H. unfold ring. rewrite spacing_spec, length_open, (proj2 (Nat.leb_le _ _) H). eexists. split; [reflexivity|].
  rewrite map_length, seq_length. split; [reflexivity|]. intros p I. apply in_map_iff in I. destruct I as (j & <- & _). destruct r; apply polar_on_sphere.
Qed.
Lemma mapE_rings {A} (f : nat -> res (list A) serr) (cnt : nat -> nat) (Q : A -> Prop) is :
  (forall i, In i is -> exists l, f i = Ok l /\ length l = cnt i /\ forall p, In p l -> Q p) ->
  exists ls, mapE f is = Ok ls /\ length (concat ls) = list_sum (map cnt is) /\ forall p, In p (concat ls) -> Q p.
Proof.
  induction is as [|i is IH]; intros H; [exists []; repeat split; intros p []|].
  destruct (H i (or_introl eq_refl)) as (l & E & L & P). destruct IH as (ls & Es & Ls & Ps); [intros j J; apply H; right; exact J|].
  exists (l :: ls). cbn [mapE]. rewrite E, Es. split; [reflexivity|]. cbn [concat map list_sum fold_right]. rewrite app_length, L, Ls. split; [reflexivity|].
  intros p I. apply in_app_or in I. destruct I as [I|I]; [apply P|apply Ps]; exact I.
Qed.
Lemma map_nth_seq {A} (l : list A) d : map (fun i => nth i l d) (seq 0 (length l)) = l.
Proof. apply (nth_ext _ _ d d); rewrite map_length, seq_length; [reflexivity|]. intros i Hi. rewrite (map_nth_indep _ _ _ 0%nat d) by (rewrite seq_length; exact Hi). rewrite seq_nth by exact Hi. reflexivity. Qed.

Lemma improved_spec npts rnd : (6 <= npts)%nat ->
  exists l, spherical_polar_improved npts rnd = Ok l /\ length l = npts /\ forall p, In p l -> on_sphere p.
Proof.
  intros H. unfold spherical_polar_improved. rewrite (proj2 (Nat.ltb_ge npts 6) H). destruct (counts npts H) as (L & T & C).
  pose proof (n2 npts H) as N2. rewrite spacing_spec, length_theta. rewrite (proj2 (Nat.leb_le _ _) N2).
  set (dt := nth 1 (theta_sequence (n_theta_of npts)) 0 - nth 0 (theta_sequence (n_theta_of npts)) 0). clearbody dt.
  destruct (mapE_rings (fun i => ring (nth i (theta_sequence (n_theta_of npts)) 0) dt (nth i (ring_counts npts) 0%nat)
     match rnd with Some r => Some (r i) | None => None end) (fun i => nth i (ring_counts npts) 0%nat) on_sphere (seq 0 (n_theta_of npts))) as (ls & E & Ls & P).
  { intros i I. apply in_seq in I. apply ring_ok. apply C. lia. }
  rewrite E. exists (concat ls). split; [reflexivity|]. split; [|exact P]. rewrite Ls. rewrite <- L at 1. rewrite map_nth_seq. exact T.
Qed.
Lemma improved_few npts rnd : (npts < 6)%nat -> spherical_polar_improved npts rnd = Err TooFew.
Proof. intros H. unfold spherical_polar_improved. rewrite (proj2 (Nat.ltb_lt npts 6) H). reflexivity. Qed.
