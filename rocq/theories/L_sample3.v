(** Lemmas for C38 (powder wrapper), C60 (even spread), C61, C62. *)
From Coq Require Import String.
From Verif Require Import Base Vec3 L_util M_qpts M_path M_sample S_sample L_path L_path2 L_qpts L_sample L_sample2.
Open Scope R_scope.

(** ** Counting *)
Lemma count_exists {A} (P : A -> Prop) l : (forall a, P a \/ ~ P a) -> exists c, count_of P l c.
Proof.
  intros D. induction l as [|a l (c & H)]; [exists 0%nat; constructor|]. destruct (D a) as [Y|N]; [exists (S c)|exists c]; [apply count_in|apply count_out]; assumption.
Qed.
Lemma count_bounds {A} (P : A -> Prop) d l c : count_of P l c -> forall a b, (forall i, (i < a)%nat -> (i < length l)%nat -> ~ P (nth i l d)) ->
  (forall i, (b <= i)%nat -> (i < length l)%nat -> P (nth i l d)) -> (length l - b <= c <= length l - a)%nat.
Proof.
  intros C. induction C as [|x l c Px C IH|x l c Nx C IH]; intros a b Ha Hb; cbn [length] in *; [lia| |].
  - destruct a as [|a]; [|exfalso; apply (Ha 0%nat); [lia|lia|exact Px]].
    assert (Q : (length l - (b - 1) <= c <= length l - 0)%nat); [|lia]. apply IH; [intros i Hi; lia|].
    intros i Hi Li. apply (Hb (S i)); lia.
  - destruct b as [|b]; [exfalso; apply Nx; apply (Hb 0%nat); lia|].
    assert (Q : (length l - b <= c <= length l - (a - 1))%nat); [|lia]. apply IH; [intros i Hi Li; apply (Ha (S i)); lia|].
    intros i Hi Li. apply (Hb (S i)); lia.
Qed.
Lemma count_app {A} (P : A -> Prop) l1 l2 c1 c2 : count_of P l1 c1 -> count_of P l2 c2 -> count_of P (l1 ++ l2) (c1 + c2).
Proof. intros C1 C2. induction C1; cbn; [exact C2|apply count_in|apply count_out]; assumption. Qed.
Lemma count_all {A} (P : A -> Prop) l : (forall a, In a l -> P a) -> count_of P l (length l).
Proof. induction l as [|a l IH]; intros H; [constructor|]. apply count_in; [apply H; left; reflexivity|]. apply IH. intros b I. apply H. right. exact I. Qed.
Lemma count_none {A} (P : A -> Prop) l : (forall a, In a l -> ~ P a) -> count_of P l 0.
Proof. induction l as [|a l IH]; intros H; [constructor|]. apply count_out; [apply H; left; reflexivity|]. apply IH. intros b I. apply H. right. exact I. Qed.
Lemma count_filter {A} (P : A -> Prop) (f : nat -> bool) d l : (forall i, (i < length l)%nat -> (f i = true <-> P (nth i l d))) ->
  count_of P l (length (filter f (seq 0 (length l)))).
Proof.
  assert (G : forall l k, (forall i, (i < length l)%nat -> (f (k + i)%nat = true <-> P (nth i l d))) -> count_of P l (length (filter f (seq k (length l))))).
  2:{ intros H. apply G. exact H. }
  clear l. induction l as [|a l IH]; intros k H; [constructor|]. cbn [length seq filter]. pose proof (H 0%nat ltac:(cbn; lia)) as H0. cbn [nth] in H0. rewrite Nat.add_0_r in H0.
  assert (IH' : count_of P l (length (filter f (seq (S k) (length l))))).
  { apply IH. intros i Hi. replace (S k + i)%nat with (k + S i)%nat by lia. apply (H (S i)). cbn; lia. }
  destruct (f k); [apply count_in|apply count_out]; try assumption; [apply H0; reflexivity|]. intros Q. apply H0 in Q. discriminate.
Qed.
Lemma height_eq p z z' : height p z -> height p z' -> z = z'.
Proof. intros (x & y & E) (x' & y' & E'). congruence. Qed.
Lemma above_dec h p : above h p \/ ~ above h p.
Proof.
  destruct p as [[[x y] z]|]; [|right; intros (z & (x & y & E) & _); discriminate]. destruct (Rlt_dec h z) as [D|D].
  - left. exists z. split; [exists x, y; reflexivity|exact D].
  - right. intros (z' & (x' & y' & E) & L). injection E as _ _ E. lra.
Qed.
Lemma above_height h p z : height p z -> above h p <-> h < z.
Proof. intros H. split; [intros (z' & H' & L); rewrite (height_eq _ _ _ H H'); exact L|]. intros L. exists z. split; assumption. Qed.

(** The zone of height h, out of n zones of equal area. *)
Lemma zone h n : (0 < n)%nat -> -1 <= h <= 1 -> exists m t, (m <= n)%nat /\ INR m <= t < INR m + 1 /\ INR n * (h + 1) = 2 * t /\ INR n * cap_share h = INR n - t.
Proof.
  intros Hn Hh. assert (P : 0 < INR n) by (apply lt_0_INR; exact Hn). set (t := INR n * (h + 1) / 2).
  destruct (base_Int_part t) as [A B]. set (z := Int_part t) in *. clearbody z.
  assert (T0 : 0 <= t) by (unfold t; nra). assert (T1 : t <= INR n) by (unfold t; nra).
  assert (Z0 : (0 <= z)%Z) by (assert (-1 < z)%Z by (apply lt_IZR; lra); lia).
  assert (E : INR (Z.to_nat z) = IZR z) by (rewrite INR_IZR_INZ, Z2Nat.id by exact Z0; reflexivity).
  exists (Z.to_nat z), t. split; [apply INR_le; lra|]. split; [lra|]. split; [unfold t; field|unfold t, cap_share; field].
Qed.

Lemma golden_even npts h : (0 < npts)%nat -> -1 <= h <= 1 -> exists l c, golden_sphere npts None = Ok l /\ length l = npts /\
  count_of (above h) l c /\ Rabs (INR c - INR npts * cap_share h) <= 1.
Proof.
  intros Hn Hh. destruct (golden_sphere_heights npts Hn) as (l & E & L & H). destruct (count_exists (above h) l (above_dec h)) as (c & C).
  exists l, c. split; [exact E|]. split; [exact L|]. split; [exact C|]. destruct (zone h npts Hn Hh) as (m & t & Hm & Ht & E1 & E2).
  assert (P : 0 < INR npts) by (apply lt_0_INR; exact Hn).
  assert (Fr : forall i, h < (2 * INR i + 1) / INR npts - 1 <-> 2 * t < 2 * INR i + 1).
  { intros i. rewrite <- E1. set (r := (2 * INR i + 1) / INR npts). replace (2 * INR i + 1) with (INR npts * r) by (unfold r; field; lra). split; intros; nra. }
  destruct (count_bounds (above h) None l c C m (S m)) as [B1 B2].
  - intros i Hi Li Q. rewrite L in Li. apply (proj1 (above_height _ _ _ (H i Li))) in Q. apply Fr in Q. assert (INR i + 1 <= INR m) by (rewrite <- S_INR; apply le_INR; lia). lra.
  - intros i Hi Li. rewrite L in Li. apply (above_height _ _ _ (H i Li)). apply Fr. assert (INR (S m) <= INR i) by (apply le_INR; lia). rewrite S_INR in *. lra.
  - rewrite E2. rewrite L in B1, B2. assert (U : INR c <= INR npts - INR m) by (rewrite <- minus_INR by exact Hm; apply le_INR; exact B2).
    assert (V : INR npts - INR m - 1 <= INR c).
    { assert (npts <= c + m + 1)%nat by lia. apply le_INR in H0. rewrite !plus_INR in H0. cbn [INR] in H0. lra. }
    apply Rabs_le. lra.
Qed.

Lemma grid_even n_rows n_cols rnd h : (0 < n_rows)%nat -> (0 < n_cols)%nat -> jitter_ok rnd -> -1 <= h <= 1 ->
  exists l c, sphere_from_square_grid n_rows n_cols rnd = Ok l /\ length l = (n_cols * n_rows)%nat /\
  count_of (above h) l c /\ Rabs (INR c - INR (n_cols * n_rows) * cap_share h) <= INR n_rows.
Proof.
  intros Hr Hc Hj Hh. destruct (grid_sphere_spec n_rows n_cols rnd Hr Hc Hj) as (l & E & L & _). destruct (grid_sphere_zones n_rows n_cols rnd Hr Hc Hj) as (l' & E' & H).
  rewrite E in E'. assert (l' = l) by congruence. subst l'. clear E'. destruct (count_exists (above h) l (above_dec h)) as (c & C).
  exists l, c. split; [exact E|]. split; [exact L|]. split; [exact C|]. destruct (zone h n_cols Hc Hh) as (m & t & Hm & Ht & E1 & E2).
  assert (P : 0 < INR n_cols) by (apply lt_0_INR; exact Hc). assert (P2 : 0 < INR n_rows) by (apply lt_0_INR; exact Hr).
  assert (Fr : forall i, (2 * INR i / INR n_cols - 1 <= h <-> INR i <= t) /\ (h < 2 * INR i / INR n_cols - 1 <-> t < INR i)).
  { intros i. set (r := 2 * INR i / INR n_cols). assert (2 * INR i = INR n_cols * r) by (unfold r; field; lra). repeat split; intros; nra. }
  assert (Ix : forall k, (k < length l)%nat -> exists z, height (nth k l None) z /\ 2 * INR (k / n_rows) / INR n_cols - 1 <= z < 2 * INR (S (k / n_rows)) / INR n_cols - 1).
  { intros k Hk. rewrite L in Hk. destruct (div_mod_index k n_rows n_cols Hr Hk) as [A B]. specialize (H (k / n_rows)%nat (k mod n_rows)%nat A B).
    replace (k / n_rows * n_rows + k mod n_rows)%nat with k in H; [exact H|]. rewrite (Nat.div_mod_eq k n_rows) at 1. lia. }
  destruct (count_bounds (above h) None l c C (m * n_rows) (S m * n_rows)) as [B1 B2].
  - intros k Hk Lk Q. destruct (Ix k Lk) as (z & Hz & Z1 & Z2). apply (proj1 (above_height _ _ _ Hz)) in Q.
    assert (k / n_rows < m)%nat by (apply Nat.div_lt_upper_bound; lia). assert (INR (S (k / n_rows)) <= INR m) by (apply le_INR; lia).
    assert (2 * INR (S (k / n_rows)) / INR n_cols - 1 <= h) by (apply Fr; lra). lra.
  - intros k Hk Lk. destruct (Ix k Lk) as (z & Hz & Z1 & Z2). apply (above_height _ _ _ Hz).
    assert (S m <= k / n_rows)%nat by (apply Nat.div_le_lower_bound; lia). assert (INR (S m) <= INR (k / n_rows)) by (apply le_INR; lia).
    assert (h < 2 * INR (k / n_rows) / INR n_cols - 1) by (apply Fr; rewrite S_INR in *; lra). lra.
  - rewrite L in B1, B2. rewrite mult_INR. replace (INR n_cols * INR n_rows * cap_share h) with ((INR n_cols - t) * INR n_rows) by (rewrite <- E2; ring).
    assert (U : INR c <= (INR n_cols - INR m) * INR n_rows).
    { assert (c + m * n_rows <= n_cols * n_rows)%nat by nia. apply le_INR in H0. rewrite plus_INR, !mult_INR in H0. lra. }
    assert (V : (INR n_cols - INR m - 1) * INR n_rows <= INR c).
    { assert (n_cols * n_rows <= c + S m * n_rows)%nat by lia. apply le_INR in H0. rewrite plus_INR, !mult_INR, S_INR in H0. lra. }
    apply Rabs_le. nra.
Qed.

(** ** The polar grid crowds the poles *)
Lemma filter_mod m q p : (m <= q)%nat -> (0 < q)%nat -> length (filter (fun k => Nat.ltb (k mod q) m) (seq 0 (p * q))) = (p * m)%nat.
Proof.
  intros Hm Hq. induction p as [|p IH]; [reflexivity|]. replace (S p * q)%nat with (p * q + q)%nat by lia. rewrite seq_app, filter_app, app_length, IH. cbn [plus].
  assert (G : forall w s, (s + w <= q)%nat -> length (filter (fun k => Nat.ltb (k mod q) m) (seq (p * q + s) w)) = (Nat.min (s + w) m - Nat.min s m)%nat).
  { induction w as [|w IHw]; intros s Hs; [cbn [seq filter length]; lia|]. cbn [seq filter].
    assert (E : ((p * q + s) mod q)%nat = s) by (rewrite Nat.add_comm, Nat.mod_add by lia; apply Nat.mod_small; lia). rewrite E.
    replace (S (p * q + s)) with (p * q + S s)%nat by lia. destruct (Nat.ltb_spec s m) as [D|D]; cbn [length]; rewrite IHw by lia; lia. }
  specialize (G q 0%nat ltac:(lia)). rewrite Nat.add_0_r in G. rewrite G. lia.
Qed.
Lemma polar_grid_poles n_phi m : (2 <= n_phi)%nat -> (1 <= m)%nat -> exists l c, spherical_polar_grid n_phi (3 * m) None = Ok l /\
  length l = (n_phi * (3 * m))%nat /\ count_of (above (1 / 2)) l c /\ INR c = 4 / 3 * (INR (length l) * cap_share (1 / 2)).
Proof.
  intros Hp Hm. destruct (polar_grid_spec n_phi (3 * m) None Hp ltac:(lia)) as (l & E & L & _). destruct (polar_grid_heights n_phi (3 * m) Hp ltac:(lia)) as (l' & E' & H).
  rewrite E in E'. assert (l' = l) by congruence. subst l'. clear E'. pose proof PI_bounds as PB.
  assert (P : 0 < INR m) by (apply lt_0_INR; lia). set (x := PI / (6 * INR m)). assert (Ex : 6 * INR m * x = PI) by (unfold x; field; lra). assert (Px : 0 < x) by (unfold x; apply Rdiv_lt_0_compat; lra).
  assert (C : count_of (above (1 / 2)) l (length (filter (fun k => Nat.ltb (k mod (3 * m)) m) (seq 0 (length l))))).
  { apply (count_filter _ _ None). intros k Hk. rewrite L in Hk. destruct (div_mod_index k (3 * m) n_phi ltac:(lia) Hk) as [A B].
    specialize (H _ _ A B). replace (k / (3 * m) * (3 * m) + k mod (3 * m))%nat with k in H by (rewrite (Nat.div_mod_eq k (3 * m)) at 1; lia).
    rewrite (above_height _ _ _ H). set (j := (k mod (3 * m))%nat) in *. rewrite Nat.ltb_lt.
    replace (PI / (2 * INR (3 * m))) with x by (unfold x; rewrite mult_INR; cbn [INR]; field; lra). rewrite <- cos_PI3.
    pose proof (pos_INR j). assert (J : INR j + 1 <= 3 * INR m) by (replace (3 * INR m) with (INR (3 * m)) by (rewrite mult_INR; cbn [INR]; ring); rewrite <- S_INR; apply le_INR; lia).
    split; intros Q.
    - assert (INR j + 1 <= INR m) by (rewrite <- S_INR; apply le_INR; lia). apply cos_decreasing_1; nra.
    - apply Nat.nle_gt. intros N. apply le_INR in N. assert (cos ((2 * INR j + 1) * x) < cos (PI / 3)) by (apply cos_decreasing_1; nra). lra. }
  eexists l, _. split; [exact E|]. split; [exact L|]. split; [exact C|]. rewrite L, filter_mod by lia. rewrite !mult_INR. unfold cap_share. cbn [INR]. field.
Qed.
Lemma polar_grid_uneven n_phi n_theta : (2 <= n_phi)%nat -> (4 <= n_theta)%nat -> exists l z0 z1 z2, spherical_polar_grid n_phi n_theta None = Ok l /\
  height (nth 0 l None) z0 /\ height (nth 1 l None) z1 /\ height (nth 2 l None) z2 /\ z1 < z0 /\ z2 < z1 /\ z0 - z1 < z1 - z2.
Proof.
  intros Hp Ht. destruct (polar_grid_heights n_phi n_theta Hp ltac:(lia)) as (l & E & H). pose proof PI_bounds as PB.
  pose proof (H 0%nat 0%nat ltac:(lia) ltac:(lia)) as H0. pose proof (H 0%nat 1%nat ltac:(lia) ltac:(lia)) as H1. pose proof (H 0%nat 2%nat ltac:(lia) ltac:(lia)) as H2.
  assert (P : 4 <= INR n_theta) by (replace 4 with (INR 4) by (cbn; ring); apply le_INR; exact Ht).
  set (x := PI / (2 * INR n_theta)) in *. assert (Ex : 2 * INR n_theta * x = PI) by (unfold x; field; lra). assert (Px : 0 < x) by (unfold x; apply Rdiv_lt_0_compat; lra).
  assert (Ux : 8 * x <= PI) by nra. exists l. do 3 eexists. split; [exact E|]. split; [exact H0|]. split; [exact H1|]. split; [exact H2|].
  replace ((2 * INR 0 + 1) * x) with x by (cbn; ring). replace ((2 * INR 1 + 1) * x) with (3 * x) by (cbn; ring). replace ((2 * INR 2 + 1) * x) with (5 * x) by (cbn; ring).
  assert (D1 : cos x - cos (3 * x) = 2 * sin (2 * x) * sin x) by (replace x with (2 * x - x) at 1 by ring; replace (3 * x) with (2 * x + x) by ring; rewrite cos_plus, cos_minus; ring).
  assert (D2 : cos (3 * x) - cos (5 * x) = 2 * sin (4 * x) * sin x) by (replace (3 * x) with (4 * x - x) by ring; replace (5 * x) with (4 * x + x) by ring; rewrite cos_plus, cos_minus; ring).
  assert (S1 : 0 < sin x) by (apply sin_gt_0; lra). assert (S2 : 0 < sin (2 * x)) by (apply sin_gt_0; lra). assert (S4 : sin (2 * x) < sin (4 * x)) by (apply sin_increasing_1; lra). clear - D1 D2 S1 S2 S4. nra.
Qed.

(** ** The improved polar sampling: points per ring *)
Lemma filter_range (f : nat -> bool) a b n : (a <= b <= n)%nat -> (forall k, (k < n)%nat -> (f k = true <-> (a <= k < b)%nat)) -> length (filter f (seq 0 n)) = (b - a)%nat.
Proof.
  intros Hab Hf. rewrite <- (seq_length (b - a) a). f_equal. replace n with (a + ((b - a) + (n - b)))%nat by lia. rewrite seq_app, seq_app, !filter_app. cbn [plus].
  assert (F0 : forall l, (forall k, In k l -> f k = false) -> filter f l = []) by (induction l as [|k l IH]; intros H; [reflexivity|]; cbn; rewrite (H k) by (left; reflexivity); apply IH; intros j J; apply H; right; exact J).
  assert (F1 : forall l, (forall k, In k l -> f k = true) -> filter f l = l) by (induction l as [|k l IH]; intros H; [reflexivity|]; cbn; rewrite (H k) by (left; reflexivity); f_equal; apply IH; intros j J; apply H; right; exact J).
  assert (Ff : forall k, (k < n)%nat -> ~ (a <= k < b)%nat -> f k = false) by (intros k Hk N; destruct (f k) eqn:Ek; [exfalso; apply N, (Hf k Hk); exact Ek|reflexivity]).
  rewrite (F0 (seq 0 a)), (F1 (seq a (b - a))), (F0 (seq (a + (b - a)) (n - b))).
  - rewrite app_nil_r. reflexivity.
  - intros k I. apply in_seq in I. apply Ff; lia.
  - intros k I. apply in_seq in I. apply Hf; lia.
  - intros k I. apply in_seq in I. apply Ff; lia.
Qed.
Lemma filter_map_len {A B} (f : B -> bool) (g : A -> B) l : length (filter f (map g l)) = length (filter (fun a => f (g a)) l).
Proof. induction l as [|a l IH]; [reflexivity|]. cbn. destruct (f (g a)); cbn; rewrite IH; reflexivity. Qed.
Lemma ceil_nat r : 0 <= r -> exists k, r <= INR k < r + 1 /\ forall j, (k <= j)%nat <-> r <= INR j.
Proof.
  intros H. destruct (base_Int_part (- r)) as [A B]. set (z := Int_part (- r)) in *. clearbody z.
  assert (Z0 : (0 <= - z)%Z) by (apply le_IZR; rewrite opp_IZR; lra). exists (Z.to_nat (- z)).
  assert (E : INR (Z.to_nat (- z)) = - IZR z) by (rewrite INR_IZR_INZ, Z2Nat.id by exact Z0; apply opp_IZR).
  split; [lra|]. intros j. split; intros Q; [apply le_INR in Q; lra|]. apply Nat.lt_succ_r. apply INR_lt. rewrite S_INR. lra.
Qed.

Section Improved.
Variable npts : nat.
Hypothesis H6 : (6 <= npts)%nat.
Let n := n_theta_of npts.
Let c := circumferences n.
Let s := Rsum c / INR (npts - 1).
Let edges := 0 :: cumsum c.

Lemma count_close i : (i < n)%nat -> Rabs (INR (nth i (ring_counts npts) 0%nat) - nth i c 0 / s) <= 1.
Proof.
  intros Hi. destruct (step_pos npts H6) as [S1 S2]. change (0 < s) in S1. specialize (S2 i Hi). change (2 * s <= nth i c 0) in S2. destruct (npts1 npts H6) as [Q1 Q2].
  assert (Pa : linspace 0 (Rsum c) npts = map (fun i => INR i * s) (seq 0 npts)) by exact (points_are npts).
  unfold ring_counts. fold n. fold c. rewrite Pa. fold edges.
  assert (Le : length edges = S n) by (unfold edges, cumsum; cbn [length]; rewrite length_cumsum_from; f_equal; exact (length_c npts)).
  assert (Es : forall j, (j < n)%nat -> nth (S j) edges 0 = nth j edges 0 + nth j c 0) by exact (edges_step npts H6).
  assert (El : nth n edges 0 = Rsum c) by exact (edges_last npts H6).
  assert (Cp : forall j, (j < n)%nat -> 0 < nth j c 0) by (intros j Hj; destruct (step_pos npts H6) as [T1 T2]; specialize (T2 j Hj); change (2 * s <= nth j c 0) in T2; change (0 < s) in T1; lra).
  assert (Mo : forall j, (j < n)%nat -> nth j edges 0 < nth (S j) edges 0) by (intros j Hj; rewrite Es by exact Hj; specialize (Cp j Hj); lra).
  pose proof (mono_le (fun j => nth j edges 0) n Mo) as Mono. cbn beta in Mono.
  unfold histogram. rewrite Le. replace (S n - 1)%nat with n by lia. rewrite (map_nth_indep _ _ _ 0%nat 0%nat) by (rewrite seq_length; exact Hi).
  rewrite seq_nth by exact Hi. cbn [plus]. specialize (Es i Hi). set (e0 := nth i edges 0) in *. set (e1 := nth (S i) edges 0) in *.
  assert (E0 : 0 <= e0) by exact (Mono 0%nat i ltac:(lia) ltac:(lia)). assert (E1 : e1 <= Rsum c) by (rewrite <- El; exact (Mono (S i) n ltac:(lia) ltac:(lia))).
  assert (Lp : INR (npts - 1) * s = Rsum c) by exact (last_point npts H6).
  assert (R0 : e0 / s * s = e0) by (field; lra). assert (R1 : e1 / s * s = e1) by (field; lra). set (r0 := e0 / s) in *. set (r1 := e1 / s) in *.
  assert (Ec : nth i c 0 / s = r1 - r0) by (unfold r0, r1; rewrite Es; field; lra). rewrite Ec.
  destruct (ceil_nat r0) as (k0 & B0 & C0); [nra|]. destruct (ceil_nat r1) as (k1 & B1 & C1); [nra|].
  assert (Cmp : forall k r e, r * s = e -> (e <= INR k * s <-> r <= INR k)) by (intros k r e <-; split; intros; nra).
  rewrite filter_map_len. destruct (Nat.eqb_spec (S i) n) as [El'|Nl].
  - assert (e1 = Rsum c) by (unfold e1; rewrite El'; exact El). assert (Er : r1 = INR (npts - 1)) by nra.
    assert (K0 : (k0 <= npts)%nat) by (apply C0; rewrite Q2 in *; nra).
    rewrite (filter_range _ k0 npts npts); [rewrite minus_INR by exact K0; apply Rabs_le; rewrite Q2 in Er; lra|lia|].
    intros k Hk. rewrite andb_true_iff, !Rleb_iff, (Cmp k r0 e0 R0), <- C0. split; [lia|]. intros [A _]. split; [exact A|].
    assert (INR k <= INR (npts - 1)) by (apply le_INR; lia). nra.
  - assert (K01 : (k0 <= k1)%nat) by (apply C0; nra). assert (K1 : (k1 <= npts)%nat) by (apply C1; rewrite Q2 in *; nra).
    rewrite (filter_range _ k0 k1 npts); [rewrite minus_INR by exact K01; apply Rabs_le; lra|lia|].
    intros k Hk. rewrite andb_true_iff, Rleb_iff, Rltb_iff, (Cmp k r0 e0 R0), <- C0. split; intros [A B]; (split; [exact A|]).
    + apply Nat.nle_gt. intros N. apply C1 in N. nra.
    + apply Rnot_le_lt. intros N. apply (Cmp k r1 e1 R1) in N. apply C1 in N. lia.
Qed.
End Improved.

Lemma ring_heights theta dtheta count : (2 <= count)%nat -> exists l, ring theta dtheta count None = Ok l /\ length l = count /\ forall p, In p l -> height p (cos theta).
Proof.
  intros H. unfold ring. rewrite spacing_spec, length_open, (proj2 (Nat.leb_le _ _) H). eexists. split; [reflexivity|].
  rewrite map_length, seq_length. split; [reflexivity|]. intros p I. apply in_map_iff in I. destruct I as (j & <- & _). do 2 eexists. reflexivity.
Qed.
Lemma mapE_count {A} (f : nat -> res (list A) serr) (cnt : nat -> nat) (P : A -> Prop) i0 is : NoDup is ->
  (forall i, In i is -> exists l, f i = Ok l /\ length l = cnt i /\ forall p, In p l -> (i = i0 -> P p) /\ (i <> i0 -> ~ P p)) ->
  exists ls, mapE f is = Ok ls /\ count_of P (concat ls) (if in_dec Nat.eq_dec i0 is then cnt i0 else 0%nat).
Proof.
  induction is as [|i is IH]; intros ND H; [exists []; split; [reflexivity|constructor]|]. inversion ND as [|? ? Ni ND']; subst.
  destruct (H i (or_introl eq_refl)) as (l & E & L & P1). destruct IH as (ls & Es & Cs); [exact ND'|intros j J; apply H; right; exact J|].
  exists (l :: ls). cbn [mapE]. rewrite E, Es. split; [reflexivity|]. cbn [concat].
  destruct (Nat.eq_dec i i0) as [Q|Q].
  - subst i. destruct (in_dec Nat.eq_dec i0 is) as [J|J]; [contradiction|]. destruct (in_dec Nat.eq_dec i0 (i0 :: is)) as [K|K]; [|exfalso; apply K; left; reflexivity].
    rewrite <- (Nat.add_0_r (cnt i0)), <- L. apply count_app; [|exact Cs]. apply count_all. intros p I. apply P1; [exact I|reflexivity].
  - assert (N : count_of P l 0) by (apply count_none; intros p I; apply P1; assumption).
    destruct (in_dec Nat.eq_dec i0 is) as [J|J]; destruct (in_dec Nat.eq_dec i0 (i :: is)) as [K|K]; try (exfalso; apply K; right; exact J); try (destruct K; [congruence|contradiction]);
      exact (count_app P _ _ 0 _ N Cs).
Qed.

Lemma improved_rings npts : (6 <= npts)%nat -> exists l n total, spherical_polar_improved npts None = Ok l /\ length l = npts /\ (2 <= n)%nat /\
  total = sumn n (fun i => sin ((2 * INR i + 1) * (PI / (2 * INR n)))) /\ 0 < total /\
  (forall p, In p l -> exists i, (i < n)%nat /\ height p (cos ((2 * INR i + 1) * (PI / (2 * INR n))))) /\
  forall i, (i < n)%nat -> exists c, count_of (fun p => height p (cos ((2 * INR i + 1) * (PI / (2 * INR n))))) l c /\ (2 <= c)%nat /\
  Rabs (INR c - INR (npts - 1) * (sin ((2 * INR i + 1) * (PI / (2 * INR n))) / total)) <= 1.
Proof.
  intros H. destruct (improved_spec npts None H) as (l & E & L & _). set (n := n_theta_of npts) in *. pose proof (n2 npts H) as N2. fold n in N2.
  set (x := PI / (2 * INR n)). set (tt := sumn n (fun i => sin ((2 * INR i + 1) * x))).
  destruct (xpos npts H) as [X1 X2]. fold n in X1, X2. fold x in X1, X2. pose proof PI_bounds as PB.
  destruct (counts npts H) as (Lc & Tc & Cc). fold n in Lc, Cc.
  assert (Rs : exists ls, mapE (fun i => ring (nth i (theta_sequence n) 0) (nth 1 (theta_sequence n) 0 - nth 0 (theta_sequence n) 0) (nth i (ring_counts npts) 0%nat) None) (seq 0 n) = Ok ls /\ l = concat ls).
  { revert E. unfold spherical_polar_improved. rewrite (proj2 (Nat.ltb_ge npts 6) H). rewrite spacing_spec, length_theta. fold n. rewrite (proj2 (Nat.leb_le _ _) N2).
    destruct (mapE _ _) as [ls|e] eqn:Em; [|discriminate]. intros E. exists ls. split; [reflexivity|congruence]. }
  destruct Rs as (ls & Es & El).
  assert (Gt : forall i, (i < n)%nat -> nth i (theta_sequence n) 0 = (2 * INR i + 1) * x) by (intros i Hi; apply nth_theta; exact Hi).
  assert (Rg : forall i, (i < n)%nat -> 0 < (2 * INR i + 1) * x < PI).
  { intros i Hi. pose proof (pos_INR i). assert (INR i + 1 <= INR n) by (rewrite <- S_INR; apply le_INR; lia). split; nra. }
  assert (Inj : forall i j, (i < n)%nat -> (j < n)%nat -> cos ((2 * INR i + 1) * x) = cos ((2 * INR j + 1) * x) -> i = j).
  { intros i j Hi Hj Q. apply Rg in Hi. apply Rg in Hj. assert (T : (2 * INR i + 1) * x = (2 * INR j + 1) * x).
    { destruct (Rtotal_order ((2 * INR i + 1) * x) ((2 * INR j + 1) * x)) as [T|[T|T]]; [exfalso|exact T|exfalso].
      - assert (cos ((2 * INR j + 1) * x) < cos ((2 * INR i + 1) * x)) by (apply cos_decreasing_1; lra). lra.
      - assert (cos ((2 * INR i + 1) * x) < cos ((2 * INR j + 1) * x)) by (apply cos_decreasing_1; lra). lra. }
    apply INR_eq. nra. }
  assert (Tot : Rsum (circumferences n) = 2 * PI * tt).
  { assert (Ec : circumferences n = map (fun i => 2 * PI * sin ((2 * INR i + 1) * x)) (seq 0 n)).
    { apply (nth_ext _ _ 0 0); [unfold n; rewrite (length_c npts), map_length, seq_length; reflexivity|]. intros i Hi. unfold n in Hi. rewrite (length_c npts) in Hi. fold n in Hi.
      rewrite (map_nth_indep _ _ _ 0%nat 0) by (rewrite seq_length; exact Hi). rewrite seq_nth by exact Hi. exact (proj1 (nth_c npts H i Hi)). }
    rewrite Ec. unfold tt, sumn, Sum. generalize (seq 0 n). induction l0 as [|a l0 IH]; [cbn; ring|]. change (Rsum (map ?f (a :: l0))) with (f a + Rsum (map f l0)). cbn beta. rewrite IH. cbn [map]. change (Rsum (?a :: ?b)) with (a + Rsum b). ring. }
  assert (Tp : 0 < tt).
  { pose proof (total_c npts H) as T. fold n in T. fold x in T. rewrite Tot in T. assert (Sx : 0 < sin x) by (pose proof (Rg 0%nat ltac:(lia)) as G; cbn [INR] in G; apply sin_gt_0; lra). assert (tt * sin x = 1) by (apply (Rmult_eq_reg_l (2 * PI)); lra). nra. }
  exists l, n, tt. split; [exact E|]. split; [exact L|]. split; [exact N2|]. split; [reflexivity|]. split; [exact Tp|]. split.
  - intros p I. destruct (mapE_rings (fun i => ring (nth i (theta_sequence n) 0) (nth 1 (theta_sequence n) 0 - nth 0 (theta_sequence n) 0) (nth i (ring_counts npts) 0%nat) None)
      (fun i => nth i (ring_counts npts) 0%nat) (fun p => exists i, (i < n)%nat /\ height p (cos ((2 * INR i + 1) * x))) (seq 0 n)) as (ls' & Es' & _ & P).
    { intros i Ii. apply in_seq in Ii. destruct (ring_heights (nth i (theta_sequence n) 0) (nth 1 (theta_sequence n) 0 - nth 0 (theta_sequence n) 0) (nth i (ring_counts npts) 0%nat)) as (r & Er & Lr & Pr); [apply Cc; lia|].
      exists r. split; [exact Er|]. split; [exact Lr|]. intros q Iq. exists i. split; [lia|]. rewrite <- Gt by lia. apply Pr. exact Iq. }
    rewrite Es in Es'. assert (ls' = ls) by congruence. subst ls'. apply P. rewrite <- El. exact I.
  - intros i Hi. exists (nth i (ring_counts npts) 0%nat). split; [|split; [apply Cc; exact Hi|]].
    + destruct (mapE_count (fun i => ring (nth i (theta_sequence n) 0) (nth 1 (theta_sequence n) 0 - nth 0 (theta_sequence n) 0) (nth i (ring_counts npts) 0%nat) None)
        (fun i => nth i (ring_counts npts) 0%nat) (fun p => height p (cos ((2 * INR i + 1) * x))) i (seq 0 n)) as (ls' & Es' & C).
      { apply seq_NoDup. }
      { intros j Ij. apply in_seq in Ij. destruct (ring_heights (nth j (theta_sequence n) 0) (nth 1 (theta_sequence n) 0 - nth 0 (theta_sequence n) 0) (nth j (ring_counts npts) 0%nat)) as (r & Er & Lr & Pr); [apply Cc; lia|].
        exists r. split; [exact Er|]. split; [exact Lr|]. intros q Iq. specialize (Pr q Iq). rewrite Gt in Pr by lia. split; [intros ->; exact Pr|].
        intros Ne Hq. apply Ne. apply Inj; [lia|exact Hi|]. apply (height_eq q); assumption. }
      rewrite Es in Es'. assert (ls' = ls) by congruence. subst ls'. destruct (in_dec Nat.eq_dec i (seq 0 n)) as [J|J]; [|exfalso; apply J, in_seq; lia]. rewrite El. exact C.
    + pose proof (count_close npts H i Hi) as Q. fold n in Q. pose proof (proj1 (nth_c npts H i Hi)) as Qc. fold n in Qc. fold x in Qc. rewrite Qc, Tot in Q.
      destruct (npts1 npts H) as [Q1 _].
      replace (2 * PI * sin ((2 * INR i + 1) * x) / (2 * PI * tt / INR (npts - 1))) with (INR (npts - 1) * (sin ((2 * INR i + 1) * x) / tt)) in Q by (field; lra). exact Q.
Qed.
