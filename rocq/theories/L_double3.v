(** Lemmas: Monkhorst-Pack grids in double precision. *)
From Flocq Require Import Core.
From Verif Require Import Base Vec3 M_grid L_grid M_qpts L_qpts L_util M_cell M_double S_double L_double L_double2.
From Coq Require Import Lra Lia.

#[local] Existing Instance prec53.
#[local] Existing Instance valid_exp.

Lemma val_d g i : (0 < g)%nat -> (i < g)%nat -> (Z.of_nat g < 2 ^ 52)%Z ->
  fl (fl (IZR (2 * (Z.of_nat i + 1) - Z.of_nat g - 1)) / fl (IZR (2 * Z.of_nat g)))
  = fl (mp_val g i).
Proof.
  intros G I B. rewrite (fl_id (IZR (2 * (Z.of_nat i + 1) - Z.of_nat g - 1))),
    (fl_id (IZR (2 * Z.of_nat g))) by (apply int_F; lia). f_equal. unfold mp_val.
  rewrite !minus_IZR, !mult_IZR, plus_IZR, <- !INR_IZR_INZ. reflexivity.
Qed.

Lemma mp_axis_d_fl g : (0 < g)%nat -> (Z.of_nat g < 2 ^ 52)%Z ->
  mp_axis_d g = map fl (mp_axis g).
Proof.
  intros G B. unfold mp_axis_d, mp_axis. rewrite map_map. apply map_ext_in.
  intros i Hi. apply in_seq in Hi. apply (val_d g i); [exact G|lia|exact B].
Qed.

Lemma mp_axis_d_length g : length (mp_axis_d g) = g.
Proof. unfold mp_axis_d. rewrite map_length, seq_length. reflexivity. Qed.

Lemma mp_grid_d_prod g0 g1 g2 :
  mp_grid_d g0 g1 g2 = Ok (prod3 (mp_axis_d g0) (mp_axis_d g1) (mp_axis_d g2)).
Proof.
  unfold mp_grid_d. rewrite <- (column_stack3_prod (mp_axis_d g0) (mp_axis_d g1) (mp_axis_d g2)).
  rewrite !mp_axis_d_length. reflexivity.
Qed.

Lemma g_bounds g : (0 < g)%nat -> (Z.of_nat g < 2 ^ 52)%Z -> 1 <= INR g < bpow radix2 52.
Proof.
  intros G B. rewrite INR_IZR_INZ. split; [apply IZR_le; lia|].
  change (bpow radix2 52) with (IZR (2 ^ 52)). apply IZR_lt. exact B.
Qed.

Lemma recip_big g : (0 < g)%nat -> (Z.of_nat g < 2 ^ 52)%Z -> bpow radix2 (-52) < / INR g.
Proof.
  intros G B. destruct (g_bounds g G B) as [A C].
  replace (bpow radix2 (-52)) with (/ bpow radix2 52)
    by (rewrite <- bpow_opp; reflexivity).
  apply Rinv_lt_contravar; [|exact C].
  apply Rmult_lt_0_compat; [lra|apply bpow_gt_0].
Qed.

Lemma val_err g i : (i < g)%nat -> Rabs (fl (mp_val g i) - mp_val g i) <= bpow radix2 (-54).
Proof.
  intros I. apply (fl_error _ (-1)); [lia|]. pose proof (mp_val_range g i I).
  change (bpow radix2 (-1)) with (/ 2). apply Rabs_le. lra.
Qed.

Lemma val_lt g i j : (i < j)%nat -> (j < g)%nat -> (Z.of_nat g < 2 ^ 52)%Z ->
  fl (mp_val g i) < fl (mp_val g j).
Proof.
  intros L J B. assert (G : (0 < g)%nat) by lia.
  pose proof (recip_big g G B) as R1. pose proof (g_bounds g G B) as [A _].
  assert (E1 := val_err g i ltac:(lia)). assert (E2 := val_err g j J).
  apply abs_bounds in E1, E2.
  assert (D : / INR g <= mp_val g j - mp_val g i).
  { unfold mp_val.
    replace ((2 * (INR j + 1) - INR g - 1) / (2 * INR g) - (2 * (INR i + 1) - INR g - 1) / (2 * INR g))
      with ((INR j - INR i) * / INR g) by (field; lra).
    assert (1 <= INR j - INR i).
    { apply le_INR in L. rewrite S_INR in L. lra. }
    assert (0 < / INR g) by (apply Rinv_0_lt_compat; lra). nra. }
  assert (bpow radix2 (-52) = 4 * bpow radix2 (-54)) by (cbn; lra).
  pose proof (bpow_gt_0 radix2 (-54)). lra.
Qed.

Lemma val_range g i : (i < g)%nat -> (Z.of_nat g < 2 ^ 52)%Z ->
  -1 / 2 < fl (mp_val g i) < 1 / 2.
Proof.
  intros I B. assert (G : (0 < g)%nat) by lia.
  pose proof (recip_big g G B) as R1. pose proof (g_bounds g G B) as [A _].
  assert (E1 := val_err g i I). apply abs_bounds in E1.
  assert (D : - (1 / 2) + / (2 * INR g) <= mp_val g i <= 1 / 2 - / (2 * INR g)).
  { unfold mp_val. assert (INR i + 1 <= INR g) by (rewrite <- S_INR; apply le_INR; lia).
    pose proof (pos_INR i). assert (P : 0 < / INR g) by (apply Rinv_0_lt_compat; lra).
    replace ((2 * (INR i + 1) - INR g - 1) / (2 * INR g))
      with ((INR i + 1 / 2) * / INR g - 1 / 2) by (field; lra).
    replace (/ (2 * INR g)) with (1 / 2 * / INR g) by (field; lra).
    assert (INR g * / INR g = 1) by (apply Rinv_r; lra). split; nra. }
  replace (/ (2 * INR g)) with (1 / 2 * / INR g) in D by (field; lra).
  assert (bpow radix2 (-52) = 4 * bpow radix2 (-54)) by (cbn; lra).
  pose proof (bpow_gt_0 radix2 (-54)). lra.
Qed.

Lemma in_axis_d g u : (0 < g)%nat -> (Z.of_nat g < 2 ^ 52)%Z ->
  In u (mp_axis_d g) <-> exists i, (i < g)%nat /\ u = fl (mp_val g i).
Proof.
  intros G B. rewrite mp_axis_d_fl by assumption. rewrite in_map_iff. split.
  - intros [v [<- Hv]]. apply in_mp_axis in Hv. destruct Hv as [i [Hi ->]]. exists i. tauto.
  - intros [i [Hi ->]]. exists (mp_val g i). split; [reflexivity|]. apply in_mp_axis.
    exists i. tauto.
Qed.

Lemma NoDup_axis_d g : (0 < g)%nat -> (Z.of_nat g < 2 ^ 52)%Z -> NoDup (mp_axis_d g).
Proof.
  intros G B. rewrite mp_axis_d_fl by assumption. apply NoDup_map_inj; [|apply NoDup_mp_axis].
  intros x y Hx Hy E. apply in_mp_axis in Hx, Hy.
  destruct Hx as [i [Hi ->]], Hy as [j [Hj ->]].
  destruct (Nat.lt_trichotomy i j) as [L|[L|L]].
  - pose proof (val_lt g i j L Hj B). lra.
  - congruence.
  - pose proof (val_lt g j i L Hi B). lra.
Qed.

Lemma axis_d_neg g u : (0 < g)%nat -> (Z.of_nat g < 2 ^ 52)%Z ->
  In u (mp_axis_d g) -> In (- u) (mp_axis_d g).
Proof.
  intros G B H. apply in_axis_d in H; [|assumption|assumption]. destruct H as [i [Hi ->]].
  apply in_axis_d; [assumption|assumption|]. exists (g - 1 - i)%nat. split; [lia|].
  rewrite <- fl_opp, mp_val_neg by exact Hi. reflexivity.
Qed.

Lemma grid_d g0 g1 g2 : (0 < g0)%nat -> (0 < g1)%nat -> (0 < g2)%nat ->
  (Z.of_nat g0 < 2 ^ 52)%Z -> (Z.of_nat g1 < 2 ^ 52)%Z -> (Z.of_nat g2 < 2 ^ 52)%Z ->
  exists l, mp_grid_d g0 g1 g2 = Ok l /\
    length l = (g0 * g1 * g2)%nat /\ NoDup l /\
    (forall x y z, In (x, y, z) l -> In (- x, - y, - z) l) /\
    (forall x y z, In (x, y, z) l ->
       -1/2 < x < 1/2 /\ -1/2 < y < 1/2 /\ -1/2 < z < 1/2) /\
    (forall x y z x' y' z', In (x, y, z) l -> In (x', y', z') l ->
       In (x, y', z) l /\ In (x, y, z') l /\ In (x', y, z) l).
Proof.
  intros H0 H1 H2 B0 B1 B2. exists (prod3 (mp_axis_d g0) (mp_axis_d g1) (mp_axis_d g2)).
  split; [apply mp_grid_d_prod|].
  split; [rewrite prod3_length, !mp_axis_d_length; lia|].
  split; [apply NoDup_prod3; apply NoDup_axis_d; assumption|].
  assert (Hran : forall g u, (0 < g)%nat -> (Z.of_nat g < 2 ^ 52)%Z ->
    In u (mp_axis_d g) -> -1/2 < u < 1/2).
  { intros g u G B Hu. apply in_axis_d in Hu; [|assumption|assumption].
    destruct Hu as [i [Hi ->]]. apply val_range; assumption. }
  split; [|split].
  - intros x y z. rewrite !in_prod3. intros [Hx [Hy Hz]].
    split; [|split]; apply axis_d_neg; assumption.
  - intros x y z. rewrite in_prod3. intros [Hx [Hy Hz]].
    split; [|split]; [exact (Hran g0 x H0 B0 Hx)|exact (Hran g1 y H1 B1 Hy)|exact (Hran g2 z H2 B2 Hz)].
  - intros x y z x' y' z'. rewrite !in_prod3. tauto.
Qed.

Lemma grid_d_order g0 g1 g2 i j k l :
  (Z.of_nat g0 < 2 ^ 52)%Z -> (Z.of_nat g1 < 2 ^ 52)%Z -> (Z.of_nat g2 < 2 ^ 52)%Z ->
  mp_grid_d g0 g1 g2 = Ok l -> (i < g0)%nat -> (j < g1)%nat -> (k < g2)%nat ->
  exists x y z, nth_error l ((i * g1 + j) * g2 + k) = Some (x, y, z) /\
    nearest_double ((INR i + 1/2) / INR g0 - 1/2) x /\
    nearest_double ((INR j + 1/2) / INR g1 - 1/2) y /\
    nearest_double ((INR k + 1/2) / INR g2 - 1/2) z.
Proof.
  intros B0 B1 B2 Hl Hi Hj Hk. rewrite mp_grid_d_prod in Hl. injection Hl as <-.
  pose proof (nth_prod3 (mp_axis_d g0) (mp_axis_d g1) (mp_axis_d g2) i j k 0 0 0 (0,0,0)) as H.
  rewrite !mp_axis_d_length in H. specialize (H Hi Hj Hk).
  assert (Hv : forall g n, (n < g)%nat -> (Z.of_nat g < 2 ^ 52)%Z ->
     nearest_double ((INR n + 1/2) / INR g - 1/2) (nth n (mp_axis_d g) 0)).
  { intros g n Hn B. rewrite mp_axis_d_fl by (assumption || lia). unfold mp_axis. rewrite map_map.
    rewrite (map_nth_indep _ _ _ 0%nat) by (rewrite seq_length; exact Hn).
    rewrite nth_seq_id by exact Hn. change (fl ((2 * (INR n + 1) - INR g - 1) / (2 * INR g))) with (fl (mp_val g n)).
    replace ((INR n + 1/2) / INR g - 1/2) with (mp_val g n).
    2:{ unfold mp_val. assert (0 < INR g) by (apply lt_0_INR; lia). field. lra. }
    apply fl_nearest. pose proof (mp_val_range g n Hn). apply Rle_trans with (bpow radix2 0).
    - cbn. apply Rabs_le. lra.
    - apply bpow_le. lia. }
  exists (nth i (mp_axis_d g0) 0), (nth j (mp_axis_d g1) 0), (nth k (mp_axis_d g2) 0).
  split; [|split; [|split]]; [|apply Hv; assumption..].
  rewrite <- H. apply nth_error_nth'. rewrite prod3_length, !mp_axis_d_length.
  assert (A1 : (i * g1 + j + 1 <= g0 * g1)%nat) by nia.
  assert (A2 : ((i * g1 + j + 1) * g2 <= g0 * g1 * g2)%nat) by (apply Nat.mul_le_mono_r; exact A1).
  lia.
Qed.

(** which grid points are gamma points *)
Lemma val_zero g i : (i < g)%nat -> (Z.of_nat g < 2 ^ 48)%Z ->
  (2 * i + 1 = g)%nat /\ fl (mp_val g i) = 0 \/
  (2 * i + 1 <> g)%nat /\ bpow radix2 (-49) <= Rabs (fl (mp_val g i)).
Proof.
  intros I B. assert (G : (0 < g)%nat) by lia.
  assert (A : 1 <= INR g) by (rewrite INR_IZR_INZ; apply IZR_le; lia).
  assert (A2 : INR g < bpow radix2 48).
  { rewrite INR_IZR_INZ. change (bpow radix2 48) with (IZR (2 ^ 48)). apply IZR_lt. exact B. }
  assert (V : mp_val g i = IZR (2 * (Z.of_nat i + 1) - Z.of_nat g - 1) * / (2 * INR g)).
  { unfold mp_val. rewrite !minus_IZR, mult_IZR, plus_IZR, <- !INR_IZR_INZ. reflexivity. }
  destruct (Nat.eq_dec (2 * i + 1) g) as [E|N].
  - left. split; [exact E|]. rewrite V.
    replace (2 * (Z.of_nat i + 1) - Z.of_nat g - 1)%Z with 0%Z by lia.
    rewrite Rmult_0_l. apply fl_0.
  - right. split; [exact N|].
    assert (R1 : bpow radix2 (-49) <= / (2 * INR g)).
    { replace (bpow radix2 (-49)) with (/ (2 * bpow radix2 48)).
      - apply Rinv_le_contravar; lra.
      - cbn. lra. }
    assert (P : 0 < / (2 * INR g)) by (apply Rinv_0_lt_compat; lra).
    assert (W : bpow radix2 (-49) <= Rabs (mp_val g i)).
    { rewrite V, Rabs_mult, (Rabs_pos_eq (/ _)) by lra. rewrite <- abs_IZR.
      assert (1 <= IZR (Z.abs (2 * (Z.of_nat i + 1) - Z.of_nat g - 1))) by (apply IZR_le; lia).
      nra. }
    apply abs_round_ge_generic; try typeclasses eauto; [apply pow_F; lia|exact W].
Qed.

Lemma reduce_in_zone u : double u -> -1 / 2 < u < 1 / 2 -> reduce_d u = u.
Proof.
  intros D B. destruct (reduce_exact u D) as [-> _].
  rewrite (rint_imp u 0); [ring|]. rewrite Rminus_0_r. unfold Rabs. destruct (Rcase_abs u); lra.
Qed.

Lemma val_double g i : (i < g)%nat -> double (fl (mp_val g i)).
Proof.
  intros I. apply (fl_nearest (mp_val g i)). pose proof (mp_val_range g i I).
  apply Rle_trans with (bpow radix2 0); [cbn; apply Rabs_le; lra|apply bpow_le; lia].
Qed.

Lemma grid_d_gamma g0 g1 g2 l :
  (0 < g0)%nat -> (0 < g1)%nat -> (0 < g2)%nat ->
  (Z.of_nat g0 < 2 ^ 48)%Z -> (Z.of_nat g1 < 2 ^ 48)%Z -> (Z.of_nat g2 < 2 ^ 48)%Z ->
  mp_grid_d g0 g1 g2 = Ok l ->
  (forall q, In q l -> (is_gamma_d q = true <-> q = (0, 0, 0))) /\
  (In (0, 0, 0) l <-> (Nat.odd g0 = true /\ Nat.odd g1 = true /\ Nat.odd g2 = true)).
Proof.
  intros H0 H1 H2 B0 B1 B2 Hl. rewrite mp_grid_d_prod in Hl. injection Hl as <-.
  assert (C : forall g, (Z.of_nat g < 2 ^ 48)%Z -> (Z.of_nat g < 2 ^ 52)%Z) by (intros; lia).
  assert (Z0 : forall g u, (0 < g)%nat -> (Z.of_nat g < 2 ^ 48)%Z -> In u (mp_axis_d g) ->
     reduce_d u = u /\ double u /\ (u = 0 \/ bpow radix2 (-49) <= Rabs u)).
  { intros g u G B Hu. apply in_axis_d in Hu; [|assumption|apply C; assumption].
    destruct Hu as [i [Hi ->]]. pose proof (val_double g i Hi) as D.
    split; [apply reduce_in_zone; [exact D|apply val_range; [exact Hi|apply C; exact B]]|].
    split; [exact D|]. destruct (val_zero g i Hi B) as [[_ E]|[_ E]]; tauto. }
  split.
  - intros [[x y] z] Hq. apply in_prod3 in Hq. destruct Hq as (Hx & Hy & Hz).
    destruct (Z0 _ _ H0 B0 Hx) as (Rx & Dx & Vx), (Z0 _ _ H1 B1 Hy) as (Ry & Dy & Vy),
      (Z0 _ _ H2 B2 Hz) as (Rz & Dz & Vz).
    split.
    + unfold is_gamma_d. rewrite Rx, Ry, Rz. intros Gm. apply Rltb_iff in Gm.
      assert (K : Rabs x + Rabs y + Rabs z < bpow radix2 (-49)).
      { apply Rnot_le_lt. intros L. revert Gm. apply Rle_not_lt, Rlt_le.
        apply sum_large; try apply Rabs_pos. pose proof tol_bounds as [_ T].
        assert (bpow radix2 (-100) < bpow radix2 (-60)) by (apply bpow_lt; lia). lra. }
      pose proof (Rabs_pos x). pose proof (Rabs_pos y). pose proof (Rabs_pos z).
      destruct Vx as [-> | Vx]; [|lra]. destruct Vy as [-> | Vy]; [|lra].
      destruct Vz as [-> | Vz]; [|lra]. reflexivity.
    + intros E. assert (x = 0) by congruence. assert (y = 0) by congruence.
      assert (z = 0) by congruence. subst.
      apply (is_gamma_d_true 0 0 0 0 0 0); [split; [exact Dx|split; assumption]|].
      rewrite Rminus_0_r, Rabs_R0.
      assert (/ 2 ^ 100 < / 10 ^ 15) by (apply Rinv_lt_contravar; lra). lra.
  - assert (Od : forall g, (0 < g)%nat -> (Z.of_nat g < 2 ^ 48)%Z ->
      In 0 (mp_axis_d g) <-> Nat.odd g = true).
    { intros g G B. rewrite in_axis_d by (assumption || apply C; assumption). split.
      - intros [i [Hi E]]. destruct (val_zero g i Hi B) as [[E2 _]|[_ E2]].
        + apply Nat.odd_spec. exists i. lia.
        + rewrite <- E, Rabs_R0 in E2. pose proof (bpow_gt_0 radix2 (-49)). lra.
      - intros O. apply Nat.odd_spec in O. destruct O as [i E]. exists i.
        assert (Hi : (i < g)%nat) by lia. split; [exact Hi|].
        destruct (val_zero g i Hi B) as [[_ E2]|[E2 _]]; [congruence|lia]. }
    rewrite in_prod3, !Od by assumption. reflexivity.
Qed.
