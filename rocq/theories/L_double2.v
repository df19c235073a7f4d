(** Lemmas: gamma tests and Monkhorst-Pack grids in double precision. *)
From Flocq Require Import Core.
From Verif Require Import Base Vec3 M_grid L_grid M_qpts L_qpts L_util M_cell M_double S_double L_double.
From Coq Require Import Lra Lia.

#[local] Existing Instance prec53.
#[local] Existing Instance valid_exp.

(** nearest integers *)
Lemma rint_imp x n : Rabs (x - IZR n) < 1 / 2 -> rint x = n.
Proof.
  intros H. pose proof (rint_dist x) as D.
  assert (A : Rabs (IZR (rint x - n)) < 1).
  { rewrite minus_IZR. revert H D. unfold Rabs. repeat (destruct (Rcase_abs _)); intros; lra. }
  rewrite <- abs_IZR in A. apply lt_IZR in A. lia.
Qed.

Lemma c_round_imp x n : Rabs (x - IZR n) < 1 / 2 -> c_round x = n.
Proof.
  intros H. pose proof (c_round_dist x) as D.
  assert (A : Rabs (IZR (c_round x - n)) < 1).
  { rewrite minus_IZR. revert H D. unfold Rabs. repeat (destruct (Rcase_abs _)); intros; lra. }
  rewrite <- abs_IZR in A. apply lt_IZR in A. lia.
Qed.

Lemma not_half x : ~ half_odd x -> Rabs (x - IZR (rint x)) < 1 / 2.
Proof.
  intros N. destruct (Rle_lt_or_eq_dec _ _ (rint_dist x)) as [L|E]; [exact L|exfalso; apply N].
  unfold half_odd. revert E. unfold Rabs. destruct (Rcase_abs _); intros E.
  - exists (rint x - 1)%Z. rewrite minus_IZR. lra.
  - exists (rint x). lra.
Qed.

Lemma rint_nearest x k : Rabs (x - IZR (rint x)) <= Rabs (x - IZR k).
Proof.
  destruct (Rle_lt_dec (1 / 2) (Rabs (x - IZR k))) as [L|L].
  - pose proof (rint_dist x). lra.
  - rewrite (rint_imp x k L). lra.
Qed.

(** reduction, one coordinate *)
Lemma reduce_shift x k : double x -> double (x + IZR k) -> ~ half_odd x ->
  reduce_d (x + IZR k) = reduce_d x /\ c_reduce_d (x + IZR k) = reduce_d x.
Proof.
  intros H H' N. pose proof (not_half x N) as L.
  destruct (reduce_exact x H) as [-> _], (reduce_exact _ H') as [-> _],
    (c_reduce_exact _ H') as [-> _].
  assert (L' : Rabs (x + IZR k - IZR (rint x + k)) < 1 / 2).
  { rewrite plus_IZR. replace (x + IZR k - (IZR (rint x) + IZR k)) with (x - IZR (rint x)) by ring.
    exact L. }
  rewrite (rint_imp _ _ L'), (c_round_imp _ _ L'). rewrite plus_IZR. split; ring.
Qed.

Lemma reduced_point x y z : double3 (x, y, z) ->
  exists i j k : Z, qnorm_d (x, y, z) = (x - IZR i, y - IZR j, z - IZR k) /\
    double3 (x - IZR i, y - IZR j, z - IZR k) /\
    Rabs (x - IZR i) <= 1 / 2 /\ Rabs (y - IZR j) <= 1 / 2 /\ Rabs (z - IZR k) <= 1 / 2.
Proof.
  intros (Hx & Hy & Hz). exists (rint x), (rint y), (rint z).
  destruct (reduce_exact x Hx) as [Ex Dx], (reduce_exact y Hy) as [Ey Dy],
    (reduce_exact z Hz) as [Ez Dz].
  unfold qnorm_d. rewrite Ex, Ey, Ez. split; [reflexivity|].
  split; [split; [exact Dx|split; assumption]|].
  split; [apply rint_dist|split; apply rint_dist].
Qed.

Lemma c_reduced_point x y z : double3 (x, y, z) ->
  exists i j k : Z, c_qnorm_d (x, y, z) = (x - IZR i, y - IZR j, z - IZR k) /\
    double3 (x - IZR i, y - IZR j, z - IZR k) /\
    Rabs (x - IZR i) <= 1 / 2 /\ Rabs (y - IZR j) <= 1 / 2 /\ Rabs (z - IZR k) <= 1 / 2.
Proof.
  intros (Hx & Hy & Hz). exists (c_round x), (c_round y), (c_round z).
  destruct (c_reduce_exact x Hx) as [Ex Dx], (c_reduce_exact y Hy) as [Ey Dy],
    (c_reduce_exact z Hz) as [Ez Dz].
  unfold c_qnorm_d. rewrite Ex, Ey, Ez. split; [reflexivity|].
  split; [split; [exact Dx|split; assumption]|].
  split; [apply c_round_dist|split; apply c_round_dist].
Qed.

Lemma qnorm_d_exact q : double3 q -> qnorm_d q = qnorm q.
Proof.
  destruct q as [[x y] z]. intros (Hx & Hy & Hz). unfold qnorm_d, qnorm.
  destruct (reduce_exact x Hx) as [-> _], (reduce_exact y Hy) as [-> _],
    (reduce_exact z Hz) as [-> _]. reflexivity.
Qed.

Lemma equivalent_points x y z i j k :
  double3 (x, y, z) -> double3 (x + IZR i, y + IZR j, z + IZR k) ->
  ~ half_odd x -> ~ half_odd y -> ~ half_odd z ->
  qnorm_d (x + IZR i, y + IZR j, z + IZR k) = qnorm_d (x, y, z) /\
  c_qnorm_d (x + IZR i, y + IZR j, z + IZR k) = qnorm_d (x, y, z).
Proof.
  intros (Hx & Hy & Hz) (Hx' & Hy' & Hz') Nx Ny Nz. unfold qnorm_d, c_qnorm_d.
  destruct (reduce_shift x i Hx Hx' Nx) as [-> ->], (reduce_shift y j Hy Hy' Ny) as [-> ->],
    (reduce_shift z k Hz Hz' Nz) as [-> ->]. split; reflexivity.
Qed.

(** the gamma test *)
Lemma abs_F x : F x -> F (Rabs x).
Proof. apply generic_format_abs. Qed.

Lemma c_is_gamma_same q : double3 q -> c_is_gamma_d q = is_gamma_d q.
Proof.
  destruct q as [[x y] z]. intros (Hx & Hy & Hz). unfold c_is_gamma_d, is_gamma_d.
  destruct (reduce_exact x Hx) as [-> Dx], (reduce_exact y Hy) as [-> _],
    (reduce_exact z Hz) as [-> _].
  destruct (c_reduce_exact x Hx) as [-> _], (c_reduce_exact y Hy) as [-> _],
    (c_reduce_exact z Hz) as [-> _].
  rewrite !rint_frac_dist_eq, Rplus_0_l.
  rewrite (fl_id (Rabs (x - IZR (rint x)))) by (apply abs_F, double_F, Dx). reflexivity.
Qed.

Lemma tol_bounds : bpow radix2 (-50) < gamma_tol < bpow radix2 (-49) - bpow radix2 (-60).
Proof. unfold gamma_tol. cbn. lra. Qed.

Lemma fl_small x : Rabs x <= bpow radix2 (-49) -> Rabs (fl x - x) <= bpow radix2 (-102).
Proof. intros H. apply (fl_error x (-49)); [lia|exact H]. Qed.

Lemma tol_d : Rabs (gamma_tol_d - gamma_tol) <= bpow radix2 (-102).
Proof.
  apply fl_small. pose proof tol_bounds as [A B].
  pose proof (bpow_gt_0 radix2 (-50)). pose proof (bpow_gt_0 radix2 (-60)).
  rewrite Rabs_pos_eq; lra.
Qed.

Lemma abs_bounds a b : Rabs a <= b -> - b <= a <= b.
Proof. unfold Rabs. destruct (Rcase_abs a); lra. Qed.

(** the two rounded additions move the sum by less than 2^-100 near the
    tolerance and cannot bring a large sum below it *)
Lemma sum_small a b c : 0 <= a -> 0 <= b -> 0 <= c ->
  a + b + c <= gamma_tol - bpow radix2 (-100) -> fl (fl (a + b) + c) < gamma_tol_d.
Proof.
  intros A B C S1. pose proof tol_bounds as [T1 T2]. pose proof (abs_bounds _ _ tol_d) as T.
  pose proof (bpow_gt_0 radix2 (-60)) as P6.
  assert (P : bpow radix2 (-100) = 4 * bpow radix2 (-102)) by (cbn; lra).
  pose proof (bpow_gt_0 radix2 (-102)) as P2.
  assert (E1 := fl_small (a + b)). rewrite Rabs_pos_eq in E1 by lra.
  specialize (E1 ltac:(lra)). apply abs_bounds in E1.
  assert (E0 : 0 <= fl (a + b)) by (rewrite <- fl_0; apply fl_le; lra).
  assert (E2 := fl_small (fl (a + b) + c)). rewrite Rabs_pos_eq in E2 by lra.
  specialize (E2 ltac:(lra)). apply abs_bounds in E2. lra.
Qed.

Lemma sum_large a b c : 0 <= a -> 0 <= b -> 0 <= c ->
  gamma_tol + bpow radix2 (-100) <= a + b + c -> gamma_tol_d < fl (fl (a + b) + c).
Proof.
  intros A B C S1. pose proof tol_bounds as [T1 T2]. pose proof (abs_bounds _ _ tol_d) as T.
  pose proof (bpow_gt_0 radix2 (-60)) as P6.
  assert (P : bpow radix2 (-100) = 4 * bpow radix2 (-102)) by (cbn; lra).
  assert (P60 : bpow radix2 (-102) * 4398046511104 = bpow radix2 (-60)) by (cbn; lra).
  pose proof (bpow_gt_0 radix2 (-102)) as P2.
  assert (F49 : fl (bpow radix2 (-49)) = bpow radix2 (-49)) by (apply fl_id, pow_F; lia).
  assert (E0 : 0 <= fl (a + b)) by (rewrite <- fl_0; apply fl_le; lra).
  destruct (Rle_lt_dec (a + b) (bpow radix2 (-49))) as [L|L].
  - assert (E1 := fl_small (a + b)). rewrite Rabs_pos_eq in E1 by lra.
    specialize (E1 L). apply abs_bounds in E1.
    destruct (Rle_lt_dec (fl (a + b) + c) (bpow radix2 (-49))) as [L2|L2].
    + assert (E2 := fl_small (fl (a + b) + c)). rewrite Rabs_pos_eq in E2 by lra.
      specialize (E2 L2). apply abs_bounds in E2. lra.
    + pose proof (fl_le _ _ (Rlt_le _ _ L2)) as M. rewrite F49 in M. lra.
  - pose proof (fl_le _ _ (Rlt_le _ _ L)) as M. rewrite F49 in M.
    assert (M2 : bpow radix2 (-49) <= fl (a + b) + c) by lra.
    apply fl_le in M2. rewrite F49 in M2. lra.
Qed.

Lemma is_gamma_d_true x y z i j k : double3 (x, y, z) ->
  Rabs (x - IZR i) + Rabs (y - IZR j) + Rabs (z - IZR k) <= / 10 ^ 15 - / 2 ^ 100 ->
  is_gamma_d (x, y, z) = true.
Proof.
  intros (Hx & Hy & Hz) H. unfold is_gamma_d.
  destruct (reduce_exact x Hx) as [-> _], (reduce_exact y Hy) as [-> _],
    (reduce_exact z Hz) as [-> _].
  apply Rltb_iff. apply sum_small; try apply Rabs_pos.
  pose proof (rint_nearest x i). pose proof (rint_nearest y j). pose proof (rint_nearest z k).
  assert (P : bpow radix2 (-100) = / 2 ^ 100) by (cbn; lra). rewrite P.
  unfold gamma_tol. lra.
Qed.

Lemma is_gamma_d_false x y z : double3 (x, y, z) ->
  (forall i j k, / 10 ^ 15 + / 2 ^ 100 <= Rabs (x - IZR i) + Rabs (y - IZR j) + Rabs (z - IZR k)) ->
  is_gamma_d (x, y, z) = false.
Proof.
  intros (Hx & Hy & Hz) H. unfold is_gamma_d.
  destruct (reduce_exact x Hx) as [-> _], (reduce_exact y Hy) as [-> _],
    (reduce_exact z Hz) as [-> _].
  apply Rltb_nf. apply Rlt_le. apply sum_large; try apply Rabs_pos.
  assert (P : bpow radix2 (-100) = / 2 ^ 100) by (cbn; lra). rewrite P. apply H.
Qed.

Lemma is_gamma_d_exact x y z : double3 (x, y, z) ->
  / 2 ^ 100 <= Rabs (frac_dist x + frac_dist y + frac_dist z - / 10 ^ 15) ->
  is_gamma_d (x, y, z) = is_gamma (x, y, z).
Proof.
  intros D H. unfold is_gamma. fold (frac_dist x) (frac_dist y) (frac_dist z).
  assert (P : 0 < / 2 ^ 100) by (apply Rinv_0_lt_compat, pow_lt; lra).
  destruct (Rle_lt_dec (/ 10 ^ 15) (frac_dist x + frac_dist y + frac_dist z)) as [L|L].
  - rewrite Rabs_pos_eq in H by lra. rewrite is_gamma_d_false; [|exact D|].
    + symmetry. apply Rltb_nf. exact L.
    + intros i j k. pose proof (rint_nearest x i). pose proof (rint_nearest y j).
      pose proof (rint_nearest z k). unfold frac_dist in *. lra.
  - rewrite Rabs_left in H by lra.
    rewrite (is_gamma_d_true x y z (rint x) (rint y) (rint z)); [|exact D|].
    + symmetry. apply Rltb_iff. exact L.
    + unfold frac_dist in H. lra.
Qed.

(** far from the origin only exact integers pass *)
Lemma coarse x i : double x -> 8 <= Rabs x -> x = IZR i \/ bpow radix2 (-49) <= Rabs (x - IZR i).
Proof.
  intros H B. apply double_F in H.
  assert (E : x = IZR (Ztrunc (scaled_mantissa radix2 (FLT_exp (-1074) 53) x))
                  * bpow radix2 (cexp radix2 (FLT_exp (-1074) 53) x)) by exact H.
  set (m := Ztrunc _) in *. set (e := cexp _ _ _) in *.
  assert (M : (4 <= mag radix2 x)%Z).
  { apply mag_ge_bpow. cbn. lra. }
  assert (He : e = Z.max (mag radix2 x - 53) (-1074)) by reflexivity.
  assert (J : exists j : Z, x = IZR j * bpow radix2 (-49)).
  { exists (m * 2 ^ (e + 49))%Z. rewrite mult_IZR.
    replace (IZR (2 ^ (e + 49))) with (bpow radix2 (e + 49))
      by (rewrite <- (IZR_Zpower radix2) by lia; reflexivity).
    rewrite Rmult_assoc, <- bpow_plus. replace (e + 49 + -49)%Z with e by lia. exact E. }
  destruct J as [j J].
  assert (I : IZR i = IZR (i * 562949953421312) * bpow radix2 (-49)).
  { rewrite mult_IZR. cbn. lra. }
  assert (D : x - IZR i = IZR (j - i * 562949953421312) * bpow radix2 (-49)).
  { rewrite minus_IZR, Rmult_minus_distr_r, <- I, <- J. reflexivity. }
  destruct (Z.eq_dec j (i * 562949953421312)) as [Z0|Z0].
  - left. rewrite Z0 in J. congruence.
  - right. rewrite D, Rabs_mult, (Rabs_pos_eq (bpow _ _)) by apply bpow_ge_0.
    rewrite <- abs_IZR.
    assert (1 <= IZR (Z.abs (j - i * 562949953421312))) by (apply IZR_le; lia).
    pose proof (bpow_gt_0 radix2 (-49)). nra.
Qed.

Lemma is_gamma_far x y z : double3 (x, y, z) -> is_gamma_d (x, y, z) = true ->
  (8 <= Rabs x -> exists i, x = IZR i) /\ (8 <= Rabs y -> exists i, y = IZR i) /\
  (8 <= Rabs z -> exists i, z = IZR i).
Proof.
  intros (Hx & Hy & Hz) G. unfold is_gamma_d in G.
  destruct (reduce_exact x Hx) as [Ex _], (reduce_exact y Hy) as [Ey _],
    (reduce_exact z Hz) as [Ez _]. rewrite Ex, Ey, Ez in G.
  apply Rltb_iff in G.
  assert (K : Rabs (x - IZR (rint x)) + Rabs (y - IZR (rint y)) + Rabs (z - IZR (rint z))
              < bpow radix2 (-49)).
  { apply Rnot_le_lt. intros L. revert G. apply Rle_not_lt, Rlt_le.
    apply sum_large; try apply Rabs_pos. pose proof tol_bounds as [_ T].
    assert (bpow radix2 (-100) < bpow radix2 (-60)) by (apply bpow_lt; lia). lra. }
  pose proof (Rabs_pos (x - IZR (rint x))). pose proof (Rabs_pos (y - IZR (rint y))).
  pose proof (Rabs_pos (z - IZR (rint z))).
  split; [|split]; intros B.
  - exists (rint x). destruct (coarse x (rint x) Hx B); [assumption|lra].
  - exists (rint y). destruct (coarse y (rint y) Hy B); [assumption|lra].
  - exists (rint z). destruct (coarse z (rint z) Hz B); [assumption|lra].
Qed.
