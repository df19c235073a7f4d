(** Lemmas about double precision arithmetic. *)
From Flocq Require Import Core.
From Verif Require Import Base Vec3 M_grid L_grid M_qpts L_qpts M_cell M_double S_double.
From Coq Require Import Lra Lia.

Notation F := (generic_format radix2 (FLT_exp (-1074) 53)).

Lemma prec53 : Prec_gt_0 53.
Proof. reflexivity. Qed.
#[local] Existing Instance prec53.

Lemma valid_exp : Valid_exp (FLT_exp (-1074) 53).
Proof. apply FLT_exp_valid. exact prec53. Qed.
#[local] Existing Instance valid_exp.

Lemma double_F x : double x -> F x.
Proof.
  intros (m & e & Hm & He & ->). apply generic_format_FLT.
  exists (Float radix2 m e); cbn [Fnum Fexp]; [|exact Hm|lia].
  unfold F2R. cbn [Fnum Fexp]. rewrite bpow_powerRZ. reflexivity.
Qed.

Lemma F_parts x : F x ->
  exists m e : Z, (Z.abs m < 2 ^ 53)%Z /\ (-1074 <= e)%Z /\ x = IZR m * bpow radix2 e.
Proof.
  intros H. apply FLT_format_generic in H; [|exact prec53].
  destruct H as [[m e] H1 H2 H3]. cbn [Fnum Fexp] in *.
  exists m, e. split; [exact H2|]. split; [exact H3|]. exact H1.
Qed.

Lemma F_double x : F x -> Rabs x < bpow radix2 1024 -> double x.
Proof.
  intros H B. destruct (Req_dec x 0) as [->|N].
  { exists 0%Z, 0%Z. split; [reflexivity|]. split; [lia|]. ring. }
  exists (Ztrunc (scaled_mantissa radix2 (FLT_exp (-1074) 53) x)),
         (cexp radix2 (FLT_exp (-1074) 53) x).
  assert (E : x = IZR (Ztrunc (scaled_mantissa radix2 (FLT_exp (-1074) 53) x))
                  * bpow radix2 (cexp radix2 (FLT_exp (-1074) 53) x)).
  { exact H. }
  set (m := Ztrunc _) in *. set (e := cexp _ _ _) in *.
  assert (Hmag : (mag radix2 x <= 1024)%Z) by (apply mag_le_bpow; assumption).
  assert (He : e = Z.max (mag radix2 x - 53) (-1074)) by reflexivity.
  split; [|split; [lia|]].
  - apply lt_IZR. rewrite abs_IZR.
    apply Rmult_lt_reg_r with (bpow radix2 e); [apply bpow_gt_0|].
    replace (Rabs (IZR m) * bpow radix2 e) with (Rabs x).
    2:{ rewrite E, Rabs_mult, (Rabs_pos_eq (bpow _ _)) by apply bpow_ge_0. reflexivity. }
    apply Rlt_le_trans with (bpow radix2 (mag radix2 x)); [apply bpow_mag_gt|].
    replace (IZR (2 ^ 53)) with (bpow radix2 53) by reflexivity.
    rewrite <- bpow_plus. apply bpow_le. lia.
  - rewrite <- (bpow_powerRZ radix2). exact E.
Qed.

Lemma fl_F x : F (fl x).
Proof. apply generic_format_round; typeclasses eauto. Qed.

Lemma fl_id x : F x -> fl x = x.
Proof. intros H. apply round_generic; [typeclasses eauto|exact H]. Qed.

Lemma fl_opp x : fl (- x) = - fl x.
Proof. apply round_NE_opp. Qed.

Lemma fl_le x y : x <= y -> fl x <= fl y.
Proof. intros H. apply round_le; [typeclasses eauto|typeclasses eauto|exact H]. Qed.

Lemma fl_0 : fl 0 = 0.
Proof. apply round_0. typeclasses eauto. Qed.

Lemma fl_abs_le x y : F y -> Rabs x <= y -> Rabs (fl x) <= y.
Proof. intros Hy H. apply abs_round_le_generic; try typeclasses eauto; assumption. Qed.

Lemma pow_F e : (-1074 <= e)%Z -> F (bpow radix2 e).
Proof. intros H. apply generic_format_FLT_bpow; [exact prec53|exact H]. Qed.

Lemma int_F k : (Z.abs k < 2 ^ 53)%Z -> F (IZR k).
Proof.
  intros H. apply generic_format_FLT. exists (Float radix2 k 0); cbn [Fnum Fexp];
    [unfold F2R; cbn [Fnum Fexp bpow]; ring|exact H|lia].
Qed.

Lemma fl_nearest x : Rabs x <= bpow radix2 1000 -> nearest_double x (fl x).
Proof.
  intros B. assert (E : fl x = round radix2 (FLT_exp (-1074) 53) ZnearestE x) by reflexivity.
  split.
  - apply F_double; [apply fl_F|].
    apply Rle_lt_trans with (bpow radix2 1000); [|apply bpow_lt; lia].
    apply fl_abs_le; [apply pow_F; lia|exact B].
  - intros z Hz. apply double_F in Hz.
    destruct (round_N_pt radix2 (FLT_exp (-1074) 53) (fun t => negb (Z.even t)) x) as [_ N].
    exact (N z Hz).
Qed.

Lemma fl_error x e : (-1022 <= e)%Z -> Rabs x <= bpow radix2 e ->
  Rabs (fl x - x) <= bpow radix2 (e - 53).
Proof.
  intros He B. unfold fl.
  apply Rle_trans with (/ 2 * ulp radix2 (FLT_exp (-1074) 53) x).
  - apply error_le_half_ulp. typeclasses eauto.
  - assert (U : ulp radix2 (FLT_exp (-1074) 53) x <= bpow radix2 (e - 52)).
    { apply Rle_trans with (ulp radix2 (FLT_exp (-1074) 53) (bpow radix2 e)).
      - apply ulp_le; [typeclasses eauto|typeclasses eauto|].
        rewrite (Rabs_pos_eq (bpow _ _)) by apply bpow_ge_0. exact B.
      - rewrite ulp_bpow. apply bpow_le. unfold FLT_exp. lia. }
    replace (e - 52)%Z with (1 + (e - 53))%Z in U by lia.
    rewrite bpow_plus in U. change (bpow radix2 1) with 2 in U. lra.
Qed.

(** reduction to the first zone is exact *)
Lemma shift_exact x k : F x -> Rabs (x - IZR k) <= 1 / 2 ->
  F (IZR k) /\ F (x - IZR k).
Proof.
  intros H B. destruct (F_parts x H) as (m & e & Hm & He & E).
  destruct (Z_le_gt_dec 0 e) as [P|P].
  - (* x is an integer *)
    assert (X : exists j, x = IZR j).
    { exists (m * 2 ^ e)%Z. rewrite mult_IZR, E. f_equal.
      rewrite <- (IZR_Zpower radix2) by exact P. reflexivity. }
    destruct X as [j X].
    assert (j = k).
    { rewrite X, <- minus_IZR in B. rewrite <- abs_IZR in B.
      assert (IZR (Z.abs (j - k)) < 1) by lra. apply lt_IZR in H0. lia. }
    subst j. rewrite X. split; [rewrite <- X; exact H|].
    replace (IZR k - IZR k) with 0 by ring. apply generic_format_0.
  - assert (Q : F (IZR k)).
    { destruct (Z_lt_le_dec (Z.abs k) (2 ^ 53)) as [L|L]; [apply int_F; exact L|exfalso].
      assert (A : Rabs x < bpow radix2 52).
      { rewrite E, Rabs_mult, (Rabs_pos_eq (bpow _ _)) by apply bpow_ge_0.
        rewrite <- abs_IZR. apply Rlt_le_trans with (IZR (2 ^ 53) * bpow radix2 e).
        - apply Rmult_lt_compat_r; [apply bpow_gt_0|apply IZR_lt; exact Hm].
        - replace (IZR (2 ^ 53)) with (bpow radix2 53) by reflexivity.
          rewrite <- bpow_plus. apply bpow_le. lia. }
      change (bpow radix2 52) with 4503599627370496 in A.
      assert (K : IZR (2 ^ 53) <= Rabs (IZR k)) by (rewrite <- abs_IZR; apply IZR_le; exact L).
      change (IZR (2 ^ 53)) with 9007199254740992 in K.
      revert A B K. unfold Rabs.
      repeat (destruct (Rcase_abs _)); intros; lra. }
    split; [exact Q|].
    destruct (Z.eq_dec k 0) as [->|K].
    { rewrite Rminus_0_r. exact H. }
    apply generic_format_FLT.
    assert (S2 : bpow radix2 e * IZR (2 ^ (- e)) = 1).
    { replace (IZR (2 ^ (- e))) with (bpow radix2 (- e)).
      - rewrite <- bpow_plus. replace (e + - e)%Z with 0%Z by lia. reflexivity.
      - rewrite <- (IZR_Zpower radix2) by lia. reflexivity. }
    assert (R1 : x - IZR k = IZR (m - k * 2 ^ (- e)) * bpow radix2 e).
    { rewrite minus_IZR, mult_IZR, E.
      replace (IZR k) with (IZR k * (bpow radix2 e * IZR (2 ^ (- e)))) at 1
        by (rewrite S2; ring). ring. }
    exists (Float radix2 (m - k * 2 ^ (- e)) e); cbn [Fnum Fexp]; [exact R1| |exact He].
    apply Z.le_lt_trans with (Z.abs m); [|exact Hm].
    apply le_IZR. rewrite !abs_IZR.
    apply Rmult_le_reg_r with (bpow radix2 e); [apply bpow_gt_0|].
    assert (X1 : Rabs x = Rabs (IZR m) * bpow radix2 e).
    { rewrite E, Rabs_mult, (Rabs_pos_eq (bpow _ _)) by apply bpow_ge_0. reflexivity. }
    assert (X2 : Rabs (x - IZR k) = Rabs (IZR (m - k * 2 ^ (- e))) * bpow radix2 e).
    { rewrite R1, Rabs_mult, (Rabs_pos_eq (bpow _ _)) by apply bpow_ge_0. reflexivity. }
    rewrite <- X1, <- X2.
    assert (K1 : 1 <= Rabs (IZR k)) by (rewrite <- abs_IZR; apply IZR_le; lia).
    revert B K1. unfold Rabs. repeat (destruct (Rcase_abs _)); intros; lra.
Qed.

Lemma c_round_dist x : Rabs (x - IZR (c_round x)) <= 1 / 2.
Proof. rewrite rint_frac_dist_eq. apply rint_dist. Qed.

Lemma reduce_exact x : double x -> reduce_d x = x - IZR (rint x) /\ double (x - IZR (rint x)).
Proof.
  intros H. apply double_F in H. destruct (shift_exact x _ H (rint_dist x)) as [H1 H2].
  unfold reduce_d. rewrite (fl_id _ H1). split; [apply fl_id, H2|].
  apply F_double; [exact H2|]. apply Rle_lt_trans with (1 := rint_dist x).
  apply Rlt_trans with (bpow radix2 0); [cbn; lra|apply bpow_lt; lia].
Qed.

Lemma c_reduce_exact x :
  double x -> c_reduce_d x = x - IZR (c_round x) /\ double (x - IZR (c_round x)).
Proof.
  intros H. apply double_F in H. destruct (shift_exact x _ H (c_round_dist x)) as [H1 H2].
  unfold c_reduce_d. rewrite (fl_id _ H1). split; [apply fl_id, H2|].
  apply F_double; [exact H2|]. apply Rle_lt_trans with (1 := c_round_dist x).
  apply Rlt_trans with (bpow radix2 0); [cbn; lra|apply bpow_lt; lia].
Qed.
