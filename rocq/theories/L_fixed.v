(** Lemmas on fixed-width broadening of one axis (C76). *)
From Coq Require Import String.
From Verif Require Import Base L_util M_cell L_cell M_qpts L_qpts L_path M_path M_broad S_broad L_broad L_broad2 L_broad3 M_dos L_dos L_dos2 M_bins S_bins L_bins M_fixed S_fixed.
Open Scope R_scope.

Definition kernel_of (w : list R) (M : nat) (d : Z) : R :=
  if (Z.abs d <=? Z.of_nat M)%Z then nth (Z.to_nat (d + Z.of_nat M)) w 0 else 0.

Lemma at0_sum a z : at0 a z = sumn (length a) (fun j => if (Z.of_nat j =? z)%Z then nth j a 0 else 0).
Proof.
  unfold at0. destruct (Z.ltb_spec z 0) as [L|L].
  - symmetry. unfold sumn. apply Sum_zero_ext. intros j _. destruct (Z.eqb_spec (Z.of_nat j) z); [lia|reflexivity].
  - destruct (Nat.lt_ge_cases (Z.to_nat z) (length a)) as [H|H].
    + rewrite (sumn_single (length a) _ (Z.to_nat z) H).
      * rewrite Z2Nat.id, Z.eqb_refl by lia. reflexivity.
      * intros k _ N. destruct (Z.eqb_spec (Z.of_nat k) z); [lia|reflexivity].
    + rewrite nth_overflow by exact H. symmetry. unfold sumn. apply Sum_zero_ext. intros j I. apply in_seq in I.
      destruct (Z.eqb_spec (Z.of_nat j) z); [lia|reflexivity].
Qed.

Lemma length_correlate a w : length (correlate a w) = length a.
Proof. unfold correlate. rewrite map_length, seq_length. reflexivity. Qed.

Lemma half_odd M : ((2 * M + 1) / 2 = M)%nat.
Proof. replace (2 * M + 1)%nat with (M * 2 + 1)%nat by lia. rewrite Nat.div_add_l by lia. cbn. lia. Qed.

Lemma correlate_spread a w M i : length w = (2 * M + 1)%nat ->
  (forall k, (k <= 2 * M)%nat -> nth k w 0 = nth (2 * M - k) w 0) -> (i < length a)%nat ->
  nth i (correlate a w) 0 = spread (kernel_of w M) a i.
Proof.
  intros Lw Sy Hi. unfold correlate. rewrite (map_nth_indep _ _ _ 0%nat 0) by (rewrite seq_length; exact Hi).
  rewrite nth_seq_id by exact Hi. rewrite Lw, half_odd.
  rewrite (sumn_ext _ _ (fun k => sumn (length a) (fun j => if (Z.of_nat j =? Z.of_nat i + Z.of_nat k - Z.of_nat M)%Z then nth k w 0 * nth j a 0 else 0))).
  2:{ intros k _. rewrite at0_sum. unfold sumn. rewrite <- Sum_scal. apply Sum_ext. intros j _.
      destruct (_ =? _)%Z; lra. }
  unfold sumn. rewrite Sum_exchange. apply (sumn_ext (length a)). intros j Hj. fold (sumn (2 * M + 1) (fun k => if (Z.of_nat j =? Z.of_nat i + Z.of_nat k - Z.of_nat M)%Z then nth k w 0 * nth j a 0 else 0)).
  unfold kernel_of. destruct (Z.leb_spec (Z.abs (Z.of_nat i - Z.of_nat j)) (Z.of_nat M)) as [L|L].
  - set (k0 := Z.to_nat (Z.of_nat j - Z.of_nat i + Z.of_nat M)).
    rewrite (sumn_single _ _ k0); [|lia|].
    + destruct (Z.eqb_spec (Z.of_nat j) (Z.of_nat i + Z.of_nat k0 - Z.of_nat M)); [|lia].
      rewrite (Sy k0) by lia. replace (2 * M - k0)%nat with (Z.to_nat (Z.of_nat i - Z.of_nat j + Z.of_nat M)) by lia. lra.
    + intros k Hk N. destruct (Z.eqb_spec (Z.of_nat j) (Z.of_nat i + Z.of_nat k - Z.of_nat M)); [lia|reflexivity].
  - rewrite Rmult_0_r. unfold sumn. apply Sum_zero_ext. intros k I. apply in_seq in I.
    destruct (Z.eqb_spec (Z.of_nat j) (Z.of_nat i + Z.of_nat k - Z.of_nat M)); [lia|reflexivity].
Qed.

(** ** Normalised symmetric kernels *)
Section Normal.
Variable M : nat.
Variable f : nat -> R.
Hypothesis pos : forall k, 0 < f k.
Hypothesis sym : forall k, (k <= 2 * M)%nat -> f k = f (2 * M - k)%nat.
Let w := normalised (map f (seq 0 (2 * M + 1))).
Let N := sumn (2 * M + 1) f.

Lemma norm_pos : 0 < N.
Proof.
  unfold N. replace (2 * M + 1)%nat with (S (2 * M)) by lia. rewrite sumn_S.
  assert (0 <= sumn (2 * M) f) by (unfold sumn; apply Sum_nonneg; intros; left; apply pos).
  pose proof (pos (2 * M)). lra.
Qed.
Lemma norm_len : length w = (2 * M + 1)%nat.
Proof. unfold w, normalised. rewrite !map_length, seq_length. reflexivity. Qed.
Lemma norm_nth k : (k <= 2 * M)%nat -> nth k w 0 = f k / N.
Proof.
  intros H. unfold w, normalised. rewrite map_map, (map_nth_indep _ _ _ 0%nat 0) by (rewrite seq_length; lia).
  rewrite nth_seq_id by lia. reflexivity.
Qed.
Lemma norm_sym k : (k <= 2 * M)%nat -> nth k w 0 = nth (2 * M - k) w 0.
Proof. intros H. rewrite !norm_nth by lia. rewrite (sym k H). reflexivity. Qed.
Lemma norm_at d : (Z.abs d <= Z.of_nat M)%Z -> kernel_of w M d = f (Z.to_nat (d + Z.of_nat M)) / N.
Proof. intros H. unfold kernel_of. destruct (Z.leb_spec (Z.abs d) (Z.of_nat M)); [|lia]. apply norm_nth. lia. Qed.
Lemma norm_shares : shares (kernel_of w M) M.
Proof.
  pose proof norm_pos as P. split; [|split; [|split]].
  - intros d. unfold kernel_of. destruct (Z.leb_spec (Z.abs d) (Z.of_nat M)); [|lra].
    rewrite norm_nth by lia. left. apply Rdiv_lt_0_compat; [apply pos|exact P].
  - intros d. unfold kernel_of. rewrite Z.abs_opp. destruct (Z.leb_spec (Z.abs d) (Z.of_nat M)); [|reflexivity].
    rewrite norm_sym by lia. f_equal. lia.
  - intros d H. unfold kernel_of. destruct (Z.leb_spec (Z.abs d) (Z.of_nat M)); [lia|reflexivity].
  - rewrite (sumn_ext _ _ (fun k => f k * / N)).
    + unfold sumn. rewrite Sum_scal_r. fold (sumn (2 * M + 1) f). fold N. apply Rinv_r. lra.
    + intros k Hk. rewrite norm_at by lia. unfold Rdiv. f_equal. f_equal. lia.
Qed.
End Normal.

(** ** Evenly spaced axes *)
Lemma regular_diffs a h n c : regular a h n c -> (2 <= n)%nat -> np_diffR c = repeat h (n - 1).
Proof.
  intros [L R] Hn. apply (nth_ext _ _ 0 0).
  - rewrite length_np_diffR, repeat_length. lia.
  - intros i Hi. rewrite length_np_diffR in Hi. rewrite nth_np_diffR by lia.
    rewrite !R by lia. rewrite (nth_indep _ 0 h) by (rewrite repeat_length; lia). rewrite nth_repeat, S_INR. ring.
Qed.
Lemma Rsum_repeat h n : Rsum (repeat h n) = INR n * h.
Proof. induction n; cbn [repeat]; [cbn; lra|]. rewrite Rsum_cons, IHn, S_INR. ring. Qed.
Lemma regular_mean a h n c : regular a h n c -> (2 <= n)%nat -> mean_diff c = h.
Proof.
  intros H Hn. unfold mean_diff. rewrite (regular_diffs a h n c H Hn), Rsum_repeat, repeat_length. field.
  apply not_0_INR. lia.
Qed.
Lemma regular_equal a h n c : regular a h n c -> (2 <= n)%nat -> unequal c = Ok false.
Proof.
  intros H Hn. unfold unequal. rewrite (regular_diffs a h n c H Hn).
  destruct (n - 1)%nat as [|m] eqn:E; [lia|]. cbn [repeat].
  replace (forallb _ _) with true; [reflexivity|]. symmetry. apply forallb_forall. intros x I.
  assert (x = h) as -> by (apply (repeat_spec (S m)); exact I).
  unfold isclose. apply Rleb_iff. rewrite Rminus_diag_eq, Rabs_R0 by reflexivity.
  pose proof (Rabs_pos h). assert (0 < 10 ^ 8) by (apply pow_lt; lra). assert (0 < 10 ^ 5) by (apply pow_lt; lra).
  assert (0 < 1 / 10 ^ 8) by (apply Rdiv_lt_0_compat; lra). assert (0 < 1 / 10 ^ 5) by (apply Rdiv_lt_0_compat; lra).
  assert (0 <= 1 / 10 ^ 5 * Rabs h) by (apply Rmult_le_pos; lra). lra.
Qed.
Lemma regular_range a h n c : regular a h n c -> (2 <= n)%nat -> last c 0 - hd 0 c = (INR n - 1) * h.
Proof.
  intros [L R] Hn. assert (H0 : hd 0 c = nth 0 c 0) by (destruct c; reflexivity).
  assert (Hl : last c 0 = nth (n - 1) c 0).
  { rewrite <- L. clear. destruct c as [|b c] using rev_ind; [reflexivity|]. rewrite last_last, app_length. cbn [length].
    replace (length c + 1 - 1)%nat with (length c) by lia. rewrite app_nth2, Nat.sub_diag by lia. reflexivity. }
  rewrite H0, Hl, !R by lia. rewrite minus_INR by lia. cbn. ring.
Qed.

Lemma method_convolve m : method_ok m = true -> m = None \/ m = Some "convolve"%string.
Proof. destruct m as [m|]; [|left; reflexivity]. cbn. intros H. apply String.eqb_eq in H. right. congruence. Qed.

(** ** The Gaussian *)
Lemma ln2_pos : 0 < ln 2.
Proof. rewrite <- ln_1. apply ln_increasing; lra. Qed.
Lemma gauss_exponent fwhm h x : 0 < fwhm -> 0 < h ->
  - (1 / 2) / (fwhm / (2 * sqrt (2 * ln 2)) / h) ^ 2 * x ^ 2 = - ln 2 * (2 * (x * h) / fwhm) ^ 2.
Proof.
  intros Hf Hh. pose proof ln2_pos as L. assert (S0 : 0 < sqrt (2 * ln 2)) by (apply sqrt_lt_R0; lra).
  assert (SS : sqrt (2 * ln 2) ^ 2 = 2 * ln 2) by (replace (sqrt (2 * ln 2) ^ 2) with (sqrt (2 * ln 2) * sqrt (2 * ln 2)) by ring; apply sqrt_sqrt; lra).
  replace (- (1 / 2) / (fwhm / (2 * sqrt (2 * ln 2)) / h) ^ 2 * x ^ 2) with (- (1 / 2) * 4 * sqrt (2 * ln 2) ^ 2 * h ^ 2 * x ^ 2 / fwhm ^ 2).
  - rewrite SS. field. lra.
  - field. repeat split; lra.
Qed.

Lemma gauss_kernel_mean h c fwhm : 0 < h -> mean_diff c = h -> 0 < fwhm ->
  1 / 10 ^ 15 < fwhm / (2 * sqrt (2 * ln 2)) / h ->
  let s := fwhm / (2 * sqrt (2 * ln 2)) / h in
  exists w, gauss_kern fwhm c = Ok (Weights w) /\ length w = (2 * gauss_radius s + 1)%nat /\
  (forall k, (k <= 2 * gauss_radius s)%nat -> nth k w 0 = nth (2 * gauss_radius s - k) w 0) /\
  shares (kernel_of w (gauss_radius s)) (gauss_radius s) /\
  gaussian_of_fwhm fwhm h (kernel_of w (gauss_radius s)) (gauss_radius s).
Proof.
  intros Hh Em Hf Ht s. unfold gauss_kern, gfwhm_to_sigma. rewrite Em.
  destruct (Reqb_spec h 0) as [E|_]; [lra|]. fold s. destruct (Rltb_spec (1 / 10 ^ 15) s) as [_|N]; [|unfold s in N; lra].
  set (M := gauss_radius s). set (f := fun k => exp (- (1 / 2) / s ^ 2 * (INR k - INR M) ^ 2)).
  assert (Pf : forall k, 0 < f k) by (intros k; apply exp_pos).
  assert (Sf : forall k, (k <= 2 * M)%nat -> f k = f (2 * M - k)%nat).
  { intros k Hk. unfold f. rewrite minus_INR, mult_INR by lia. cbn [INR]. f_equal. ring. }
  exists (gauss_weights s). split; [reflexivity|]. split; [apply (norm_len M f)|]. split; [apply (norm_sym M f Sf)|].
  split; [apply (norm_shares M f Pf Sf)|].
  intros d Hd. change (kernel_of (gauss_weights s) M d = kernel_of (gauss_weights s) M 0 * exp (- ln 2 * (2 * (IZR d * h) / fwhm) ^ 2)).
  unfold gauss_weights. fold M. change (fun k => exp (- (1 / 2) / s ^ 2 * (INR k - INR M) ^ 2)) with f.
  rewrite (norm_at M f d Hd), (norm_at M f 0) by lia. rewrite Z.add_0_l, Nat2Z.id.
  replace (f (Z.to_nat (d + Z.of_nat M))) with (exp (- ln 2 * (2 * (IZR d * h) / fwhm) ^ 2)).
  2:{ unfold f. rewrite <- (gauss_exponent fwhm h (IZR d) Hf Hh). fold s. f_equal. f_equal. f_equal.
      rewrite !INR_IZR_INZ, Z2Nat.id by lia. rewrite plus_IZR. ring. }
  replace (f M) with 1.
  2:{ unfold f. rewrite Rminus_diag_eq by reflexivity. replace (- (1 / 2) / s ^ 2 * 0 ^ 2) with 0 by (unfold Rdiv; ring). rewrite exp_0. reflexivity. }
  unfold Rdiv. ring.
Qed.
Lemma gauss_kernel a h n c fwhm : 0 < h -> regular a h n c -> (2 <= n)%nat -> 0 < fwhm ->
  1 / 10 ^ 15 < fwhm / (2 * sqrt (2 * ln 2)) / h ->
  let s := fwhm / (2 * sqrt (2 * ln 2)) / h in
  exists w, gauss_kern fwhm c = Ok (Weights w) /\ length w = (2 * gauss_radius s + 1)%nat /\
  (forall k, (k <= 2 * gauss_radius s)%nat -> nth k w 0 = nth (2 * gauss_radius s - k) w 0) /\
  shares (kernel_of w (gauss_radius s)) (gauss_radius s) /\
  gaussian_of_fwhm fwhm h (kernel_of w (gauss_radius s)) (gauss_radius s).
Proof. intros Hh Rg Hn Hf Ht. exact (gauss_kernel_mean h c fwhm Hh (regular_mean a h n c Rg Hn) Hf Ht). Qed.

(** ** The Lorentzian *)
Lemma lorentz_ratio g x : 0 < g -> lorentzian g x = lorentzian g 0 / (1 + (2 * x / g) ^ 2).
Proof.
  intros Hg. unfold lorentzian. pose proof PI_RGT_0. assert (0 <= x * x) by apply Rle_0_sqr. assert (0 < g * g) by (apply Rmult_lt_0_compat; lra).
  field. repeat split; apply Rgt_not_eq; cbn; nra.
Qed.
Lemma lorentz_kernel a h n c w : 0 < h -> regular a h n c -> (2 <= n)%nat -> 0 < w ->
  exists wt, lorentz_kern w c = Weights wt /\ length wt = (2 * n + 1)%nat /\
  (forall k, (k <= 2 * n)%nat -> nth k wt 0 = nth (2 * n - k) wt 0) /\
  shares (kernel_of wt n) n /\
  lorentzian_of_fwhm (w * (INR n / (INR n - 1))) h (kernel_of wt n) n.
Proof.
  intros Hh Rg Hn Hw. unfold lorentz_kern. destruct (Reqb_spec w 0) as [E|_]; [lra|].
  assert (Nn : 2 <= INR n) by (change 2 with (INR 2); apply le_INR; exact Hn).
  set (f := fun k => lorentzian w ((INR k - INR n) * ((INR n - 1) * h / INR n))).
  assert (E : map (lorentzian w) (dist_bins c) = map f (seq 0 (2 * n + 1))).
  { unfold dist_bins. rewrite (regular_range a h n c Rg Hn). destruct Rg as [L _]. rewrite L, map_map. apply map_ext.
    intros k. unfold f. f_equal. rewrite mult_INR. change (INR 2) with 2. field. lra. }
  rewrite E. clear E.
  assert (Pf : forall k, 0 < f k) by (intros k; apply lorentzian_pos; exact Hw).
  assert (Sf : forall k, (k <= 2 * n)%nat -> f k = f (2 * n - k)%nat).
  { intros k Hk. unfold f. rewrite minus_INR, mult_INR by lia. change (INR 2) with 2. unfold lorentzian. f_equal. f_equal. ring. }
  eexists. split; [reflexivity|]. split; [apply (norm_len n f)|]. split; [apply (norm_sym n f Sf)|].
  split; [apply (norm_shares n f Pf Sf)|].
  intros d Hd. rewrite (norm_at n f d Hd), (norm_at n f 0) by lia. rewrite Z.add_0_l, Nat2Z.id.
  pose proof (norm_pos n f Pf) as PN. set (N := sumn (2 * n + 1) f) in *.
  replace (f (Z.to_nat (d + Z.of_nat n))) with (lorentzian w 0 / (1 + (2 * (IZR d * h) / (w * (INR n / (INR n - 1)))) ^ 2)).
  2:{ unfold f. rewrite (lorentz_ratio w ((_ - _) * _) Hw).
      assert (X : INR (Z.to_nat (d + Z.of_nat n)) = IZR d + INR n) by (rewrite !INR_IZR_INZ, Z2Nat.id by lia; apply plus_IZR).
      rewrite X. replace (2 * ((IZR d + INR n - INR n) * ((INR n - 1) * h / INR n)) / w) with (2 * (IZR d * h) / (w * (INR n / (INR n - 1)))); [reflexivity|].
      field. repeat split; lra. }
  replace (f n) with (lorentzian w 0) by (unfold f; rewrite Rminus_diag_eq, Rmult_0_l by reflexivity; reflexivity).
  assert (0 < 1 + (2 * (IZR d * h) / (w * (INR n / (INR n - 1)))) ^ 2).
  { match goal with |- 0 < 1 + ?x ^ 2 => pose proof (Rle_0_sqr x) as Q; unfold Rsqr in Q; replace (x ^ 2) with (x * x) by ring end. lra. }
  set (q := 1 + (2 * (IZR d * h) / (w * (INR n / (INR n - 1)))) ^ 2) in *. clearbody q. clearbody N. field. split; lra.
Qed.
