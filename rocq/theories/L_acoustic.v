(** The acoustic modes at gamma (C90): from a matrix that gives no net force to the modes. *)
From Verif Require Import Base Cpx Vec3 M_grid M_dynmat M_dipole M_calc S_dynmat S_asr S_calc S_acoustic L_spectral.
Open Scope R_scope.

Lemma real_cs (n : nat) (s x : nat -> R) : (sumn n (fun k => s k * x k)) ^ 2 <= sumn n (fun k => s k ^ 2) * sumn n (fun k => x k ^ 2).
Proof.
  set (A := sumn n (fun k => s k * x k)). set (M := sumn n (fun k => s k ^ 2)). set (X := sumn n (fun k => x k ^ 2)).
  assert (P : 0 <= M) by (apply Sum_nonneg; intros; apply pow2_ge_0).
  assert (Q : 0 <= M * (M * X - A ^ 2)).
  { replace (M * (M * X - A ^ 2)) with (sumn n (fun k => (M * x k - s k * A) ^ 2)); [apply Sum_nonneg; intros; apply pow2_ge_0|].
    unfold sumn. rewrite (Sum_ext _ _ (fun k => M ^ 2 * x k ^ 2 + (- (2 * M * A) * (s k * x k) + A ^ 2 * s k ^ 2))) by (intros; ring).
    rewrite !Sum_plus, !Sum_scal. change (Sum (seq 0 n) (fun k => x k ^ 2)) with X. change (Sum (seq 0 n) (fun k => s k * x k)) with A. change (Sum (seq 0 n) (fun k => s k ^ 2)) with M. ring. }
  destruct (Rle_lt_or_eq_dec 0 M P) as [M0|M0].
  - apply Rmult_le_reg_l with M; [exact M0|lra].
  - assert (S0 : forall k, (k < n)%nat -> s k = 0).
    { intros k K. assert (G : s k ^ 2 <= M). { rewrite <- (sumn_delta n k (fun j => s j ^ 2) K). apply Sum_le. intros j _. destruct (Nat.eqb j k); [lra|apply pow2_ge_0]. }
      rewrite <- M0 in G. assert (s k ^ 2 = 0) by (pose proof (pow2_ge_0 (s k)); lra). replace (s k ^ 2) with (s k * s k) in * by ring. destruct (Rmult_integral _ _ H); assumption. }
    assert (A0 : A = 0). { unfold A. rewrite (sumn_ext n _ (fun _ => 0)); [apply Sum_zero|]. intros k K. rewrite S0 by exact K. ring. }
    rewrite A0, <- M0. lra.
Qed.
Lemma NoDup_prefix {A} (l1 l2 : list A) : NoDup (l1 ++ l2) -> NoDup l1.
Proof.
  induction l1 as [|a l1 IH]; intros H; [constructor|]. cbn [app] in H. apply NoDup_cons_iff in H. destruct H as [H1 H2]. constructor; [intros I; apply H1, in_or_app; left; exact I|exact (IH H2)].
Qed.
Lemma three (g : nat -> R) : sumn 3 g = g 0%nat + g 1%nat + g 2%nat.
Proof. unfold sumn. cbn [seq]. rewrite !Sum_cons, Sum_nil. ring. Qed.
Lemma flat_Sum n (f : nat -> R) : sumn (3 * n) f = sumn 3 (fun x => sumn n (fun k => f (3 * k + x)%nat)).
Proof.
  induction n as [|n IH].
  - change (3 * 0)%nat with 0%nat. unfold sumn. cbn [seq]. rewrite ?Sum_cons, ?Sum_nil. ring.
  - replace (3 * S n)%nat with (S (S (S (3 * n)))) by lia. rewrite three, !sumn_S, IH, three.
    replace (3 * n + 0)%nat with (3 * n)%nat by lia. replace (3 * n + 1)%nat with (S (3 * n)) by lia. replace (3 * n + 2)%nat with (S (S (3 * n))) by lia. ring.
Qed.

Section Modes.
Variable n : nat.
Variable mass : nat -> R.
Variable D : nat -> nat -> C.
Variable md : modes.
Hypothesis Hm : forall i, (i < n)%nat -> 0 < mass i.
Hypothesis HM : modes_of (3 * n) mass D md.
Hypothesis HN : no_net_force n D.
Notation n3 := (3 * n)%nat.
Notation v := (fun i m => m_evec md m i).
Notation lam := (fun m => m_freq md m * Rabs (m_freq md m)).
Definition com (m x : nat) : C := Csum (seq 0 n) (fun k => Cscal (sqrt (mass k)) (m_evec md m (3 * k + x)%nat)).
Definition total_mass : R := sumn n mass.

Lemma div_at k x : (x < 3)%nat -> ((3 * k + x) / 3 = k)%nat.
Proof. intros X. rewrite Nat.mul_comm, Nat.div_add_l by lia. rewrite (Nat.div_small x 3 X). lia. Qed.

Lemma com_conj m x : Cconj (com m x) = Csum (seq 0 n) (fun k => Cscal (sqrt (mass k)) (Cconj (m_evec md m (3 * k + x)%nat))).
Proof. unfold com. rewrite <- Csum_conj. apply Csum_ext. intros k _. apply Cconj_scal. Qed.

Lemma rows_out i x : (i < n3)%nat -> (x < 3)%nat -> Csum (seq 0 n3) (fun m => Cscal (lam m) (Cmul (v i m) (Cconj (com m x)))) = Czero.
Proof.
  intros I X. pose proof (modes_system n3 mass D md HM) as MS.
  assert (I3 : (i / 3 < n)%nat) by (apply Nat.div_lt_upper_bound; lia).
  pose proof (Hm _ I3) as Mi.
  transitivity (Csum (seq 0 n) (fun k => Cscal (sqrt (mass k)) (Csum (seq 0 n3) (fun m => Cscal (lam m) (Cmul (v i m) (Cconj (v (3 * k + x)%nat m))))))).
  - transitivity (Csum (seq 0 n3) (fun m => Csum (seq 0 n) (fun k => Cscal (sqrt (mass k)) (Cscal (lam m) (Cmul (v i m) (Cconj (v (3 * k + x)%nat m))))))).
    + apply Csum_ext. intros m _. rewrite com_conj, <- Csum_mul, <- Csum_scal. apply Csum_ext. intros k _. rewrite !Cscal_mul. ring.
    + rewrite Csum_exchange. apply Csum_ext. intros k _. apply Csum_scal.
  - transitivity (Csum (seq 0 n) (fun k => Cscal (/ sqrt (mass (i / 3)%nat)) (D i (3 * k + x)%nat))).
    + apply Csum_ext. intros k K. apply in_seq in K. assert (K' : (k < n)%nat) by lia. assert (J : (3 * k + x < n3)%nat) by lia.
      rewrite <- (decomposed n3 _ _ _ MS i (3 * k + x)%nat I J). rewrite (div_at k x X). pose proof (Hm k K') as Mk.
      pose proof (sqrt_lt_R0 _ Mk) as Sk. pose proof (sqrt_lt_R0 _ Mi) as Si. rewrite sqrt_mult by lra. apply C_eq; cbn [re im Cscal]; field; lra.
    + rewrite Csum_scal, HN by assumption. apply C_eq; cbn; ring.
Qed.
Lemma com_zero m x : (m < n3)%nat -> (x < 3)%nat -> Cscal (lam m) (Cconj (com m x)) = Czero.
Proof.
  intros M X. destruct HM as [_ O].
  transitivity (Csum (seq 0 n3) (fun i => Cmul (Cconj (v i m)) (Csum (seq 0 n3) (fun m' => Cscal (lam m') (Cmul (v i m') (Cconj (com m' x))))))).
  - symmetry. transitivity (Csum (seq 0 n3) (fun i => Csum (seq 0 n3) (fun m' => Cmul (Cmul (Cconj (v i m)) (v i m')) (Cscal (lam m') (Cconj (com m' x)))))).
    + apply Csum_ext. intros i _. rewrite <- Csum_mul. apply Csum_ext. intros m' _. rewrite !Cscal_mul. ring.
    + rewrite Csum_exchange. rewrite <- (Csum_delta n3 (fun m' => Cscal (lam m') (Cconj (com m' x))) m M). apply Csum_ext. intros m' M'. apply in_seq in M'.
      rewrite Csum_mul_r, (O m m') by lia. destruct (Nat.eqb m m'); ring.
  - apply Csum_zero. intros i I. apply in_seq in I. rewrite rows_out by lia. ring.
Qed.
Lemma moving_zero m x : (m < n3)%nat -> (x < 3)%nat -> m_freq md m <> 0 -> com m x = Czero.
Proof.
  intros M X F. pose proof (com_zero m x M X) as E. assert (L : lam m <> 0) by (cbv beta; apply Rmult_integral_contrapositive; split; [exact F|apply Rabs_no_R0; exact F]).
  set (l := lam m) in *. cbv beta in *. apply C_eq.
  - apply (f_equal re) in E. cbn [re Cscal Cconj Czero] in *. destruct (Rmult_integral _ _ E); [contradiction|assumption].
  - apply (f_equal im) in E. cbn [im Cscal Cconj Czero] in *. destruct (Rmult_integral _ _ E); [contradiction|lra].
Qed.
Lemma com_parseval x : (x < 3)%nat -> sumn n3 (fun m => Cnorm2 (com m x)) = total_mass.
Proof.
  intros X. destruct HM as [_ O].
  assert (E : Csum (seq 0 n3) (fun m => Cmul (com m x) (Cconj (com m x))) = RtoC total_mass).
  { transitivity (Csum (seq 0 n) (fun k => Csum (seq 0 n) (fun k' => Cscal (sqrt (mass k) * sqrt (mass k')) (proj n3 v (3 * k + x) (3 * k' + x))))).
    - transitivity (Csum (seq 0 n3) (fun m => Csum (seq 0 n) (fun k => Csum (seq 0 n) (fun k' => Cscal (sqrt (mass k) * sqrt (mass k')) (Cmul (v (3 * k + x)%nat m) (Cconj (v (3 * k' + x)%nat m))))))).
      + apply Csum_ext. intros m _. unfold com at 1. rewrite com_conj, <- Csum_mul_r. apply Csum_ext. intros k _. rewrite <- Csum_mul. apply Csum_ext. intros k' _. apply C_eq; cbn [re im Cscal Cmul Cconj]; ring.
      + rewrite Csum_exchange. apply Csum_ext. intros k _. rewrite Csum_exchange. apply Csum_ext. intros k' _. unfold proj. apply Csum_scal.
    - transitivity (Csum (seq 0 n) (fun k => RtoC (mass k))).
      + apply Csum_ext. intros k K. apply in_seq in K. rewrite <- (Csum_delta n (fun k' => RtoC (mass k')) k) by lia. apply Csum_ext. intros k' K'. apply in_seq in K'.
        rewrite (complete n3 v O) by lia. replace (Nat.eqb (3 * k + x) (3 * k' + x)) with (Nat.eqb k k') by (destruct (Nat.eqb_spec k k'), (Nat.eqb_spec (3 * k + x) (3 * k' + x)); (reflexivity || lia)).
        destruct (Nat.eqb_spec k k') as [<-|Nk].
        * rewrite sqrt_sqrt by (apply Rlt_le, Hm; lia). apply C_eq; cbn; ring.
        * apply C_eq; cbn; ring.
      + apply C_eq; [rewrite re_Csum; reflexivity|rewrite im_Csum; cbn [RtoC im]; apply Sum_zero]. }
  apply (f_equal re) in E. rewrite re_Csum in E. cbn [RtoC re] in E. rewrite <- E. unfold sumn. apply Sum_ext. intros m _. rewrite Cmul_conj. reflexivity.
Qed.
Lemma com_bessel m : (m < n3)%nat -> sumn 3 (fun x => Cnorm2 (com m x)) <= total_mass.
Proof.
  intros M. destruct HM as [_ O].
  assert (N1 : sumn n3 (fun i => Cnorm2 (m_evec md m i)) = 1).
  { pose proof (O m m M M) as E. rewrite Nat.eqb_refl in E. apply (f_equal re) in E. rewrite re_Csum in E. cbn [re Cone] in E. rewrite <- E. unfold sumn. apply Sum_ext. intros i _. cbn. unfold Cnorm2. ring. }
  rewrite flat_Sum in N1. apply Rle_trans with (sumn 3 (fun x => total_mass * sumn n (fun k => Cnorm2 (m_evec md m (3 * k + x)%nat)))).
  - apply Sum_le. intros x _. set (e := fun k => m_evec md m (3 * k + x)%nat).
    pose proof (real_cs n (fun k => sqrt (mass k)) (fun k => re (e k))) as R1. pose proof (real_cs n (fun k => sqrt (mass k)) (fun k => im (e k))) as R2.
    assert (T : sumn n (fun k => sqrt (mass k) ^ 2) = total_mass). { unfold total_mass. apply sumn_ext. intros k K. rewrite <- Rsqr_pow2. apply Rsqr_sqrt, Rlt_le, Hm, K. }
    cbv beta in R1, R2. rewrite T in R1, R2. replace (Cnorm2 (com m x)) with ((sumn n (fun k => sqrt (mass k) * re (e k))) ^ 2 + (sumn n (fun k => sqrt (mass k) * im (e k))) ^ 2).
    + replace (sumn n (fun k => Cnorm2 (m_evec md m (3 * k + x)%nat))) with (sumn n (fun k => re (e k) ^ 2) + sumn n (fun k => im (e k) ^ 2)); [lra|].
      unfold sumn. rewrite <- Sum_plus. apply Sum_ext. intros k _. unfold Cnorm2, e. ring.
    + unfold Cnorm2, com. rewrite re_Csum, im_Csum. cbn [re im Cscal]. unfold sumn, e. ring.
  - unfold sumn at 1. rewrite Sum_scal. fold (sumn 3 (fun x => sumn n (fun k => Cnorm2 (m_evec md m (3 * k + x)%nat)))). rewrite N1. lra.
Qed.

Lemma Sum_part (p : nat -> bool) l (f : nat -> R) : (forall m, In m l -> p m = false -> f m = 0) -> Sum l f = Sum (filter p l) f.
Proof.
  induction l as [|m l IH]; intros H; [reflexivity|]. rewrite Sum_cons. cbn [filter]. rewrite IH by (intros; apply H; [right; assumption|assumption]).
  destruct (p m) eqn:E; [rewrite Sum_cons; reflexivity|]. rewrite (H m (or_introl eq_refl) E). ring.
Qed.
Lemma acoustic : (0 < n)%nat -> acoustic_modes n mass md.
Proof.
  intros Hn. split.
  - set (Z := filter (fun m => Reqb (m_freq md m) 0) (seq 0 n3)).
    assert (TP : 0 < total_mass).
    { unfold total_mass. destruct n as [|n']; [lia|]. rewrite sumn_S. assert (0 <= sumn n' mass) by (apply Sum_nonneg; intros k K; apply in_seq in K; apply Rlt_le, Hm; lia). pose proof (Hm n' ltac:(lia)). lra. }
    assert (LZ : (3 <= length Z)%nat).
    { apply INR_le. apply Rmult_le_reg_r with total_mass; [exact TP|].
      apply Rle_trans with (Sum Z (fun m => sumn 3 (fun x => Cnorm2 (com m x)))).
      - right. transitivity (sumn n3 (fun m => sumn 3 (fun x => Cnorm2 (com m x)))).
        + unfold sumn. rewrite (Sum_exchange (seq 0 n3) (seq 0 3) (fun m x => Cnorm2 (com m x))).
          rewrite (Sum_ext _ _ (fun _ => total_mass)) by (intros x X; apply in_seq in X; apply com_parseval; lia). rewrite Sum_const, seq_length. reflexivity.
        + unfold sumn at 1. apply Sum_part. intros m M E. apply in_seq in M. rewrite (sumn_ext 3 _ (fun _ => 0)); [apply Sum_zero|]. intros x X.
          rewrite moving_zero; [unfold Cnorm2; cbn; ring|lia|exact X|]. intros F. rewrite F in E. destruct (Reqb_spec 0 0); [discriminate|congruence].
      - apply Rle_trans with (Sum Z (fun _ => total_mass)); [|rewrite Sum_const; lra]. apply Sum_le. intros m M. apply filter_In in M. destruct M as [M _]. apply in_seq in M. apply com_bessel. lia. }
    exists (firstn 3 Z). split; [|split].
    + assert (NZ : NoDup Z) by (apply NoDup_filter, seq_NoDup). rewrite <- (firstn_skipn 3 Z) in NZ. exact (NoDup_prefix _ _ NZ).
    + apply firstn_length_le. exact LZ.
    + intros m M. assert (I : In m Z) by (rewrite <- (firstn_skipn 3 Z); apply in_or_app; left; exact M). apply filter_In in I. destruct I as [I E]. apply in_seq in I. split; [lia|]. destruct (Reqb_spec (m_freq md m) 0); [assumption|discriminate].
  - intros m M F x X. exact (moving_zero m x M X F).
Qed.
End Modes.
