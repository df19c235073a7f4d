(** Lemmas on the acoustic sum rule corrections (C15). *)
From Verif Require Import Base Cpx Vec3 M_grid M_cell M_qpts M_dynmat S_dynmat M_struct S_struct L_scidx L_conv L_util M_asr S_asr.
Open Scope R_scope.

(** ** Sums *)
Lemma sumn_plus n f g : sumn n (fun i => f i + g i) = sumn n f + sumn n g.
Proof. apply Sum_plus. Qed.
Lemma sumn_minus n f g : sumn n (fun i => f i - g i) = sumn n f - sumn n g.
Proof. apply Sum_minus. Qed.
Lemma sumn_scal n c f : sumn n (fun i => c * f i) = c * sumn n f.
Proof. apply Sum_scal. Qed.
Lemma sumn_exchange n m f : sumn n (fun i => sumn m (fun j => f i j)) = sumn m (fun j => sumn n (fun i => f i j)).
Proof. apply Sum_exchange. Qed.
Lemma sumn_zero n f : (forall i, (i < n)%nat -> f i = 0) -> sumn n f = 0.
Proof. intros H. rewrite (sumn_ext n f (fun _ => 0) H). apply Sum_zero. Qed.
Lemma sumn_add n m f : sumn (n + m) f = sumn n f + sumn m (fun i => f (n + i)%nat).
Proof. induction m as [|m IH]; [rewrite Nat.add_0_r; unfold sumn; cbn; lra|]. rewrite Nat.add_succ_r, !sumn_S, IH. lra. Qed.
Lemma sumn_blocks N k f : sumn (k * N) f = sumn N (fun c => sumn k (fun a => f (c * k + a)%nat)).
Proof.
  induction N as [|N IH]; [rewrite Nat.mul_0_r; reflexivity|]. rewrite Nat.mul_succ_r, sumn_add, sumn_S, IH. f_equal. apply sumn_ext. intros i _. f_equal. lia.
Qed.
Lemma sumn_reindex n p f : (forall i, (i < n)%nat -> (p i < n)%nat) -> (forall i j, (i < n)%nat -> (j < n)%nat -> p i = p j -> i = j) -> sumn n (fun i => f (p i)) = sumn n f.
Proof.
  intros B I. unfold sumn. rewrite <- (Sum_map p (seq 0 n) f). apply Sum_perm. apply NoDup_Permutation_bis.
  - apply NoDup_map_inj; [|apply seq_NoDup]. intros x y X Y E. apply in_seq in X, Y. apply I; [lia|lia|exact E].
  - rewrite map_length. lia.
  - intros x X. apply in_map_iff in X. destruct X as (y & <- & Y). apply in_seq in Y. apply in_seq. specialize (B y). lia.
Qed.

(** ** Subtracting modes *)
Lemma subtract_sum coef v ac m I J : subtract_modes coef v ac m I J = m I J - Sum ac (fun a => coef a * (v I a * v J a)).
Proof.
  unfold subtract_modes. generalize (m I J). induction ac as [|a ac IH]; intros x; cbn [fold_left]; [rewrite Sum_nil; lra|]. rewrite IH, Sum_cons. lra.
Qed.
Lemma subtract_apply n coef v ac m f I :
  sumn n (fun J => subtract_modes coef v ac m I J * f J) = sumn n (fun J => m I J * f J) - Sum ac (fun a => coef a * v I a * sumn n (fun J => v J a * f J)).
Proof.
  rewrite (sumn_ext n _ (fun J => m I J * f J - Sum ac (fun a => coef a * v I a * (v J a * f J)))).
  2:{ intros J _. rewrite subtract_sum, Rmult_minus_distr_r. f_equal. rewrite <- Sum_scal_r. apply Sum_ext. intros a _. ring. }
  rewrite sumn_minus. f_equal. unfold sumn. rewrite Sum_exchange. apply Sum_ext. intros a _. rewrite Sum_scal. reflexivity.
Qed.
Lemma Sum_pick ac k (f : nat -> R) : NoDup ac -> In k ac -> Sum ac (fun a => if Nat.eqb a k then f a else 0) = f k.
Proof.
  induction 1 as [|a ac N D IH]; intros I; [destruct I|]. rewrite Sum_cons. destruct I as [->|I].
  - rewrite Nat.eqb_refl. rewrite Sum_zero_ext; [lra|]. intros x X. destruct (Nat.eqb_spec x k) as [->|]; [contradiction|reflexivity].
  - destruct (Nat.eqb_spec a k) as [->|]; [contradiction|]. rewrite IH by exact I. lra.
Qed.
Lemma subtract_modes_spec n A ev v coef ac : eigen_system n A ev v -> NoDup ac -> (forall a, In a ac -> (a < n)%nat) ->
  forall k, (k < n)%nat -> eigenvector n (subtract_modes coef v ac A) (if in_dec Nat.eq_dec k ac then ev k - coef k else ev k) (fun i => v i k).
Proof.
  intros (E & O) D B k K i I. rewrite subtract_apply, (E k K i I).
  assert (S : Sum ac (fun a => coef a * v i a * sumn n (fun J => v J a * v J k)) = Sum ac (fun a => if Nat.eqb a k then coef a * v i a else 0)).
  { apply Sum_ext. intros a X. rewrite (O a k (B a X) K). destruct (Nat.eqb a k); ring. }
  rewrite S. destruct (in_dec Nat.eq_dec k ac) as [X|X]; [rewrite (Sum_pick ac k (fun a => coef a * v i a) D X); ring|].
  rewrite Sum_zero_ext; [ring|]. intros a Y. destruct (Nat.eqb_spec a k) as [->|]; [contradiction|reflexivity].
Qed.

(** ** The modes found *)
Lemma filter_perm_len {A} (p : A -> bool) l m : Permutation l m -> length (filter p l) = length (filter p m).
Proof. induction 1; cbn; try (destruct (p x)); try (destruct (p y)); cbn; congruence. Qed.
Lemma filter_length_le {A} (p : A -> bool) l : (length (filter p l) <= length l)%nat.
Proof. induction l as [|x l IH]; [apply le_n|]. cbn. destruct (p x); cbn; lia. Qed.
Lemma filter_none {A} (p : A -> bool) l : (forall x, In x l -> p x = false) -> filter p l = [].
Proof. induction l as [|x l IH]; intros H; [reflexivity|]. cbn. rewrite (H x) by (left; reflexivity). apply IH. intros y Y. apply H. right. exact Y. Qed.
Lemma filter_lt {A} (p : A -> bool) l x : In x l -> p x = false -> (length (filter p l) < length l)%nat.
Proof.
  induction l as [|y l IH]; intros I E; [destruct I|]. cbn. destruct I as [->|I].
  - rewrite E. pose proof (filter_length_le p l). lia.
  - specialize (IH I E). destruct (p y); cbn; lia.
Qed.
Lemma filter_map_comm {A B} (f : A -> B) p l : filter p (map f l) = map f (filter (fun x => p (f x)) l).
Proof. induction l as [|x l IH]; [reflexivity|]. cbn. destruct (p (f x)); cbn; rewrite IH; reflexivity. Qed.
Lemma found_large argsort dim v ac : sorts argsort -> find_acoustic_modes argsort dim v = Some ac ->
  length ac = 3%nat /\ NoDup ac /\ (forall a, In a ac -> (a < dim)%nat /\ 1 / 2 * INR (dim / 3) < com_disp_sq (dim / 3) (fun i => v i a)) /\
  forall a k, In a ac -> (k < dim)%nat -> ~ In k ac -> com_disp_sq (dim / 3) (fun i => v i k) <= com_disp_sq (dim / 3) (fun i => v i a).
Proof.
  intros S E. unfold find_acoustic_modes in E. set (w := fun m => com_disp_sq (dim / 3) (fun i => v i m)) in *. set (ws := map w (seq 0 dim)) in *.
  destruct (Nat.ltb_spec (length (filter (fun x => Rltb (1 / 2 * (1 * INR (dim / 3))) x) ws)) 3) as [|H]; [discriminate|].
  assert (Eac : skipn (length ws - 3) (argsort ws) = ac) by congruence. clear E. destruct (S ws) as (P & M). set (l := argsort ws) in *.
  assert (Lw : length ws = dim) by (unfold ws; rewrite map_length, seq_length; reflexivity). rewrite Lw in *.
  assert (Ll : length l = dim) by (rewrite (Permutation_length P), seq_length; reflexivity).
  assert (Hd : (3 <= dim)%nat) by (pose proof (filter_length_le (fun x => Rltb (1 / 2 * (1 * INR (dim / 3))) x) ws); lia).
  assert (Nl : NoDup l) by (apply (Permutation_NoDup (Permutation_sym P)); apply seq_NoDup).
  assert (Bl : forall a, In a l -> (a < dim)%nat) by (intros a A; apply (Permutation_in _ P) in A; apply in_seq in A; lia).
  assert (W : forall a, (a < dim)%nat -> nth a ws 0 = w a). { intros a A. unfold ws. rewrite (map_nth_indep w (seq 0 dim) a 0%nat 0) by (rewrite seq_length; lia). rewrite seq_nth by lia. reflexivity. }
  set (pre := firstn (dim - 3) l). assert (El : l = pre ++ ac) by (rewrite <- Eac; symmetry; apply firstn_skipn).
  assert (Lp : length pre = (dim - 3)%nat) by (unfold pre; rewrite firstn_length; lia).
  assert (La : length ac = 3%nat) by (rewrite <- Eac, skipn_length; lia).
  assert (Order : forall x y, In x pre -> In y ac -> w x <= w y).
  { intros x y X Y. destruct (In_nth _ _ 0%nat X) as (i & I1 & I2). destruct (In_nth _ _ 0%nat Y) as (j & J1 & J2).
    assert (Q : (i < dim - 3 + j < dim)%nat) by lia. specialize (M i (dim - 3 + j)%nat Q). rewrite El in M. rewrite app_nth1 in M by lia. rewrite app_nth2 in M by lia. replace (dim - 3 + j - length pre)%nat with j in M by lia. rewrite I2, J2 in M.
    rewrite !W in M; [exact M|apply Bl; rewrite El; apply in_or_app; right; exact Y|apply Bl; rewrite El; apply in_or_app; left; exact X]. }
  assert (In_ac : forall a, In a ac -> In a l) by (intros a A; rewrite El; apply in_or_app; right; exact A).
  split; [exact La|]. split; [rewrite <- Eac; clear -Nl; rewrite <- (firstn_skipn (dim - 3) l) in Nl; induction (firstn (dim - 3) l) as [|x q IH]; [exact Nl|]; apply IH; inversion Nl; assumption|]. split.
  - intros a A. split; [apply Bl, In_ac, A|]. fold (w a). rewrite Rmult_1_l in H.
    destruct (Rlt_dec (1 / 2 * INR (dim / 3)) (w a)) as [|N]; [assumption|exfalso].
    set (p := fun k => Rltb (1 / 2 * INR (dim / 3)) (w k)).
    assert (F : (3 <= length (filter p l))%nat).
    { unfold ws in H. rewrite filter_map_comm, map_length in H. rewrite (filter_perm_len p l (seq 0 dim) P). exact H. }
    rewrite El, filter_app, app_length in F. rewrite (filter_none p pre) in F.
    + pose proof (filter_lt p ac a A) as G. assert (Q : p a = false) by (unfold p; apply Rltb_nf; lra). specialize (G Q). cbn [length] in F. lia.
    + intros x X. unfold p. apply Rltb_nf. specialize (Order x a X A). lra.
  - intros a k A K N. fold (w k) (w a). apply Order; [|exact A]. assert (In k l) by (apply (Permutation_in _ (Permutation_sym P)), in_seq; lia). rewrite El in H0. apply in_app_or in H0. destruct H0; [assumption|contradiction].
Qed.
(** Uniform displacements *)
Lemma com_real natoms (e : nat -> R) : com_disp_sq natoms (fun i => RtoC (e i)) = sumn 3 (fun x => (sumn natoms (fun k => e (3 * k + x)%nat)) ^ 2).
Proof.
  unfold com_disp_sq. apply sumn_ext. intros x _. unfold Cnorm2, Csum. cbn [re im RtoC]. rewrite Sum_zero. unfold sumn. ring.
Qed.
Lemma sym_upper_sym m i j : sym_upper m i j = sym_upper m j i.
Proof. unfold sym_upper. destruct (Nat.leb_spec i j), (Nat.leb_spec j i); try reflexivity; try lia. replace j with i by lia. reflexivity. Qed.
Lemma sym_upper_id n m : (forall i j, (i < n)%nat -> (j < n)%nat -> m i j = m j i) -> forall i j, (i < n)%nat -> (j < n)%nat -> sym_upper m i j = m i j.
Proof. intros H i j I J. unfold sym_upper. destruct (Nat.leb i j); [reflexivity|]. apply H; assumption. Qed.
Lemma eigenvector_ext n A B l v : (forall i j, (i < n)%nat -> (j < n)%nat -> A i j = B i j) -> eigenvector n A l v -> eigenvector n B l v.
Proof. intros H E i I. rewrite <- (E i I). apply sumn_ext. intros j J. rewrite (H i j I J). reflexivity. Qed.
Lemma no_com natoms A l v : (forall i j, A i j = A j i) -> eigenvector (3 * natoms) A l v ->
  (forall i x, (i < 3 * natoms)%nat -> (x < 3)%nat -> sumn natoms (fun k => A i (3 * k + x)%nat) = 0) -> l <> 0 -> sumn 3 (fun x => (sumn natoms (fun k => v (3 * k + x)%nat)) ^ 2) = 0.
Proof.
  intros S E Z N. apply sumn_zero. intros x X. assert (Q : l * sumn natoms (fun k => v (3 * k + x)%nat) = 0).
  { rewrite <- sumn_scal. rewrite (sumn_ext natoms _ (fun k => sumn (3 * natoms) (fun j => A j (3 * k + x)%nat * v j))).
    - rewrite sumn_exchange. apply sumn_zero. intros j J. rewrite (sumn_ext natoms _ (fun k => v j * A j (3 * k + x)%nat)) by (intros; ring). rewrite sumn_scal, Z by assumption. ring.
    - intros k K. rewrite <- (E (3 * k + x)%nat) by lia. apply sumn_ext. intros j _. rewrite S. reflexivity. }
  apply Rmult_integral in Q. destruct Q as [Q|Q]; [contradiction|]. rewrite Q. ring.
Qed.
