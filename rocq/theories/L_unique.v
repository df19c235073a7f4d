(** A Hermitian matrix determines its eigenvalues, with multiplicity, and the projections on its
    eigenspaces: nothing built from these depends on the eigenvectors chosen. *)
From Coq Require Import Permutation Sorted.
From Verif Require Import Base Cpx Vec3 M_grid M_qpts M_dynmat M_calc S_dynmat S_asr S_calc L_spectral L_util.
Open Scope R_scope.

Section Two.
Variables (n : nat) (A : nat -> nat -> C) (ev ev' : nat -> R) (v v' : nat -> nat -> C).
Hypothesis H : ceigen_system n A ev v.
Hypothesis H' : ceigen_system n A ev' v'.

Definition overlap (m k : nat) : C := Csum (seq 0 n) (fun i => Cmul (Cconj (v i m)) (v' i k)).

Lemma left_eigen m j : (m < n)%nat -> (j < n)%nat ->
  Csum (seq 0 n) (fun i => Cmul (Cconj (v i m)) (A i j)) = Cscal (ev m) (Cconj (v j m)).
Proof.
  intros Hm Hj.
  transitivity (Csum (seq 0 n) (fun i => Csum (seq 0 n) (fun l => Cmul (Cscal (ev l) (Cconj (v j l))) (Cmul (Cconj (v i m)) (v i l))))).
  { apply Csum_ext. intros i Ii. apply in_seq in Ii. rewrite (decomposed n A ev v H i j) by lia. rewrite <- Csum_mul.
    apply Csum_ext. intros l _. rewrite !Cscal_mul. ring. }
  rewrite Csum_exchange. destruct H as [_ O].
  transitivity (Csum (seq 0 n) (fun l => if Nat.eqb m l then Cscal (ev l) (Cconj (v j l)) else Czero)).
  - apply Csum_ext. intros l Il. apply in_seq in Il. rewrite Csum_mul, O by lia. destruct (Nat.eqb m l); ring.
  - apply (Csum_delta n (fun l => Cscal (ev l) (Cconj (v j l)))). exact Hm.
Qed.

Lemma overlap_eigen m k : (m < n)%nat -> (k < n)%nat -> Cscal (ev m) (overlap m k) = Cscal (ev' k) (overlap m k).
Proof.
  intros Hm Hk. destruct H' as [E' _].
  transitivity (Csum (seq 0 n) (fun j => Csum (seq 0 n) (fun i => Cmul (Cmul (Cconj (v i m)) (A i j)) (v' j k)))).
  - unfold overlap. rewrite <- Csum_scal. apply Csum_ext. intros j Ij. apply in_seq in Ij.
    rewrite Csum_mul_r, left_eigen by lia. rewrite !Cscal_mul. ring.
  - rewrite Csum_exchange. unfold overlap. rewrite <- Csum_scal. apply Csum_ext. intros i Ii. apply in_seq in Ii.
    transitivity (Cmul (Cconj (v i m)) (Csum (seq 0 n) (fun j => Cmul (A i j) (v' j k)))).
    + rewrite <- Csum_mul. apply Csum_ext. intros j _. ring.
    + rewrite (E' k Hk i) by lia. rewrite !Cscal_mul. ring.
Qed.

Lemma overlap_fun (g : R -> R) m k : (m < n)%nat -> (k < n)%nat ->
  Cscal (g (ev m)) (overlap m k) = Cscal (g (ev' k)) (overlap m k).
Proof.
  intros Hm Hk. pose proof (overlap_eigen m k Hm Hk) as E.
  destruct (Req_dec (ev m) (ev' k)) as [->|N]; [reflexivity|].
  assert (Z : overlap m k = Czero).
  { pose proof (f_equal re E) as E1. pose proof (f_equal im E) as E2. cbn [re im Cscal] in E1, E2. apply C_eq; cbn [re im Czero].
    - assert (P : (ev m - ev' k) * re (overlap m k) = 0) by lra. apply Rmult_integral in P. destruct P; lra.
    - assert (P : (ev m - ev' k) * im (overlap m k) = 0) by lra. apply Rmult_integral in P. destruct P; lra. }
  rewrite Z. apply C_eq; cbn; ring.
Qed.

Lemma expand_right i k : (i < n)%nat -> v' i k = Csum (seq 0 n) (fun m => Cmul (v i m) (overlap m k)).
Proof.
  intros Hi. destruct H as [_ O]. unfold overlap.
  transitivity (Csum (seq 0 n) (fun m => Csum (seq 0 n) (fun l => Cmul (Cmul (v i m) (Cconj (v l m))) (v' l k)))).
  - rewrite Csum_exchange.
    transitivity (Csum (seq 0 n) (fun l => if Nat.eqb i l then v' l k else Czero)).
    + symmetry. apply (Csum_delta n (fun l => v' l k)). exact Hi.
    + apply Csum_ext. intros l Il. apply in_seq in Il. rewrite Csum_mul_r.
      fold (proj n v i l). rewrite (complete n v O) by lia. destruct (Nat.eqb i l); ring.
  - apply Csum_ext. intros m _. rewrite <- Csum_mul. apply Csum_ext. intros l _. ring.
Qed.

Lemma expand_left j m : (j < n)%nat -> Cconj (v j m) = Csum (seq 0 n) (fun k => Cmul (overlap m k) (Cconj (v' j k))).
Proof.
  intros Hj. destruct H' as [_ O]. unfold overlap.
  transitivity (Csum (seq 0 n) (fun k => Csum (seq 0 n) (fun l => Cmul (Cconj (v l m)) (Cmul (v' l k) (Cconj (v' j k)))))).
  - rewrite Csum_exchange.
    transitivity (Csum (seq 0 n) (fun l => if Nat.eqb j l then Cconj (v l m) else Czero)).
    + symmetry. apply (Csum_delta n (fun l => Cconj (v l m))). exact Hj.
    + apply Csum_ext. intros l Il. apply in_seq in Il. rewrite Csum_mul.
      fold (proj n v' l j). rewrite (complete n v' O) by lia. rewrite Nat.eqb_sym. destruct (Nat.eqb l j); ring.
  - apply Csum_ext. intros k _. rewrite <- Csum_mul_r. apply Csum_ext. intros l _. ring.
Qed.

(** any function of the matrix is determined *)
Lemma spectral_unique (g : R -> R) i j : (i < n)%nat -> (j < n)%nat ->
  Csum (seq 0 n) (fun m => Cscal (g (ev m)) (Cmul (v i m) (Cconj (v j m))))
  = Csum (seq 0 n) (fun k => Cscal (g (ev' k)) (Cmul (v' i k) (Cconj (v' j k)))).
Proof.
  intros Hi Hj.
  transitivity (Csum (seq 0 n) (fun m => Csum (seq 0 n) (fun k => Cmul (Cmul (v i m) (Cconj (v' j k))) (Cscal (g (ev m)) (overlap m k))))).
  - apply Csum_ext. intros m _. rewrite (expand_left j m Hj) at 1. rewrite <- Csum_mul, <- Csum_scal. apply Csum_ext. intros k _.
    rewrite !Cscal_mul. ring.
  - rewrite Csum_exchange. apply Csum_ext. intros k Ik. apply in_seq in Ik. rewrite (expand_right i k Hi) at 1.
    rewrite <- Csum_mul_r, <- Csum_scal. apply Csum_ext. intros m Im. apply in_seq in Im.
    rewrite overlap_fun by lia. rewrite !Cscal_mul. ring.
Qed.
End Two.

(** in terms of frequencies *)
Definition unsquare (x : R) : R := if Rltb x 0 then - sqrt (- x) else sqrt x.
Lemma unsquare_spec f : unsquare (f * Rabs f) = f.
Proof.
  unfold unsquare. destruct (Rltb_spec (f * Rabs f) 0) as [L|L]; unfold Rabs in *; destruct (Rcase_abs f) as [K|K].
  - replace (- (f * - f)) with ((- f) * (- f)) by ring. rewrite sqrt_square by lra. ring.
  - nra.
  - exfalso. nra.
  - apply sqrt_square. lra.
Qed.

Section Modes.
Variables (n : nat) (mass : nat -> R) (D : nat -> nat -> C) (md md' : modes).
Hypothesis M : modes_of n mass D md.
Hypothesis M' : modes_of n mass D md'.

Lemma modes_fun (h : R -> R) a b : (a < n)%nat -> (b < n)%nat ->
  Csum (seq 0 n) (fun m => Cscal (h (m_freq md m)) (Cmul (m_evec md m a) (Cconj (m_evec md m b))))
  = Csum (seq 0 n) (fun m => Cscal (h (m_freq md' m)) (Cmul (m_evec md' m a) (Cconj (m_evec md' m b)))).
Proof.
  intros Ha Hb. pose proof (spectral_unique n _ _ _ _ _ (modes_system n mass D md M) (modes_system n mass D md' M') (fun x => h (unsquare x)) a b Ha Hb) as E.
  cbv beta in E. rewrite (Csum_ext _ _ (fun m => Cscal (h (unsquare (m_freq md m * Rabs (m_freq md m)))) (Cmul (m_evec md m a) (Cconj (m_evec md m b))))).
  - rewrite E. apply Csum_ext. intros m _. rewrite unsquare_spec. reflexivity.
  - intros m _. rewrite unsquare_spec. reflexivity.
Qed.

(** the weight of the modes on any vector *)
Lemma modes_weight (h : R -> R) (c : nat -> C) :
  Sum (seq 0 n) (fun m => h (m_freq md m) * Cnorm2 (Csum (seq 0 n) (fun a => Cmul (c a) (Cconj (m_evec md m a)))))
  = Sum (seq 0 n) (fun m => h (m_freq md' m) * Cnorm2 (Csum (seq 0 n) (fun a => Cmul (c a) (Cconj (m_evec md' m a))))).
Proof.
  assert (K : forall mx, Sum (seq 0 n) (fun m => h (m_freq mx m) * Cnorm2 (Csum (seq 0 n) (fun a => Cmul (c a) (Cconj (m_evec mx m a)))))
    = re (Csum (seq 0 n) (fun a => Csum (seq 0 n) (fun b => Cmul (Cmul (Cconj (c a)) (c b))
            (Csum (seq 0 n) (fun m => Cscal (h (m_freq mx m)) (Cmul (m_evec mx m a) (Cconj (m_evec mx m b))))))))).
  { intros mx.
    transitivity (re (Csum (seq 0 n) (fun m => Csum (seq 0 n) (fun a => Csum (seq 0 n) (fun b =>
        Cmul (Cmul (Cconj (c a)) (c b)) (Cscal (h (m_freq mx m)) (Cmul (m_evec mx m a) (Cconj (m_evec mx m b))))))))).
    - rewrite re_Csum. apply Sum_ext. intros m _.
      transitivity (re (Cscal (h (m_freq mx m)) (Cmul (Csum (seq 0 n) (fun a => Cmul (c a) (Cconj (m_evec mx m a)))) (Cconj (Csum (seq 0 n) (fun a => Cmul (c a) (Cconj (m_evec mx m a)))))))).
      + rewrite Cmul_conj. reflexivity.
      + f_equal. rewrite <- Csum_conj.
        transitivity (Csum (seq 0 n) (fun a => Cscal (h (m_freq mx m)) (Cmul (Csum (seq 0 n) (fun b => Cmul (c b) (Cconj (m_evec mx m b)))) (Cconj (Cmul (c a) (Cconj (m_evec mx m a))))))).
        * rewrite <- Csum_mul, <- Csum_scal. reflexivity.
        * apply Csum_ext. intros a _. rewrite <- Csum_mul_r, <- Csum_scal. apply Csum_ext. intros b _.
          rewrite Cconj_mul, Cconj_conj, !Cscal_mul. ring.
    - f_equal. rewrite Csum_exchange. apply Csum_ext. intros a _. rewrite Csum_exchange. apply Csum_ext. intros b _.
      apply Csum_mul. }
  rewrite !K. f_equal. apply Csum_ext. intros a Ia. apply Csum_ext. intros b Ib. apply in_seq in Ia, Ib. rewrite modes_fun by lia. reflexivity.
Qed.

Lemma modes_count (h : R -> R) : Sum (seq 0 n) (fun m => h (m_freq md m)) = Sum (seq 0 n) (fun m => h (m_freq md' m)).
Proof.
  assert (K : forall mx, modes_of n mass D mx -> Sum (seq 0 n) (fun m => h (m_freq mx m))
    = Sum (seq 0 n) (fun a => re (Csum (seq 0 n) (fun m => Cscal (h (m_freq mx m)) (Cmul (m_evec mx m a) (Cconj (m_evec mx m a))))))).
  { intros mx [_ O].
    transitivity (Sum (seq 0 n) (fun a => Sum (seq 0 n) (fun m => h (m_freq mx m) * Cnorm2 (m_evec mx m a)))).
    - rewrite Sum_exchange. apply Sum_ext. intros m Im. apply in_seq in Im. rewrite Sum_scal.
      pose proof (f_equal re (O m m ltac:(lia) ltac:(lia))) as Q. rewrite Nat.eqb_refl, re_Csum in Q. cbn [re Cone] in Q.
      rewrite (Sum_ext _ _ (fun i => re (Cmul (Cconj (m_evec mx m i)) (m_evec mx m i)))); [rewrite Q; ring|]. intros i _. unfold Cnorm2. cbn. ring.
    - apply Sum_ext. intros a _. rewrite re_Csum. apply Sum_ext. intros m _. rewrite Cmul_conj. reflexivity. }
  rewrite (K md M), (K md' M'). apply Sum_ext. intros a Ia. apply in_seq in Ia. rewrite modes_fun by lia. reflexivity.
Qed.

(** the gradients, added over modes of equal frequency *)
Lemma modes_gradients (h : R -> R) (g : nat -> nat -> nat -> C) l :
  Sum (seq 0 n) (fun m => h (m_freq md m) * re (mode_gradient n (m_evec md m) (m_freq md m) g l))
  = Sum (seq 0 n) (fun m => h (m_freq md' m) * re (mode_gradient n (m_evec md' m) (m_freq md' m) g l)).
Proof.
  assert (K : forall mx, Sum (seq 0 n) (fun m => h (m_freq mx m) * re (mode_gradient n (m_evec mx m) (m_freq mx m) g l))
    = re (Csum (seq 0 n) (fun a => Csum (seq 0 n) (fun b => Cmul (g a b l)
            (Csum (seq 0 n) (fun m => Cscal (h (m_freq mx m) * (1 / (2 * m_freq mx m))) (Cmul (m_evec mx m b) (Cconj (m_evec mx m a))))))))).
  { intros mx.
    transitivity (re (Csum (seq 0 n) (fun m => Csum (seq 0 n) (fun a => Csum (seq 0 n) (fun b =>
        Cmul (g a b l) (Cscal (h (m_freq mx m) * (1 / (2 * m_freq mx m))) (Cmul (m_evec mx m b) (Cconj (m_evec mx m a))))))))).
    - rewrite re_Csum. apply Sum_ext. intros m _. unfold mode_gradient.
      transitivity (re (Cscal (h (m_freq mx m) * (1 / (2 * m_freq mx m))) (Csum (seq 0 n) (fun j => Csum (seq 0 n) (fun k => Cmul (Cmul (Cconj (m_evec mx m j)) (m_evec mx m k)) (g j k l)))))).
      + cbn [re Cscal]. ring.
      + f_equal. rewrite <- Csum_scal. apply Csum_ext. intros a _. rewrite <- Csum_scal. apply Csum_ext. intros b _. rewrite !Cscal_mul. ring.
    - f_equal. rewrite Csum_exchange. apply Csum_ext. intros a _. rewrite Csum_exchange. apply Csum_ext. intros b _. apply Csum_mul. }
  rewrite !K. f_equal. apply Csum_ext. intros a Ia. apply Csum_ext. intros b Ib. apply in_seq in Ia, Ib.
  rewrite (modes_fun (fun f => h f * (1 / (2 * f)))) by lia. reflexivity.
Qed.
End Modes.

(** lists with the same sums of every function *)
Lemma sums_perm : forall l l' : list R, (forall h, Sum l h = Sum l' h) -> Permutation l l'.
Proof.
  induction l as [|x l IH]; intros l' E.
  - destruct l' as [|y l']; [constructor|exfalso]. specialize (E (fun _ => 1)). rewrite Sum_const, Sum_const in E. cbn [length] in E.
    rewrite S_INR in E. cbn in E. pose proof (pos_INR (length l')). lra.
  - assert (I : In x l').
    { destruct (in_dec Req_EM_T x l') as [I|I]; [exact I|exfalso].
      specialize (E (fun y => if Req_EM_T y x then 1 else 0)). rewrite Sum_cons in E. destruct (Req_EM_T x x); [|congruence].
      assert (0 <= Sum l (fun y => if Req_EM_T y x then 1 else 0)) by (apply Sum_nonneg; intros y _; destruct (Req_EM_T y x); lra).
      rewrite (Sum_zero_ext l') in E; [lra|]. intros y Iy. destruct (Req_EM_T y x); [subst; contradiction|reflexivity]. }
    apply in_split in I. destruct I as (l1 & l2 & ->).
    apply Permutation_cons_app, IH. intros h. specialize (E h). rewrite Sum_cons, Sum_app, Sum_cons in E. rewrite Sum_app. lra.
Qed.

Lemma modes_perm n mass D md md' : modes_of n mass D md -> modes_of n mass D md' ->
  Permutation (map (m_freq md) (seq 0 n)) (map (m_freq md') (seq 0 n)).
Proof. intros M M'. apply sums_perm. intros h. rewrite !Sum_map. exact (modes_count n mass D md md' M M' h). Qed.

Lemma sorted_perm : forall l l' : list R, StronglySorted Rle l -> StronglySorted Rle l' -> Permutation l l' -> l = l'.
Proof.
  induction l as [|x l IH]; intros l' S1 S2 P.
  - apply Permutation_nil in P. congruence.
  - destruct l' as [|y l']; [apply Permutation_sym, Permutation_nil in P; discriminate|].
    inversion S1 as [|? ? S1' F1]; subst. inversion S2 as [|? ? S2' F2]; subst. rewrite Forall_forall in F1, F2.
    assert (x <= y).
    { assert (Iy : In y (x :: l)) by (apply (Permutation_in y (Permutation_sym P)); left; reflexivity). destruct Iy as [->|Iy]; [lra|apply F1, Iy]. }
    assert (y <= x).
    { assert (Ix : In x (y :: l')) by (apply (Permutation_in x P); left; reflexivity). destruct Ix as [->|Ix]; [lra|apply F2, Ix]. }
    assert (x = y) by lra. subst y. f_equal. apply IH; [assumption..|]. exact (Permutation_cons_inv P).
Qed.
Lemma seq_sorted (f : nat -> R) n s : (forall i j, (i <= j)%nat -> (j < s + n)%nat -> f i <= f j) -> StronglySorted Rle (map f (seq s n)).
Proof.
  revert s. induction n as [|n IH]; intros s Hf; cbn [seq map]; [constructor|]. constructor.
  - apply IH. intros i j L J. apply Hf; lia.
  - rewrite Forall_forall. intros x Ix. apply in_map_iff in Ix. destruct Ix as (k & <- & Ik). apply in_seq in Ik. apply Hf; lia.
Qed.
Lemma modes_equal n mass D md md' : modes_of n mass D md -> modes_of n mass D md' ->
  (forall i j, (i <= j)%nat -> (j < n)%nat -> m_freq md i <= m_freq md j) -> (forall i j, (i <= j)%nat -> (j < n)%nat -> m_freq md' i <= m_freq md' j) ->
  forall m, (m < n)%nat -> m_freq md m = m_freq md' m.
Proof.
  intros M M' O O' m Hm. pose proof (sorted_perm _ _ (seq_sorted _ n 0 O) (seq_sorted _ n 0 O') (modes_perm n mass D md md' M M')) as E.
  pose proof (f_equal (fun l => nth m l 0) E) as E2. cbv beta in E2.
  rewrite !(map_nth_indep _ _ _ 0%nat) in E2 by (rewrite seq_length; exact Hm). rewrite !nth_seq_id in E2 by exact Hm. exact E2.
Qed.
