(** n orthonormal vectors of n components are complete, so modes determine their matrix. *)
From Verif Require Import Base Cpx Vec3 M_grid M_qpts M_dynmat M_calc S_dynmat S_asr S_calc.
Open Scope R_scope.

Lemma re_Csum {A} (l : list A) f : re (Csum l f) = Sum l (fun x => re (f x)). Proof. reflexivity. Qed.
Lemma im_Csum {A} (l : list A) f : im (Csum l f) = Sum l (fun x => im (f x)). Proof. reflexivity. Qed.
Lemma Csum_delta n (f : nat -> C) i : (i < n)%nat -> Csum (seq 0 n) (fun m => if Nat.eqb i m then f m else Czero) = f i.
Proof.
  intros Hi. apply C_eq.
  - rewrite re_Csum. transitivity (sumn n (fun m => if Nat.eqb i m then re (f m) else 0)); [apply Sum_ext; intros m _; destruct (Nat.eqb i m); reflexivity|].
    transitivity (sumn n (fun m => if Nat.eqb m i then re (f i) else 0)); [|apply sumn_delta; exact Hi].
    apply sumn_ext. intros m _. rewrite Nat.eqb_sym. destruct (Nat.eqb_spec m i); [subst|]; reflexivity.
  - rewrite im_Csum. transitivity (sumn n (fun m => if Nat.eqb i m then im (f m) else 0)); [apply Sum_ext; intros m _; destruct (Nat.eqb i m); reflexivity|].
    transitivity (sumn n (fun m => if Nat.eqb m i then im (f i) else 0)); [|apply sumn_delta; exact Hi].
    apply sumn_ext. intros m _. rewrite Nat.eqb_sym. destruct (Nat.eqb_spec m i); [subst|]; reflexivity.
Qed.

Section Complete.
Variable n : nat.
Variable v : nat -> nat -> C.
Hypothesis O : corthonormal n v.
Definition proj (i j : nat) : C := Csum (seq 0 n) (fun m => Cmul (v i m) (Cconj (v j m))).
Lemma proj_conj i j : Cconj (proj i j) = proj j i.
Proof. unfold proj. rewrite <- Csum_conj. apply Csum_ext. intros m _. rewrite Cconj_mul, Cconj_conj. ring. Qed.
Lemma proj_idem i k : Csum (seq 0 n) (fun j => Cmul (proj i j) (proj j k)) = proj i k.
Proof.
  transitivity (Csum (seq 0 n) (fun j => Csum (seq 0 n) (fun m => Csum (seq 0 n) (fun l => Cmul (Cmul (v i m) (Cconj (v k l))) (Cmul (Cconj (v j m)) (v j l)))))).
  { apply Csum_ext. intros j _. unfold proj. rewrite <- Csum_mul_r. apply Csum_ext. intros m _. rewrite <- Csum_mul. apply Csum_ext. intros l _. ring. }
  rewrite Csum_exchange. unfold proj at 1. apply Csum_ext. intros m Im. apply in_seq in Im. rewrite Csum_exchange.
  transitivity (Csum (seq 0 n) (fun l => if Nat.eqb m l then Cmul (v i m) (Cconj (v k l)) else Czero)).
  - apply Csum_ext. intros l Il. apply in_seq in Il. rewrite Csum_mul, O by lia. destruct (Nat.eqb m l); ring.
  - rewrite (Csum_delta n (fun l => Cmul (v i m) (Cconj (v k l)))) by lia. reflexivity.
Qed.
Lemma proj_trace : Sum (seq 0 n) (fun i => re (proj i i)) = INR n.
Proof.
  transitivity (re (Csum (seq 0 n) (fun i => proj i i))); [reflexivity|]. unfold proj. rewrite Csum_exchange.
  transitivity (re (Csum (seq 0 n) (fun _ => Cone))).
  - f_equal. apply Csum_ext. intros m Im. apply in_seq in Im.
    transitivity (if Nat.eqb m m then Cone else Czero); [|rewrite Nat.eqb_refl; reflexivity]. rewrite <- (O m m) by lia. apply Csum_ext. intros i _. ring.
  - rewrite re_Csum. cbn [re Cone]. rewrite Sum_const, seq_length. ring.
Qed.
Lemma proj_residual i : (i < n)%nat -> Sum (seq 0 n) (fun j => Cnorm2 (Csub (if Nat.eqb i j then Cone else Czero) (proj i j))) = 1 - re (proj i i).
Proof.
  intros Hi. pose proof (f_equal re (proj_idem i i)) as P. rewrite re_Csum in P.
  transitivity (Sum (seq 0 n) (fun j => (if Nat.eqb j i then 1 - 2 * re (proj i i) else 0) + re (Cmul (proj i j) (proj j i)))).
  - apply Sum_ext. intros j Ij. rewrite <- (proj_conj i j). unfold Cnorm2. rewrite Nat.eqb_sym. destruct (Nat.eqb_spec j i) as [->|N]; cbn; ring.
  - rewrite Sum_plus, P. fold (sumn n (fun j => if Nat.eqb j i then 1 - 2 * re (proj i i) else 0)). rewrite sumn_delta by exact Hi. ring.
Qed.
Lemma complete i j : (i < n)%nat -> (j < n)%nat -> proj i j = if Nat.eqb i j then Cone else Czero.
Proof.
  intros Hi Hj.
  assert (D : forall i, (i < n)%nat -> 0 <= 1 - re (proj i i)) by (intros k Hk; rewrite <- proj_residual by exact Hk; apply Sum_nonneg; intros; apply Cnorm2_nonneg).
  assert (T : Sum (seq 0 n) (fun i => 1 - re (proj i i)) = 0).
  { rewrite Sum_minus, proj_trace, Sum_const, seq_length. ring. }
  assert (Zr : forall (l : list nat) (f : nat -> R), (forall x, In x l -> 0 <= f x) -> Sum l f = 0 -> forall x, In x l -> f x = 0).
  { intros l f. induction l as [|y l IH]; intros H S x Ix; [contradiction|]. rewrite Sum_cons in S.
    assert (0 <= f y) by (apply H; left; reflexivity). assert (0 <= Sum l f) by (apply Sum_nonneg; intros; apply H; right; assumption).
    destruct Ix as [<-|Ix]; [lra|]. apply IH; [intros; apply H; right; assumption|lra|exact Ix]. }
  assert (R1 : 1 - re (proj i i) = 0) by (apply (Zr (seq 0 n) (fun i => 1 - re (proj i i))); [intros k Ik; apply in_seq in Ik; apply D; lia|exact T|apply in_seq; lia]).
  pose proof (proj_residual i Hi) as S. rewrite R1 in S.
  pose proof (Zr _ _ (fun x _ => Cnorm2_nonneg _) S j ltac:(apply in_seq; lia)) as Q. cbv beta in Q. unfold Cnorm2, Csub in Q. cbn [re im] in Q.
  apply Rplus_sqr_eq_0 in Q. destruct Q as [Q1 Q2]. apply C_eq; destruct (Nat.eqb i j); cbn [re im Cone Czero] in *; lra.
Qed.
End Complete.

(** A matrix with n orthonormal eigenvectors is the sum of its eigenvalues times projections. *)
Lemma decomposed n A ev v : ceigen_system n A ev v -> forall i j, (i < n)%nat -> (j < n)%nat ->
  A i j = Csum (seq 0 n) (fun m => Cscal (ev m) (Cmul (v i m) (Cconj (v j m)))).
Proof.
  intros [E O] i j Hi Hj.
  transitivity (Csum (seq 0 n) (fun k => Cmul (A i k) (proj n v k j))).
  - transitivity (Csum (seq 0 n) (fun k => if Nat.eqb j k then A i k else Czero)); [symmetry; apply (Csum_delta n (fun k => A i k)); exact Hj|].
    apply Csum_ext. intros k Ik. apply in_seq in Ik. rewrite (complete n v O) by lia. rewrite Nat.eqb_sym. destruct (Nat.eqb k j); ring.
  - transitivity (Csum (seq 0 n) (fun k => Csum (seq 0 n) (fun m => Cmul (Cmul (A i k) (v k m)) (Cconj (v j m))))).
    + apply Csum_ext. intros k _. unfold proj. rewrite <- Csum_mul. apply Csum_ext. intros; ring.
    + rewrite Csum_exchange. apply Csum_ext. intros m Im. apply in_seq in Im. rewrite Csum_mul_r, (E m ltac:(lia) i Hi), !Cscal_mul. ring.
Qed.
Lemma modes_system n mass D md : modes_of n mass D md ->
  ceigen_system n (fun a b => Cscal (1 / sqrt (mass (a / 3)%nat * mass (b / 3)%nat)) (D a b)) (fun m => m_freq md m * Rabs (m_freq md m)) (fun i m => m_evec md m i).
Proof. intros [A B]. split; [exact A|exact B]. Qed.
Lemma modes_matrix n mass D md : modes_of n mass D md -> forall a b, (a < n)%nat -> (b < n)%nat ->
  Cscal (1 / sqrt (mass (a / 3)%nat * mass (b / 3)%nat)) (D a b)
  = Csum (seq 0 n) (fun m => Cscal (m_freq md m * Rabs (m_freq md m)) (Cmul (m_evec md m a) (Cconj (m_evec md m b)))).
Proof. intros H. exact (decomposed n _ _ _ (modes_system n mass D md H)). Qed.
Lemma modes_trace n mass D md : (forall a, (a < n)%nat -> 0 < mass (a / 3)%nat) -> modes_of n mass D md ->
  sumn n (fun m => m_freq md m * Rabs (m_freq md m)) = sumn n (fun a => re (D a a) / mass (a / 3)%nat).
Proof.
  intros Hm H. symmetry.
  transitivity (Sum (seq 0 n) (fun a => Sum (seq 0 n) (fun m => (m_freq md m * Rabs (m_freq md m)) * Cnorm2 (m_evec md m a)))).
  - apply Sum_ext. intros a Ia. apply in_seq in Ia. pose proof (f_equal re (modes_matrix n mass D md H a a ltac:(lia) ltac:(lia))) as P.
    specialize (Hm a ltac:(lia)). rewrite sqrt_square in P by lra. rewrite re_Csum in P. cbn [re Cscal] in P.
    replace (re (D a a) / mass (a / 3)%nat) with (1 / mass (a / 3)%nat * re (D a a)) by (field; lra). rewrite P. apply Sum_ext. intros m _. rewrite Cmul_conj. reflexivity.
  - rewrite Sum_exchange. apply Sum_ext. intros m Im. apply in_seq in Im. rewrite Sum_scal.
    destruct H as [_ O]. pose proof (f_equal re (O m m ltac:(lia) ltac:(lia))) as Q. rewrite Nat.eqb_refl, re_Csum in Q. cbn [re Cone] in Q.
    rewrite (Sum_ext _ _ (fun i => re (Cmul (Cconj (m_evec md m i)) (m_evec md m i)))); [rewrite Q; ring|]. intros i _. unfold Cnorm2. cbn. ring.
Qed.
