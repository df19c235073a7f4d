(** Complex numbers as pairs of reals, with the unit phase [cis t = e^(i t)].
    Nothing here models /repo code. *)
From Verif Require Import Base.
Open Scope R_scope.

Record C : Type := mkC { re : R; im : R }.

Definition Czero : C := mkC 0 0.
Definition Cone : C := mkC 1 0.
Definition Ci : C := mkC 0 1.
Definition Cadd (a b : C) : C := mkC (re a + re b) (im a + im b).
Definition Copp (a : C) : C := mkC (- re a) (- im a).
Definition Csub (a b : C) : C := mkC (re a - re b) (im a - im b).
Definition Cmul (a b : C) : C :=
  mkC (re a * re b - im a * im b) (re a * im b + im a * re b).
Definition Cconj (a : C) : C := mkC (re a) (- im a).
Definition Cscal (r : R) (a : C) : C := mkC (r * re a) (r * im a).
Definition RtoC (r : R) : C := mkC r 0.
(** Squared modulus. *)
Definition Cnorm2 (a : C) : R := re a * re a + im a * im a.
(** e^(i t) *)
Definition cis (t : R) : C := mkC (cos t) (sin t).
Definition Csum {A} (l : list A) (f : A -> C) : C :=
  mkC (Sum l (fun x => re (f x))) (Sum l (fun x => im (f x))).

Lemma C_eq a b : re a = re b -> im a = im b -> a = b.
Proof. destruct a, b; simpl; intros -> ->; reflexivity. Qed.

Lemma C_ring : ring_theory Czero Cone Cadd Cmul Csub Copp (@eq C).
Proof.
  constructor; intros; apply C_eq; simpl; ring.
Qed.
Add Ring CRing : C_ring.

Lemma Csum_nil {A} (f : A -> C) : Csum [] f = Czero.
Proof. reflexivity. Qed.
Lemma Csum_cons {A} x l (f : A -> C) : Csum (x :: l) f = Cadd (f x) (Csum l f).
Proof. reflexivity. Qed.
Lemma Csum_app {A} l1 l2 (f : A -> C) :
  Csum (l1 ++ l2) f = Cadd (Csum l1 f) (Csum l2 f).
Proof. apply C_eq; simpl; apply Sum_app. Qed.
Lemma Csum_ext {A} l (f g : A -> C) :
  (forall x, In x l -> f x = g x) -> Csum l f = Csum l g.
Proof.
  intros H. apply C_eq; simpl; apply Sum_ext; intros x Hx; rewrite (H x Hx); reflexivity.
Qed.
Lemma Csum_plus {A} l (f g : A -> C) :
  Csum l (fun x => Cadd (f x) (g x)) = Cadd (Csum l f) (Csum l g).
Proof. apply C_eq; simpl; apply Sum_plus. Qed.
Lemma Csum_mul {A} l (c : C) (f : A -> C) :
  Csum l (fun x => Cmul c (f x)) = Cmul c (Csum l f).
Proof.
  induction l as [|a l IH]; [rewrite !Csum_nil; ring|].
  rewrite !Csum_cons, IH. ring.
Qed.
Lemma Csum_mul_r {A} l (c : C) (f : A -> C) :
  Csum l (fun x => Cmul (f x) c) = Cmul (Csum l f) c.
Proof.
  induction l as [|a l IH]; [rewrite !Csum_nil; ring|].
  rewrite !Csum_cons, IH. ring.
Qed.
Lemma Csum_conj {A} l (f : A -> C) :
  Csum l (fun x => Cconj (f x)) = Cconj (Csum l f).
Proof. apply C_eq; simpl; [reflexivity|apply Sum_opp]. Qed.
Lemma Csum_scal {A} l (r : R) (f : A -> C) :
  Csum l (fun x => Cscal r (f x)) = Cscal r (Csum l f).
Proof. apply C_eq; simpl; apply Sum_scal. Qed.
Lemma Csum_perm {A} l1 l2 (f : A -> C) :
  Permutation l1 l2 -> Csum l1 f = Csum l2 f.
Proof. intros H. apply C_eq; simpl; apply Sum_perm; exact H. Qed.
Lemma Csum_exchange {A B} (la : list A) (lb : list B) (f : A -> B -> C) :
  Csum la (fun a => Csum lb (fun b => f a b))
  = Csum lb (fun b => Csum la (fun a => f a b)).
Proof. apply C_eq; simpl; apply Sum_exchange. Qed.
Lemma Csum_map {A B} (h : A -> B) l (f : B -> C) :
  Csum (map h l) f = Csum l (fun x => f (h x)).
Proof. apply C_eq; unfold Csum; cbn [re im]; rewrite Sum_map; reflexivity. Qed.
Lemma Csum_zero {A} (l : list A) f :
  (forall x, In x l -> f x = Czero) -> Csum l f = Czero.
Proof.
  intros H. apply C_eq; simpl; apply Sum_zero_ext; intros x Hx; rewrite (H x Hx); reflexivity.
Qed.

Lemma Cconj_mul a b : Cconj (Cmul a b) = Cmul (Cconj a) (Cconj b).
Proof. apply C_eq; simpl; ring. Qed.
Lemma Cconj_add a b : Cconj (Cadd a b) = Cadd (Cconj a) (Cconj b).
Proof. apply C_eq; simpl; ring. Qed.
Lemma Cconj_scal r a : Cconj (Cscal r a) = Cscal r (Cconj a).
Proof. apply C_eq; simpl; ring. Qed.
Lemma Cconj_conj a : Cconj (Cconj a) = a.
Proof. apply C_eq; simpl; ring. Qed.
Lemma Cscal_mul r a : Cscal r a = Cmul (RtoC r) a.
Proof. apply C_eq; simpl; ring. Qed.
Lemma Cnorm2_mul a b : Cnorm2 (Cmul a b) = Cnorm2 a * Cnorm2 b.
Proof. unfold Cnorm2; simpl; ring. Qed.
Lemma Cnorm2_conj a : Cnorm2 (Cconj a) = Cnorm2 a.
Proof. unfold Cnorm2; simpl; ring. Qed.
Lemma Cnorm2_nonneg a : 0 <= Cnorm2 a.
Proof. unfold Cnorm2. nra. Qed.
Lemma Cmul_conj a : Cmul a (Cconj a) = RtoC (Cnorm2 a).
Proof. apply C_eq; unfold Cnorm2; simpl; ring. Qed.

Lemma cis_add s t : cis (s + t) = Cmul (cis s) (cis t).
Proof.
  apply C_eq; simpl; [rewrite cos_plus|rewrite sin_plus]; ring.
Qed.
Lemma cis_0 : cis 0 = Cone.
Proof. apply C_eq; simpl; [apply cos_0|apply sin_0]. Qed.
Lemma cis_opp t : cis (- t) = Cconj (cis t).
Proof. apply C_eq; simpl; [apply cos_neg|apply sin_neg]. Qed.
Lemma Cnorm2_cis t : Cnorm2 (cis t) = 1.
Proof.
  unfold Cnorm2, cis; simpl. pose proof (sin2_cos2 t) as H. unfold Rsqr in H. lra.
Qed.

Lemma cos_2PI_IZR (t : R) (n : Z) : cos (t + 2 * PI * IZR n) = cos t.
Proof.
  destruct (Z_le_gt_dec 0 n) as [Hn|Hn].
  - rewrite <- (Z2Nat.id n Hn), <- INR_IZR_INZ.
    replace (t + 2 * PI * INR (Z.to_nat n)) with (t + 2 * INR (Z.to_nat n) * PI) by ring.
    apply cos_period.
  - set (t' := t + 2 * PI * IZR n).
    replace t with (t' + 2 * INR (Z.to_nat (- n)) * PI).
    + symmetry. apply cos_period.
    + unfold t'. rewrite INR_IZR_INZ, Z2Nat.id by lia. rewrite opp_IZR. ring.
Qed.
Lemma sin_2PI_IZR (t : R) (n : Z) : sin (t + 2 * PI * IZR n) = sin t.
Proof.
  destruct (Z_le_gt_dec 0 n) as [Hn|Hn].
  - rewrite <- (Z2Nat.id n Hn), <- INR_IZR_INZ.
    replace (t + 2 * PI * INR (Z.to_nat n)) with (t + 2 * INR (Z.to_nat n) * PI) by ring.
    apply sin_period.
  - set (t' := t + 2 * PI * IZR n).
    replace t with (t' + 2 * INR (Z.to_nat (- n)) * PI).
    + symmetry. apply sin_period.
    + unfold t'. rewrite INR_IZR_INZ, Z2Nat.id by lia. rewrite opp_IZR. ring.
Qed.
Lemma cis_period t n : cis (t + 2 * PI * IZR n) = cis t.
Proof. apply C_eq; simpl; [apply cos_2PI_IZR|apply sin_2PI_IZR]. Qed.
