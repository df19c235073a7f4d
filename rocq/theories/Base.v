(** Shared vocabulary: finite sums of reals over lists, results with
    exceptions, small list facts.  Nothing here models /repo code. *)
From Coq Require Export Reals List Lia Lra ZArith Permutation Bool Arith.
Export ListNotations.
Open Scope R_scope.

(** Exceptions as values. *)
Inductive res (A E : Type) : Type := Ok (a : A) | Err (e : E).
Arguments Ok {A E} a.
Arguments Err {A E} e.

(** Sum of a list of reals. *)
Definition Rsum (l : list R) : R := fold_right Rplus 0 l.

(** Sum of [f x] over the elements [x] of a list. *)
Definition Sum {A} (l : list A) (f : A -> R) : R := Rsum (map f l).

Lemma Rsum_nil : Rsum [] = 0.
Proof. reflexivity. Qed.

Lemma Rsum_cons x l : Rsum (x :: l) = x + Rsum l.
Proof. reflexivity. Qed.

Lemma Rsum_app l1 l2 : Rsum (l1 ++ l2) = Rsum l1 + Rsum l2.
Proof.
  induction l1 as [|x l1 IH]; simpl; [lra|]. rewrite IH. lra.
Qed.

Lemma Rsum_perm l1 l2 : Permutation l1 l2 -> Rsum l1 = Rsum l2.
Proof.
  induction 1; simpl; try lra.
Qed.

Lemma Sum_nil {A} (f : A -> R) : Sum [] f = 0.
Proof. reflexivity. Qed.

Lemma Sum_cons {A} x l (f : A -> R) : Sum (x :: l) f = f x + Sum l f.
Proof. reflexivity. Qed.

Lemma Sum_app {A} l1 l2 (f : A -> R) : Sum (l1 ++ l2) f = Sum l1 f + Sum l2 f.
Proof. unfold Sum. rewrite map_app. apply Rsum_app. Qed.

Lemma Sum_perm {A} l1 l2 (f : A -> R) :
  Permutation l1 l2 -> Sum l1 f = Sum l2 f.
Proof. intros H. apply Rsum_perm. apply Permutation_map. exact H. Qed.

Lemma Sum_ext {A} l (f g : A -> R) :
  (forall x, In x l -> f x = g x) -> Sum l f = Sum l g.
Proof.
  induction l as [|a l IH]; intros H; [reflexivity|].
  rewrite !Sum_cons. rewrite (H a) by (left; reflexivity).
  rewrite IH; [reflexivity|]. intros x Hx. apply H. right; exact Hx.
Qed.

Lemma Sum_plus {A} l (f g : A -> R) :
  Sum l (fun x => f x + g x) = Sum l f + Sum l g.
Proof.
  induction l as [|a l IH]; [rewrite !Sum_nil; lra|].
  rewrite !Sum_cons, IH. lra.
Qed.

Lemma Sum_minus {A} l (f g : A -> R) :
  Sum l (fun x => f x - g x) = Sum l f - Sum l g.
Proof.
  induction l as [|a l IH]; [rewrite !Sum_nil; lra|].
  rewrite !Sum_cons, IH. lra.
Qed.

Lemma Sum_scal {A} l (c : R) (f : A -> R) :
  Sum l (fun x => c * f x) = c * Sum l f.
Proof.
  induction l as [|a l IH]; [rewrite !Sum_nil; lra|].
  rewrite !Sum_cons, IH. lra.
Qed.

Lemma Sum_scal_r {A} l (c : R) (f : A -> R) :
  Sum l (fun x => f x * c) = Sum l f * c.
Proof.
  induction l as [|a l IH]; [rewrite !Sum_nil; lra|].
  rewrite !Sum_cons, IH. lra.
Qed.

Lemma Sum_opp {A} l (f : A -> R) : Sum l (fun x => - f x) = - Sum l f.
Proof.
  induction l as [|a l IH]; [rewrite !Sum_nil; lra|].
  rewrite !Sum_cons, IH. lra.
Qed.

Lemma Sum_zero {A} (l : list A) : Sum l (fun _ => 0) = 0.
Proof.
  induction l as [|a l IH]; [reflexivity|]. rewrite Sum_cons, IH. lra.
Qed.

Lemma Sum_zero_ext {A} (l : list A) f :
  (forall x, In x l -> f x = 0) -> Sum l f = 0.
Proof. intros H. rewrite (Sum_ext l f (fun _ => 0) H). apply Sum_zero. Qed.

Lemma Sum_const {A} (l : list A) c : Sum l (fun _ => c) = INR (length l) * c.
Proof.
  induction l as [|a l IH]; [rewrite Sum_nil; simpl; lra|].
  rewrite Sum_cons, IH. cbn [length]. rewrite S_INR. lra.
Qed.

Lemma Sum_exchange {A B} (la : list A) (lb : list B) (f : A -> B -> R) :
  Sum la (fun a => Sum lb (fun b => f a b))
  = Sum lb (fun b => Sum la (fun a => f a b)).
Proof.
  induction la as [|a la IH].
  - rewrite Sum_nil. symmetry. apply Sum_zero_ext. intros; apply Sum_nil.
  - rewrite Sum_cons, IH, <- Sum_plus. apply Sum_ext. intros b _.
    rewrite Sum_cons. reflexivity.
Qed.

Lemma Sum_nonneg {A} (l : list A) f :
  (forall x, In x l -> 0 <= f x) -> 0 <= Sum l f.
Proof.
  induction l as [|a l IH]; intros H; [rewrite Sum_nil; lra|].
  rewrite Sum_cons.
  assert (0 <= f a) by (apply H; left; reflexivity).
  assert (0 <= Sum l f) by (apply IH; intros x Hx; apply H; right; exact Hx).
  lra.
Qed.

Lemma Sum_le {A} (l : list A) f g :
  (forall x, In x l -> f x <= g x) -> Sum l f <= Sum l g.
Proof.
  induction l as [|a l IH]; intros H; [rewrite !Sum_nil; lra|].
  rewrite !Sum_cons.
  assert (f a <= g a) by (apply H; left; reflexivity).
  assert (Sum l f <= Sum l g) by (apply IH; intros x Hx; apply H; right; exact Hx).
  lra.
Qed.

Lemma Sum_map {A B} (h : A -> B) l (f : B -> R) :
  Sum (map h l) f = Sum l (fun x => f (h x)).
Proof. unfold Sum. rewrite map_map. reflexivity. Qed.

Lemma Sum_flat_map {A B} (h : A -> list B) l (f : B -> R) :
  Sum (flat_map h l) f = Sum l (fun x => Sum (h x) f).
Proof.
  induction l as [|a l IH]; [reflexivity|].
  cbn [flat_map]. rewrite Sum_app, Sum_cons, IH. reflexivity.
Qed.

Lemma Sum_filter {A} (p : A -> bool) l (f : A -> R) :
  Sum (filter p l) f = Sum l (fun x => if p x then f x else 0).
Proof.
  induction l as [|a l IH]; [reflexivity|].
  cbn [filter]. rewrite Sum_cons. destruct (p a).
  - rewrite Sum_cons, IH. reflexivity.
  - rewrite IH. lra.
Qed.

(** Sum over the index range 0..n-1. *)
Definition sumn (n : nat) (f : nat -> R) : R := Sum (seq 0 n) f.

Lemma sumn_ext n f g : (forall i, (i < n)%nat -> f i = g i) -> sumn n f = sumn n g.
Proof.
  intros H. apply Sum_ext. intros i Hi. apply H. apply in_seq in Hi. lia.
Qed.

Lemma sumn_S n f : sumn (S n) f = sumn n f + f n.
Proof.
  unfold sumn. replace (S n) with (n + 1)%nat by lia.
  rewrite seq_app, Sum_app. cbn [seq]. rewrite Sum_cons, Sum_nil. simpl. lra.
Qed.

Lemma sumn_delta n k (f : nat -> R) :
  (k < n)%nat -> sumn n (fun i => if Nat.eqb i k then f i else 0) = f k.
Proof.
  induction n as [|n IH]; intros Hk; [lia|].
  rewrite sumn_S. destruct (Nat.eq_dec k n) as [->|Hne].
  - rewrite Nat.eqb_refl.
    rewrite (sumn_ext n _ (fun _ => 0)).
    + unfold sumn. rewrite Sum_zero. lra.
    + intros i Hi. destruct (Nat.eqb_spec i n); [lia|reflexivity].
  - rewrite IH by lia. destruct (Nat.eqb_spec n k); [lia|lra].
Qed.

(** Boolean comparisons on reals (total, from decidability of R order). *)
Definition Rltb (x y : R) : bool := if Rlt_dec x y then true else false.
Definition Rleb (x y : R) : bool := if Rle_dec x y then true else false.
Definition Reqb (x y : R) : bool := if Req_EM_T x y then true else false.

Lemma Rltb_spec x y : reflect (x < y) (Rltb x y).
Proof. unfold Rltb. destruct (Rlt_dec x y); constructor; assumption. Qed.
Lemma Rleb_spec x y : reflect (x <= y) (Rleb x y).
Proof. unfold Rleb. destruct (Rle_dec x y); constructor; assumption. Qed.
Lemma Reqb_spec x y : reflect (x = y) (Reqb x y).
Proof. unfold Reqb. destruct (Req_EM_T x y); constructor; assumption. Qed.

Lemma Rltb_true x y : x < y -> Rltb x y = true.
Proof. intros H. destruct (Rltb_spec x y); [reflexivity|contradiction]. Qed.
Lemma Rltb_false x y : y <= x -> Rltb x y = false.
Proof. intros H. destruct (Rltb_spec x y); [lra|reflexivity]. Qed.
Lemma Rleb_true x y : x <= y -> Rleb x y = true.
Proof. intros H. destruct (Rleb_spec x y); [reflexivity|contradiction]. Qed.
Lemma Rleb_false x y : y < x -> Rleb x y = false.
Proof. intros H. destruct (Rleb_spec x y); [lra|reflexivity]. Qed.

(** List facts. *)
Lemma NoDup_map_inj {A B} (f : A -> B) l :
  (forall x y, In x l -> In y l -> f x = f y -> x = y) ->
  NoDup l -> NoDup (map f l).
Proof.
  induction l as [|a l IH]; intros Hinj Hnd; [constructor|].
  inversion Hnd as [|? ? Hni Hnd']; subst. cbn [map]. constructor.
  - intros Hin. apply in_map_iff in Hin. destruct Hin as [y [Hy Hiny]].
    apply Hni. rewrite (Hinj a y); [exact Hiny|left; reflexivity|right; exact Hiny|congruence].
  - apply IH; [|exact Hnd'].
    intros x y Hx Hy. apply Hinj; right; assumption.
Qed.

Lemma NoDup_app_intro {A} (l1 l2 : list A) :
  NoDup l1 -> NoDup l2 -> (forall x, In x l1 -> ~ In x l2) -> NoDup (l1 ++ l2).
Proof.
  induction l1 as [|a l1 IH]; intros H1 H2 Hd; [exact H2|].
  inversion H1 as [|? ? Hni Hnd]; subst. cbn [app]. constructor.
  - rewrite in_app_iff. intros [H|H]; [contradiction|].
    apply (Hd a); [left; reflexivity|exact H].
  - apply IH; [exact Hnd|exact H2|]. intros x Hx. apply Hd. right; exact Hx.
Qed.

Lemma NoDup_flat_map {A B} (f : A -> list B) l :
  NoDup l -> (forall x, In x l -> NoDup (f x)) ->
  (forall x y z, In x l -> In y l -> In z (f x) -> In z (f y) -> x = y) ->
  NoDup (flat_map f l).
Proof.
  induction l as [|a l IH]; intros Hnd Hf Hdis; [constructor|].
  inversion Hnd as [|? ? Hni Hnd']; subst. cbn [flat_map].
  apply NoDup_app_intro.
  - apply Hf. left; reflexivity.
  - apply IH; [exact Hnd'| |].
    + intros x Hx. apply Hf. right; exact Hx.
    + intros x y z Hx Hy. apply Hdis; right; assumption.
  - intros z Hz Hin. apply in_flat_map in Hin. destruct Hin as [y [Hy Hzy]].
    assert (a = y) as ->.
    { apply (Hdis a y z); [left; reflexivity|right; exact Hy|exact Hz|exact Hzy]. }
    contradiction.
Qed.

Lemma length_flat_map_const {A B} (f : A -> list B) l k :
  (forall x, In x l -> length (f x) = k) -> length (flat_map f l) = (length l * k)%nat.
Proof.
  induction l as [|a l IH]; intros H; [reflexivity|].
  cbn [flat_map length]. rewrite app_length, IH.
  - rewrite H by (left; reflexivity). lia.
  - intros x Hx. apply H. right; exact Hx.
Qed.

Lemma map_nth_indep {A B} (f : A -> B) l i da db :
  (i < length l)%nat -> nth i (map f l) db = f (nth i l da).
Proof.
  intros H. rewrite (nth_indep _ db (f da)) by (rewrite map_length; exact H).
  apply map_nth.
Qed.

Lemma nth_seq_id n i d : (i < n)%nat -> nth i (seq 0 n) d = i.
Proof. intros H. rewrite seq_nth by exact H. reflexivity. Qed.

Lemma skipn_skipn' {A} (x y : nat) (l : list A) : skipn x (skipn y l) = skipn (y + x) l.
Proof.
  revert l. induction y as [|y IH]; intros l; [reflexivity|].
  destruct l as [|a l]; [rewrite !skipn_nil; reflexivity|]. cbn [skipn Nat.add]. apply IH.
Qed.
