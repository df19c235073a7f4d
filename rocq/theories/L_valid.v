(** Lemmas for the constructors (C19, C52). *)
From Coq Require Import String.
From Verif Require Import Base M_qpts M_valid S_valid.
Open Scope Z_scope.

Lemma zeqb_spec a : forall b, zeqb a b = true <-> a = b.
Proof.
  induction a as [|x a IH]; intros [|y b]; cbn [zeqb]; try (split; congruence). rewrite andb_true_iff, Z.eqb_eq, IH. split; [intros [-> ->]; reflexivity|intros E; split; congruence].
Qed.
Lemma F2_eq (a b : list Z) : Forall2 eq a b <-> a = b.
Proof. split; [induction 1; congruence|intros ->; induction b; constructor; [reflexivity|assumption]]. Qed.
Lemma F2_length {A B} (Q : A -> B -> Prop) l m : Forall2 Q l m -> length l = length m.
Proof. induction 1; cbn; congruence. Qed.
Lemma matches_ok e : forall s, zeqb s (replace_dim e s) = true <-> matches e s.
Proof.
  intros s. rewrite zeqb_spec. unfold replace_dim, matches.
  destruct (existsb (fun x => x =? -1) e) eqn:X; cbn [negb orb].
  - destruct (Nat.eqb_spec (length e) (length s)) as [L|L]; cbn [negb].
    + clear X. revert s L. induction e as [|p e IH]; intros [|d s] L; cbn in L; try lia; [split; [constructor|reflexivity]|]. cbn [combine map fst snd].
      injection L as L. specialize (IH s L). split.
      * intros E. assert (E1 : d = (if p =? -1 then d else p)) by congruence. assert (E2 : s = map (fun q => if fst q =? -1 then snd q else fst q) (combine e s)) by congruence.
        constructor; [destruct (Z.eqb_spec p (-1)); [left; assumption|right; congruence]|apply IH; exact E2].
      * intros F. inversion F as [|? ? ? ? H1 H2]; subst. f_equal; [destruct (Z.eqb_spec p (-1)); [reflexivity|destruct H1; congruence]|apply IH; exact H2].
    + split; [intros ->; congruence|]. intros F. apply F2_length in F. congruence.
  - assert (N : forall p, In p e -> p <> -1).
    { intros p I E. assert (T : existsb (fun x => x =? -1) e = true) by (apply existsb_exists; exists p; split; [exact I|apply Z.eqb_eq; exact E]). congruence. }
    split.
    + intros ->. clear. induction e; constructor; [right; reflexivity|assumption].
    + intros F. symmetry. apply F2_eq. clear X. induction F as [|p d e s H F IH]; constructor; [destruct H as [H|H]; [exfalso; apply (N p); [left; reflexivity|exact H]|exact H]|apply IH; intros q I; apply N; right; exact I].
Qed.

Section Fits.
Context {U : Type}.
Lemma isinstance_ok (o : obj U) k : isinstance o k = true <-> has_class o k.
Proof. destruct o, k; cbn; split; intros; try congruence; try contradiction; reflexivity. Qed.
Lemma types_ok (c : @check U) : existsb (isinstance (c_obj c)) (c_types c) = true <-> right_class c.
Proof. rewrite existsb_exists. unfold right_class. split; intros (k & I & E); exists k; (split; [exact I|apply isinstance_ok; exact E]). Qed.
Lemma shaped_ok (o : obj U) s : shape_of o = Some s <-> shaped o s.
Proof. destruct o as [t|[t|] u| | | | |]; cbn; split; intros; try congruence; try contradiction. Qed.
Lemma shapes_ok (ss : list (list Z)) s : existsb (fun e => zeqb s (replace_dim e s)) ss = true <-> exists p, In p ss /\ matches p s.
Proof. rewrite existsb_exists. split; intros (k & I & E); exists k; (split; [exact I|apply matches_ok; exact E]). Qed.
Lemma check_cons (c : @check U) cs :
  (right_class c -> right_shape c -> check_inputs (c :: cs) = check_inputs cs) /\
  (~ right_class c -> check_inputs (c :: cs) = Err (BadType (c_name c))) /\
  (right_class c -> ~ right_shape c -> check_inputs (c :: cs) = Err (BadShape (c_name c))).
Proof.
  cbn [check_inputs]. pose proof (types_ok c) as T. destruct (existsb (isinstance (c_obj c)) (c_types c)) eqn:E; cbn [negb].
  2:{ split; [|split]; [intros R; apply T in R; congruence|intros _; reflexivity|intros R; apply T in R; congruence]. }
  split; [|split]; [|intros R; exfalso; apply R, T; reflexivity|]; intros _.
  - intros S. destruct (shape_of (c_obj c)) as [s|] eqn:Q; [|reflexivity]. destruct (c_shapes c) as [|p ps] eqn:Q2; [reflexivity|]. apply shaped_ok in Q. unfold right_shape in S. rewrite Q2 in S. specialize (S s Q ltac:(discriminate)).
    rewrite (proj2 (shapes_ok (p :: ps) s) S). reflexivity.
  - intros S. destruct (shape_of (c_obj c)) as [s|] eqn:Q.
    2:{ exfalso. apply S. intros s Hs. apply shaped_ok in Hs. congruence. }
    destruct (c_shapes c) as [|p ps] eqn:Q2.
    { exfalso. apply S. intros s' Hs N. congruence. }
    destruct (existsb (fun e => zeqb s (replace_dim e s)) (p :: ps)) eqn:X; [|reflexivity]. exfalso. apply S. intros s' Hs N. apply shaped_ok in Hs. rewrite Q2. assert (s' = s) by congruence. subst s'. apply shapes_ok. exact X.
Qed.
Lemma right_dec (c : @check U) : (right_class c \/ ~ right_class c) /\ (right_shape c \/ ~ right_shape c).
Proof.
  split.
  - destruct (existsb (isinstance (c_obj c)) (c_types c)) eqn:E; [left; apply types_ok; exact E|right; intros R; apply types_ok in R; congruence].
  - destruct (shape_of (c_obj c)) as [s|] eqn:Q; [|left; intros s Hs; apply shaped_ok in Hs; congruence]. destruct (c_shapes c) as [|p ps] eqn:Q2; [left; intros s' _ N; congruence|].
    destruct (existsb (fun e => zeqb s (replace_dim e s)) (p :: ps)) eqn:X.
    + left. intros s' Hs N. apply shaped_ok in Hs. rewrite Q2. assert (s' = s) by congruence. subst s'. apply shapes_ok. exact X.
    + right. intros S. apply shaped_ok in Q. unfold right_shape in S. rewrite Q2 in S. specialize (S s Q ltac:(discriminate)). apply shapes_ok in S. congruence.
Qed.
Lemma check_ok cs : check_inputs cs = Ok tt <-> Forall (fun c : @check U => right_class c /\ right_shape c) cs.
Proof.
  induction cs as [|c cs IH]; [split; [constructor|reflexivity]|]. destruct (check_cons c cs) as (A & B & D). destruct (right_dec c) as [[R|R] [S|S]].
  - rewrite (A R S), IH. split; [intros F; constructor; [split; assumption|exact F]|intros F; inversion F; assumption].
  - rewrite (D R S). split; [discriminate|intros F; inversion F as [|? ? [? ?] ?]; contradiction].
  - rewrite (B R). split; [discriminate|intros F; inversion F as [|? ? [? ?] ?]; contradiction].
  - rewrite (B R). split; [discriminate|intros F; inversion F as [|? ? [? ?] ?]; contradiction].
Qed.
Lemma check_first cs e : check_inputs cs = Err e -> exists pre c post, cs = pre ++ c :: post /\ Forall (fun c : @check U => right_class c /\ right_shape c) pre /\
  ((~ right_class c /\ e = BadType (c_name c)) \/ (right_class c /\ ~ right_shape c /\ e = BadShape (c_name c))).
Proof.
  induction cs as [|c cs IH]; [discriminate|]. destruct (check_cons c cs) as (A & B & D). destruct (right_dec c) as [[R|R] [S|S]].
  - rewrite (A R S). intros E. destruct (IH E) as (pre & c' & post & -> & F & G). exists (c :: pre), c', post. split; [reflexivity|]. split; [constructor; [split; assumption|exact F]|exact G].
  - rewrite (D R S). intros E. exists [], c, cs. split; [reflexivity|]. split; [constructor|]. right. split; [exact R|]. split; [exact S|]. congruence.
  - rewrite (B R). intros E. exists [], c, cs. split; [reflexivity|]. split; [constructor|]. left. split; [exact R|]. congruence.
  - rewrite (B R). intros E. exists [], c, cs. split; [reflexivity|]. split; [constructor|]. left. split; [exact R|]. congruence.
Qed.
Lemma check_cons_ok (c : @check U) cs : check_inputs (c :: cs) = Ok tt <-> (right_class c /\ right_shape c) /\ check_inputs cs = Ok tt.
Proof. rewrite !check_ok. split; [intros F; inversion F; split; assumption|intros [A B]; constructor; assumption]. Qed.
Lemma check_nil_ok : @check_inputs U [] = Ok tt <-> True.
Proof. split; [tauto|reflexivity]. Qed.
Lemma andthen_ok {A B} (x : res A verr) (f : A -> res B verr) b : andthen x f = Ok b <-> exists a, x = Ok a /\ f a = Ok b.
Proof. unfold andthen. destruct x; split; [intros E; eexists; split; [reflexivity|exact E]|intros (a' & E1 & E2); congruence|discriminate|intros (a' & E1 & _); discriminate]. Qed.
Lemma andthen_unit {B} (x : res unit verr) (f : unit -> res B verr) b : andthen x f = Ok b <-> x = Ok tt /\ f tt = Ok b.
Proof. rewrite andthen_ok. split; [intros ([] & H); exact H|intros H; exists tt; exact H]. Qed.
Ltac rs := intros s Hs; cbn in Hs; try contradiction; subst.
Lemma entry_any k (o : obj U) n : right_class (chk o [k] [] n) /\ right_shape (chk o [k] [] n) <-> has_class o k.
Proof. split; [intros ((k' & [<-|[]] & H) & _); exact H|intros H; split; [exists k; split; [left; reflexivity|exact H]|intros s _ N; cbn in N; congruence]]. Qed.
Lemma entry_any2 k l (o : obj U) n : right_class (chk o [k; l] [] n) /\ right_shape (chk o [k; l] [] n) <-> has_class o k \/ has_class o l.
Proof. split; [intros ((k' & [<-|[<-|[]]] & H) & _); [left|right]; exact H|intros [H|H]; (split; [|intros s _ N; cbn in N; congruence]); [exists k|exists l]; (split; [cbn; tauto|exact H])]. Qed.
Lemma entry_qty ss (o : obj U) n : ss <> [] -> right_class (chk o [KQuantity] ss n) /\ right_shape (chk o [KQuantity] ss n) <->
  exists u, o = Qty None u \/ exists s p, o = Qty (Some s) u /\ In p ss /\ matches p s.
Proof.
  intros NE. split.
  - intros ((k & [<-|[]] & H) & S). cbn in H. destruct o as [t|s u| | | | |]; try discriminate H; try contradiction. exists u. destruct s as [s|]; [|left; reflexivity]. right. destruct (S s eq_refl NE) as (p & I & M). exists s, p. repeat split; assumption.
  - intros (u & [->|(s & p & -> & I & M)]); (split; [exists KQuantity; split; [left; reflexivity|reflexivity]|]).
    + intros s [].
    + intros s' Hs _. cbn in Hs. subst s'. exists p. split; assumption.
Qed.
Lemma entry_arr p (o : obj U) n : right_class (chk o [KArray] [p] n) /\ right_shape (chk o [KArray] [p] n) <-> exists s, o = Arr s /\ matches p s.
Proof.
  split.
  - intros ((k & [<-|[]] & H) & S). cbn in H. destruct o as [t|s u| | | | |]; try discriminate H; try contradiction. destruct (S t eq_refl ltac:(discriminate)) as (q & [<-|[]] & M). exists t. split; [reflexivity|exact M].
  - intros (s & -> & M). split; [exists KArray; split; [left; reflexivity|reflexivity]|]. intros s' Hs _. cbn in Hs. subst s'. exists p. split; [left; reflexivity|exact M].
Qed.
Lemma entry_arr_none p (o : obj U) n : right_class (chk o [KArray; KNone] [p] n) /\ right_shape (chk o [KArray; KNone] [p] n) <-> o = Non \/ exists s, o = Arr s /\ matches p s.
Proof.
  split.
  - intros ((k & I & H) & S). cbn in H. destruct o as [t|s u| | | | |]; try (left; reflexivity); try contradiction; cbn in H; subst k; try (destruct I as [I|[I|[]]]; discriminate I). right. destruct (S t eq_refl ltac:(discriminate)) as (q & [<-|[]] & M). exists t. split; [reflexivity|exact M].
  - intros [->|(s & -> & M)].
    + split; [exists KNone; split; [right; left; reflexivity|reflexivity]|]. intros s' [].
    + split; [exists KArray; split; [left; reflexivity|reflexivity]|]. intros s' Hs _. cbn in Hs. subst s'. exists p. split; [left; reflexivity|exact M].
Qed.
Lemma entry_qty_none p (o : obj U) n : right_class (chk o [KQuantity; KNone] [p] n) /\ right_shape (chk o [KQuantity; KNone] [p] n) <->
  o = Non \/ exists u, o = Qty None u \/ exists s, o = Qty (Some s) u /\ matches p s.
Proof.
  split.
  - intros ((k & I & H) & S). cbn in H. destruct o as [t|[s|] u| | | | |]; try (left; reflexivity); try contradiction; cbn in H; subst k; try (destruct I as [I|[I|[]]]; discriminate I); right; exists u; [|left; reflexivity].
    right. destruct (S s eq_refl ltac:(discriminate)) as (q & [<-|[]] & M). exists s. split; [reflexivity|exact M].
  - intros [->|(u & [->|(s & -> & M)])].
    + split; [exists KNone; split; [right; left; reflexivity|reflexivity]|]. intros s' [].
    + split; [exists KQuantity; split; [left; reflexivity|reflexivity]|]. intros s' [].
    + split; [exists KQuantity; split; [left; reflexivity|reflexivity]|]. intros s' Hs _. cbn in Hs. subst s'. exists p. split; [left; reflexivity|exact M].
Qed.
End Fits.

(** Patterns without and with -1 *)
Lemma matches_exact p s : (forall x, In x p -> x <> -1) -> matches p s -> s = p.
Proof. intros N F. symmetry. apply F2_eq. induction F as [|x d p s H F IH]; constructor; [destruct H as [H|H]; [exfalso; apply (N x); [left; reflexivity|exact H]|exact H]|apply IH; intros q I; apply N; right; exact I]. Qed.
Lemma matches_refl p : matches p p.
Proof. induction p; constructor; [right; reflexivity|assumption]. Qed.
Lemma matches_exact_iff p s : (forall x, In x p -> x <> -1) -> (matches p s <-> s = p).
Proof. intros N. split; [apply matches_exact; exact N|intros ->; apply matches_refl]. Qed.
