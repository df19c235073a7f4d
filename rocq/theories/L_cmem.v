(** Lemmas: loops over flat memory. *)
From Verif Require Import Base Cpx Vec3 M_cext.
Open Scope R_scope.

Lemma for_ext {S} lo hi (F G : nat -> S -> S) s :
  (forall k s, (lo <= k < hi)%nat -> F k s = G k s) -> for_ lo hi F s = for_ lo hi G s.
Proof.
  unfold for_. intros H.
  assert (H' : forall k s, In k (seq lo (hi - lo)) -> F k s = G k s).
  { intros k s' Hk. apply in_seq in Hk. apply H. lia. }
  clear H. revert s H'. induction (seq lo (hi - lo)) as [|k l IH]; intros s H'; [reflexivity|].
  cbn [fold_left]. rewrite (H' k s) by (left; reflexivity). apply IH.
  intros; apply H'; right; assumption.
Qed.

Lemma for_end {S} lo hi (F : nat -> S -> S) s : (hi <= lo)%nat -> for_ lo hi F s = s.
Proof. intros H. unfold for_. replace (hi - lo)%nat with 0%nat by lia. reflexivity. Qed.

Lemma for_last {S} lo hi (F : nat -> S -> S) s : (lo <= hi)%nat ->
  for_ lo (Datatypes.S hi) F s = F hi (for_ lo hi F s).
Proof.
  intros H. unfold for_. replace (Datatypes.S hi - lo)%nat with ((hi - lo) + 1)%nat by lia.
  rewrite seq_app, fold_left_app. cbn [seq fold_left]. f_equal. lia.
Qed.

Lemma for_first {S} lo hi (F : nat -> S -> S) s : (lo < hi)%nat ->
  for_ lo hi F s = for_ (Datatypes.S lo) hi F (F lo s).
Proof.
  intros H. unfold for_. replace (hi - lo)%nat with (Datatypes.S (hi - Datatypes.S lo)) by lia.
  reflexivity.
Qed.

Lemma for_ind {S} (P : nat -> S -> Prop) lo hi (F : nat -> S -> S) s : (lo <= hi)%nat ->
  P lo s -> (forall k s, (lo <= k < hi)%nat -> P k s -> P (Datatypes.S k) (F k s)) ->
  P hi (for_ lo hi F s).
Proof.
  intros Hle H0 Hs. induction Hle as [|hi Hle IH]; [rewrite for_end by lia; exact H0|].
  rewrite for_last by lia. apply Hs; [lia|]. apply IH. intros; apply Hs; [lia|assumption].
Qed.

Lemma for_pair {S T} lo hi (B : nat -> S * T -> S * T) (F : nat -> S -> S) (G : nat -> T -> T) s :
  (forall k s, (lo <= k < hi)%nat -> B k s = (F k (fst s), G k (snd s))) ->
  for_ lo hi B s = (for_ lo hi F (fst s), for_ lo hi G (snd s)).
Proof.
  intros H. destruct (Nat.le_gt_cases hi lo) as [L|L].
  { rewrite !for_end by exact L. destruct s; reflexivity. }
  apply (for_ind (fun k r => r = (for_ lo k F (fst s), for_ lo k G (snd s))) lo hi B s); [lia| |].
  - rewrite !for_end by lia. destruct s; reflexivity.
  - intros k r Hk ->. rewrite H by exact Hk. cbn [fst snd]. rewrite !for_last by lia. reflexivity.
Qed.

(** ** additive loops *)
Definition adds (F : mem -> mem) (g : nat -> R) : Prop := forall m x, F m x = m x + g x.
Definition delta (k : nat) (v : R) (x : nat) : R := if Nat.eqb x k then v else 0.

Lemma adds_madd k v : adds (fun m => madd m k v) (delta k v).
Proof.
  intros m x. unfold madd, mset, delta. destruct (Nat.eqb_spec x k) as [->|]; ring.
Qed.
Lemma adds_comp F G f g : adds F f -> adds G g -> adds (fun m => F (G m)) (fun x => f x + g x).
Proof. intros HF HG m x. rewrite HF, HG. ring. Qed.
Lemma adds_madd2 i u j v : adds (fun m => madd (madd m i u) j v) (fun x => delta i u x + delta j v x).
Proof.
  intros m x. rewrite (adds_madd j v (madd m i u) x), (adds_madd i u m x). ring.
Qed.
Lemma for_adds lo hi F g : (forall k, (lo <= k < hi)%nat -> adds (F k) (g k)) ->
  adds (for_ lo hi F) (fun x => Sum (seq lo (hi - lo)) (fun k => g k x)).
Proof.
  intros H m x. unfold for_.
  assert (H' : forall k, In k (seq lo (hi - lo)) -> adds (F k) (g k)).
  { intros k Hk. apply in_seq in Hk. apply H. lia. }
  clear H. revert m H'. induction (seq lo (hi - lo)) as [|k l IH]; intros m H'.
  - cbn [fold_left]. rewrite Sum_nil. ring.
  - cbn [fold_left]. rewrite IH by (intros; apply H'; right; assumption).
    rewrite (H' k) by (left; reflexivity). rewrite Sum_cons. ring.
Qed.
Lemma adds_ext F g h : adds F g -> (forall x, g x = h x) -> adds F h.
Proof. intros H E m x. rewrite H, E. reflexivity. Qed.

(** Scalars. *)
Lemma for_sum lo hi (f : nat -> R) s : for_ lo hi (fun k s => s + f k) s
  = s + Sum (seq lo (hi - lo)) f.
Proof.
  unfold for_. revert s. induction (seq lo (hi - lo)) as [|k l IH]; intros s.
  - cbn [fold_left]. rewrite Sum_nil. ring.
  - cbn [fold_left]. rewrite IH, Sum_cons. ring.
Qed.

(** Loops with a running pointer: position [P k] on entry to iteration [k]. *)
Lemma for_ptr lo hi (B : nat -> mem * nat -> mem * nat) (g : nat -> nat -> nat -> R) (P : nat -> nat) m :
  (lo <= hi)%nat ->
  (forall k m, (lo <= k < hi)%nat ->
     snd (B k (m, P k)) = P (S k) /\ forall x, fst (B k (m, P k)) x = m x + g k (P k) x) ->
  snd (for_ lo hi B (m, P lo)) = P hi /\
  forall x, fst (for_ lo hi B (m, P lo)) x = m x + Sum (seq lo (hi - lo)) (fun k => g k (P k) x).
Proof.
  intros Hle H.
  apply (for_ind (fun k r => snd r = P k /\
           forall x, fst r x = m x + Sum (seq lo (k - lo)) (fun k => g k (P k) x)) lo hi B (m, P lo) Hle).
  - split; [reflexivity|]. intros x. rewrite Nat.sub_diag. cbn [seq fst]. rewrite Sum_nil. ring.
  - intros k [m' p'] Hk [Hp Hm]. cbn [fst snd] in Hp, Hm. subst p'.
    destruct (H k m' Hk) as [H1 H2]. split; [exact H1|]. intros x. rewrite H2, Hm.
    replace (S k - lo)%nat with ((k - lo) + 1)%nat by lia.
    rewrite seq_app, Sum_app. cbn [seq]. rewrite Sum_cons, Sum_nil.
    replace (lo + (k - lo))%nat with k by lia. ring.
Qed.

(** Loops whose iterations own disjoint cells. *)
Lemma for_local lo hi (F : nat -> mem -> mem) (own : nat -> nat -> Prop) (h : nat -> mem -> nat -> R) :
  (forall k m x, (lo <= k < hi)%nat -> own k x -> F k m x = h k m x) ->
  (forall k m x, (lo <= k < hi)%nat -> ~ own k x -> F k m x = m x) ->
  (forall k m m' x, (lo <= k < hi)%nat -> own k x -> (forall y, own k y -> m y = m' y) -> h k m x = h k m' x) ->
  (forall k k' x, (lo <= k < hi)%nat -> (lo <= k' < hi)%nat -> own k x -> own k' x -> k = k') ->
  forall m, (forall k x, (lo <= k < hi)%nat -> own k x -> for_ lo hi F m x = h k m x) /\
            (forall x, (forall k, (lo <= k < hi)%nat -> ~ own k x) -> for_ lo hi F m x = m x).
Proof.
  intros Hown Hout Hdep Hdis m.
  destruct (Nat.le_gt_cases hi lo) as [L|L].
  { split; [intros; lia|]. intros x _. rewrite for_end by exact L. reflexivity. }
  assert (H : forall x, (forall k, (lo <= k < hi)%nat -> own k x -> for_ lo hi F m x = h k m x) /\
            ((forall k, (lo <= k < hi)%nat -> ~ own k x) -> for_ lo hi F m x = m x)).
  2:{ split; [intros k x Hk; apply (proj1 (H x)); exact Hk|]. intros x Hx. apply (proj2 (H x)); exact Hx. }
  pose proof (for_ind (fun j r => forall x,
      (forall k, (lo <= k < j)%nat -> own k x -> r x = h k m x) /\
      ((forall k, (lo <= k < j)%nat -> ~ own k x) -> r x = m x)) lo hi F m) as I.
  apply I; [lia| |].
  - intros x. split; [intros; lia|reflexivity].
  - intros j r Hj IH x. split.
    + intros k Hk Ho. destruct (Nat.eq_dec k j) as [->|Hne].
      * rewrite (Hown j) by (assumption || lia). apply Hdep; [exact Hj|exact Ho|].
        intros y Hy. apply (proj2 (IH y)). intros k' Hk' Ho'.
        assert (k' = j) by (apply (Hdis k' j y); try assumption; lia). lia.
      * rewrite Hout; [apply (proj1 (IH x)); [lia|exact Ho]|exact Hj|].
        intros Hoj. apply Hne. apply (Hdis k j x); try assumption; lia.
    + intros Hno. rewrite Hout by (try exact Hj; apply Hno; lia).
      apply (proj2 (IH x)). intros; apply Hno; lia.
Qed.

(** ** sums with one non-zero term *)
Lemma Sum_single {A} (l : list A) (f : A -> R) x0 : NoDup l -> In x0 l ->
  (forall x, In x l -> x <> x0 -> f x = 0) -> Sum l f = f x0.
Proof.
  induction l as [|a l IH]; intros Hnd Hin H0; [contradiction|].
  inversion Hnd as [|? ? Hni Hnd']; subst. rewrite Sum_cons. destruct Hin as [->|Hin].
  - rewrite (Sum_zero_ext l f); [ring|]. intros x Hx. apply H0; [right; exact Hx|].
    intros ->. contradiction.
  - rewrite (IH Hnd' Hin) by (intros; apply H0; [right|]; assumption).
    rewrite (H0 a); [ring|left; reflexivity|]. intros ->. contradiction.
Qed.

(** Row-major number of component (i, a), (j, b) of a (3n, 3n) matrix. *)
Definition lin (n i j a b : nat) : nat := ((3 * i + a) * (3 * n) + (3 * j + b))%nat.

Lemma lin_inj n i j a b i' j' a' b' :
  (j < n)%nat -> (j' < n)%nat -> (a < 3)%nat -> (a' < 3)%nat -> (b < 3)%nat -> (b' < 3)%nat ->
  lin n i j a b = lin n i' j' a' b' -> i = i' /\ j = j' /\ a = a' /\ b = b'.
Proof.
  unfold lin. intros Hj Hj' Ha Ha' Hb Hb' E.
  assert (Hr : (3 * j + b < 3 * n)%nat) by lia. assert (Hr' : (3 * j' + b' < 3 * n)%nat) by lia.
  assert (3 * i + a = 3 * i' + a' /\ 3 * j + b = 3 * j' + b')%nat as [E1 E2].
  { rewrite (Nat.mul_comm _ (3 * n)), (Nat.mul_comm (3 * i' + a') (3 * n)) in E.
    apply Nat.div_mod_unique in E; [lia|lia|lia]. }
  lia.
Qed.

Lemma lin_lt n i j a b : (i < n)%nat -> (j < n)%nat -> (a < 3)%nat -> (b < 3)%nat ->
  (lin n i j a b < 9 * n * n)%nat.
Proof. unfold lin. nia. Qed.

Lemma cidx_lin n i j a b : cidx n i j a b = (2 * lin n i j a b)%nat.
Proof. unfold cidx, lin. ring. Qed.

(** Loops over the blocks of the upper triangle, with extra inner iterations [L]. *)
Lemma eval_upper {T} n (L : list T) (g : nat -> nat -> T -> nat -> nat -> nat -> R) x y i0 j0 a0 b0 :
  (i0 <= j0)%nat -> (j0 < n)%nat -> (a0 < 3)%nat -> (b0 < 3)%nat -> y = lin n i0 j0 a0 b0 ->
  (forall i j t a b, lin n i j a b <> y -> g i j t a b x = 0) ->
  Sum (seq 0 (n - 0)) (fun i => Sum (seq i (n - i)) (fun j => Sum L (fun t =>
    Sum (seq 0 (3 - 0)) (fun a => Sum (seq 0 (3 - 0)) (fun b => g i j t a b x)))))
  = Sum L (fun t => g i0 j0 t a0 b0 x).
Proof.
  intros Hij Hj Ha Hb -> H0.
  rewrite (Sum_single _ _ i0); [|apply seq_NoDup|apply in_seq; lia|].
  2:{ intros i Hi Hne. apply Sum_zero_ext. intros j Hjj. apply in_seq in Hi, Hjj.
      apply Sum_zero_ext. intros t _. apply Sum_zero_ext. intros a Haa. apply Sum_zero_ext.
      intros b Hbb. apply in_seq in Haa, Hbb. apply H0. intros E.
      apply lin_inj in E; lia. }
  rewrite (Sum_single _ _ j0); [|apply seq_NoDup|apply in_seq; lia|].
  2:{ intros j Hjj Hne. apply in_seq in Hjj.
      apply Sum_zero_ext. intros t _. apply Sum_zero_ext. intros a Haa. apply Sum_zero_ext.
      intros b Hbb. apply in_seq in Haa, Hbb. apply H0. intros E.
      apply lin_inj in E; lia. }
  apply Sum_ext. intros t _.
  rewrite (Sum_single _ _ a0); [|apply seq_NoDup|apply in_seq; lia|].
  2:{ intros a Haa Hne. apply Sum_zero_ext.
      intros b Hbb. apply in_seq in Haa, Hbb. apply H0. intros E. apply lin_inj in E; lia. }
  rewrite (Sum_single _ _ b0); [reflexivity|apply seq_NoDup|apply in_seq; lia|].
  intros b Hbb Hne. apply in_seq in Hbb. apply H0. intros E. apply lin_inj in E; lia.
Qed.

Lemma eval_upper1 n (g : nat -> nat -> nat -> nat -> nat -> R) x y i0 j0 a0 b0 :
  (i0 <= j0)%nat -> (j0 < n)%nat -> (a0 < 3)%nat -> (b0 < 3)%nat -> y = lin n i0 j0 a0 b0 ->
  (forall i j a b, lin n i j a b <> y -> g i j a b x = 0) ->
  Sum (seq 0 (n - 0)) (fun i => Sum (seq i (n - i)) (fun j =>
    Sum (seq 0 (3 - 0)) (fun a => Sum (seq 0 (3 - 0)) (fun b => g i j a b x))))
  = g i0 j0 a0 b0 x.
Proof.
  intros Hij Hj Ha Hb Ey H0.
  pose proof (eval_upper n [tt] (fun i j _ => g i j) x y i0 j0 a0 b0 Hij Hj Ha Hb Ey
                (fun i j _ => H0 i j)) as E.
  rewrite Sum_cons, Sum_nil, Rplus_0_r in E. rewrite <- E.
  apply Sum_ext. intros i _. apply Sum_ext. intros j _. rewrite Sum_cons, Sum_nil. ring.
Qed.

Lemma delta2_at k u v c : (c < 2)%nat ->
  delta (2 * k) u (2 * k + c) + delta (2 * k + 1) v (2 * k + c) = if Nat.eqb c 0 then u else v.
Proof.
  intros H. unfold delta. destruct c as [|[|c]]; [| |lia].
  - destruct (Nat.eqb_spec (2 * k + 0) (2 * k)); [|lia].
    destruct (Nat.eqb_spec (2 * k + 0) (2 * k + 1)); [lia|]. cbn. ring.
  - destruct (Nat.eqb_spec (2 * k + 1) (2 * k)); [lia|].
    destruct (Nat.eqb_spec (2 * k + 1) (2 * k + 1)); [|lia]. cbn. ring.
Qed.
Lemma delta2_off k u v y c : (c < 2)%nat -> k <> y ->
  delta (2 * k) u (2 * y + c) + delta (2 * k + 1) v (2 * y + c) = 0.
Proof.
  intros H Hne. unfold delta.
  destruct (Nat.eqb_spec (2 * y + c) (2 * k)); [lia|].
  destruct (Nat.eqb_spec (2 * y + c) (2 * k + 1)); [lia|]. ring.
Qed.

(** ** element-wise library loops *)
Lemma add_arrays_at size a m x : add_arrays size a m x = if Nat.ltb x size then m x + a x else m x.
Proof.
  unfold add_arrays.
  rewrite (for_adds 0 size _ (fun i => delta i (a i)) (fun i _ => adds_madd i (a i)) m x).
  rewrite Nat.sub_0_r. destruct (Nat.ltb_spec x size) as [L|L].
  - rewrite (Sum_single _ _ x); [|apply seq_NoDup|apply in_seq; lia|].
    + unfold delta. rewrite Nat.eqb_refl. reflexivity.
    + intros k _ Hne. unfold delta. destruct (Nat.eqb_spec x k); [congruence|reflexivity].
  - rewrite Sum_zero_ext; [ring|]. intros k Hk. apply in_seq in Hk. unfold delta.
    destruct (Nat.eqb_spec x k); [lia|reflexivity].
Qed.

Lemma multiply_array_at size s m x :
  multiply_array size s m x = if Nat.ltb x size then m x * s else m x.
Proof.
  unfold multiply_array.
  destruct (for_local 0 size (fun i m => mset m i (m i * s)) (fun k x => x = k) (fun k m x => m x * s)) with (m := m)
    as [H1 H2].
  - intros k m' y _ ->. unfold mset. rewrite Nat.eqb_refl. reflexivity.
  - intros k m' y _ Hne. unfold mset. destruct (Nat.eqb_spec y k); [contradiction|reflexivity].
  - intros k m1 m2 y _ -> E. rewrite (E k eq_refl). reflexivity.
  - intros k k' y _ _ -> ->. reflexivity.
  - destruct (Nat.ltb_spec x size) as [L|L].
    + apply (H1 x); [lia|reflexivity].
    + apply H2. intros k Hk ->. lia.
Qed.

(** The same over an arbitrary list of iterations that may also read cells no
    iteration writes. *)
Lemma fold_local {E} (step : mem -> E -> mem) (own : E -> nat -> Prop) (h : E -> mem -> nat -> R) l :
  NoDup l ->
  (forall e m x, In e l -> own e x -> step m e x = h e m x) ->
  (forall e m x, In e l -> ~ own e x -> step m e x = m x) ->
  (forall e m m' x, In e l -> own e x ->
     (forall y, (own e y \/ forall e', In e' l -> ~ own e' y) -> m y = m' y) -> h e m x = h e m' x) ->
  (forall e e' x, In e l -> In e' l -> own e x -> own e' x -> e = e') ->
  forall m x, (forall e, In e l -> own e x -> fold_left step l m x = h e m x) /\
              ((forall e, In e l -> ~ own e x) -> fold_left step l m x = m x).
Proof.
  intros Hnd Hown Hout Hdep Hdis m.
  assert (G : forall l1 l2, l = l1 ++ l2 -> forall x,
     (forall e, In e l1 -> own e x -> fold_left step l1 m x = h e m x) /\
     ((forall e, In e l1 -> ~ own e x) -> fold_left step l1 m x = m x)).
  2:{ intros x. apply (G l []). rewrite app_nil_r. reflexivity. }
  intros l1. induction l1 as [|e0 l1 IH] using rev_ind; intros l2 El x.
  - split; [intros e []|reflexivity].
  - rewrite <- app_assoc in El. specialize (IH ([e0] ++ l2) El).
    assert (Hin0 : In e0 l) by (rewrite El; apply in_or_app; right; left; reflexivity).
    assert (Hsub : forall e, In e l1 -> In e l) by (intros; rewrite El; apply in_or_app; left; assumption).
    assert (Hni : ~ In e0 l1).
    { rewrite El in Hnd. apply NoDup_remove_2 in Hnd. intros Hx. apply Hnd. apply in_or_app. left. exact Hx. }
    rewrite fold_left_app. cbn [fold_left]. split.
    + intros e He Ho. apply in_app_or in He. destruct He as [He|[<-|[]]].
      * rewrite Hout; [apply (proj1 (IH x)); assumption|exact Hin0|].
        intros H0. assert (e = e0) by (apply (Hdis e e0 x); auto). subst e. contradiction.
      * rewrite (Hown e0) by assumption. apply Hdep; [exact Hin0|exact Ho|].
        intros y Hy. apply (proj2 (IH y)). intros e' He' Ho'. destruct Hy as [Hy|Hy].
        -- assert (e' = e0) by (apply (Hdis e' e0 y); auto). subst e'. contradiction.
        -- exact (Hy e' (Hsub e' He') Ho').
    + intros Hno. rewrite Hout; [apply (proj2 (IH x)); intros e He; apply Hno; apply in_or_app; left; exact He|exact Hin0|].
      apply Hno. apply in_or_app. right. left. reflexivity.
Qed.

Lemma for_flat {E S} lo hi (g : nat -> list E) (step : S -> E -> S) (B : nat -> S -> S) s :
  (forall k s, (lo <= k < hi)%nat -> B k s = fold_left step (g k) s) ->
  for_ (S := S) lo hi B s = fold_left step (flat_map g (seq lo (hi - lo))) s.
Proof.
  intros H. rewrite (for_ext lo hi B (fun k s => fold_left step (g k) s) s H). unfold for_. clear H.
  revert s. induction (seq lo (hi - lo)) as [|k l IH]; intros s; [reflexivity|].
  cbn [fold_left flat_map]. rewrite fold_left_app. apply IH.
Qed.
