(** Lemmas on reordering modes by greedy matching of overlaps. *)
From Verif Require Import Base L_util Cpx Vec3 M_qpts L_qpts M_path M_dos L_dos L_conv M_sf L_sf L_sf2 M_reorder S_reorder.
Open Scope R_scope.

(** ** argmax2 *)
Lemma argmax_fold (d : nat -> nat -> R) l best :
  let r := fold_left (fun best mp => if Rltb (d (fst best) (snd best)) (d (fst mp) (snd mp)) then mp else best) l best in
  (r = best \/ In r l) /\ d (fst best) (snd best) <= d (fst r) (snd r) /\ forall x, In x l -> d (fst x) (snd x) <= d (fst r) (snd r).
Proof.
  revert best. induction l as [|x l IH]; intros best; cbn [fold_left].
  - split; [left; reflexivity|]. split; [lra|intros x []].
  - destruct (Rltb_spec (d (fst best) (snd best)) (d (fst x) (snd x))) as [L|L].
    + destruct (IH x) as [A [B Cc]]. cbv zeta. split; [destruct A as [A|A]; [right; left; symmetry; exact A|right; right; exact A]|].
      split; [lra|]. intros y [<-|Hy]; [exact B|apply Cc; exact Hy].
    + destruct (IH best) as [A [B Cc]]. cbv zeta. split; [destruct A as [A|A]; [left; exact A|right; right; exact A]|].
      split; [exact B|]. intros y [<-|Hy]; [lra|apply Cc; exact Hy].
Qed.
Lemma argmax2_spec n d : (0 < n)%nat -> let mp := argmax2 n d in
  (fst mp < n)%nat /\ (snd mp < n)%nat /\ forall m p, (m < n)%nat -> (p < n)%nat -> d m p <= d (fst mp) (snd mp).
Proof.
  intros Hn. cbv zeta. unfold argmax2. destruct (argmax_fold d (list_prod (seq 0 n) (seq 0 n)) (0%nat, 0%nat)) as [A [_ B]].
  set (r := fold_left _ _ _) in *. destruct r as [rm rp]. cbn [fst snd].
  assert (H : (rm < n)%nat /\ (rp < n)%nat).
  { destruct A as [A|A]; [injection A as -> ->; lia|]. apply in_prod_iff in A. destruct A as [A1 A2]. apply in_seq in A1, A2. lia. }
  split; [tauto|]. split; [tauto|]. intros m p Hm Hp. apply (B (m, p)). apply in_prod; apply in_seq; lia.
Qed.

(** ** the picks *)
Definition zeroed (d : nat -> nat -> R) (rows cols : list nat) : nat -> nat -> R :=
  fun m p => if (existsb (Nat.eqb m) rows || existsb (Nat.eqb p) cols)%bool then 0 else d m p.
Lemma existsb_in x l : existsb (Nat.eqb x) l = true <-> In x l.
Proof.
  rewrite existsb_exists. split; [intros [y [H E]]; apply Nat.eqb_eq in E; subst; exact H|]. intros H. exists x. split; [exact H|apply Nat.eqb_refl].
Qed.
Lemma existsb_nin x l : existsb (Nat.eqb x) l = false <-> ~ In x l.
Proof. rewrite <- existsb_in. destruct (existsb _ _); split; congruence. Qed.

Lemma strike_zeroed d rows cols m p m' p' : strike (zeroed d rows cols) m p m' p' = zeroed d (m :: rows) (p :: cols) m' p'.
Proof.
  unfold strike, zeroed. cbn [existsb]. destruct (Nat.eqb m' m), (Nat.eqb p' p), (existsb (Nat.eqb m') rows), (existsb (Nat.eqb p') cols); reflexivity.
Qed.
Lemma argmax2_ext n d d' : (forall m p, d m p = d' m p) -> argmax2 n d = argmax2 n d'.
Proof.
  intros H. unfold argmax2. generalize (0%nat, 0%nat) as b. induction (list_prod (seq 0 n) (seq 0 n)) as [|x l IH]; intros b; [reflexivity|].
  cbn [fold_left]. rewrite !H. apply IH.
Qed.
Lemma greedy_ext j n pm : forall d d' cm, (forall m p, d m p = d' m p) -> greedy j n d pm cm = greedy j n d' pm cm.
Proof.
  induction j as [|j IH]; intros d d' cm H; [reflexivity|]. cbn [greedy]. rewrite (argmax2_ext n d d' H). destruct (argmax2 n d') as [m p].
  destruct (where_eq pm p); [reflexivity|]. apply IH. intros m' p'. unfold strike. rewrite H. reflexivity.
Qed.

Definition block_positive (n : nat) (d : nat -> nat -> R) : Prop :=
  forall rows cols, NoDup rows -> NoDup cols -> length rows = length cols -> (length rows < n)%nat ->
    exists m p, (m < n)%nat /\ (p < n)%nat /\ ~ In m rows /\ ~ In p cols /\ 0 < d m p.

(** The position of p in a permutation. *)
Lemma where_eq_perm n pm p : Permutation pm (seq 0 n) -> (p < n)%nat ->
  exists i, (i < n)%nat /\ nth i pm 0%nat = p /\ where_eq pm p = [i].
Proof.
  intros P Hp. assert (L : length pm = n) by (rewrite (Permutation_length P), seq_length; reflexivity).
  assert (I : In p pm) by (apply (Permutation_in _ (Permutation_sym P)); apply in_seq; lia).
  destruct (In_nth _ _ 0%nat I) as [i [Hi E]]. exists i. split; [lia|]. split; [exact E|].
  apply where_eq_unique; [exact Hi|exact E|]. intros j Hj Ej.
  apply (proj1 (NoDup_nth pm 0%nat)); [apply (Permutation_NoDup (Permutation_sym P)); apply seq_NoDup|exact Hj|exact Hi|congruence].
Qed.

Lemma greedy_picks n d pm : Permutation pm (seq 0 n) -> (forall m p, 0 <= d m p) -> block_positive n d ->
  forall j rows cols cm, (j + length rows = n)%nat -> length rows = length cols -> NoDup rows -> NoDup cols ->
  length cm = n -> (forall i, (i < n)%nat -> In (nth i pm 0%nat) cols -> exists m, In m rows /\ nth i cm 0%nat = m) ->
  (forall x, In x rows -> (x < n)%nat) -> (forall x, In x cols -> (x < n)%nat) ->
  (forall i i', (i < n)%nat -> (i' < n)%nat -> In (nth i pm 0%nat) cols -> In (nth i' pm 0%nat) cols -> nth i cm 0%nat = nth i' cm 0%nat -> i = i') ->
  exists r, greedy j n (zeroed d rows cols) pm cm = Ok r /\ Permutation r (seq 0 n).
Proof.
  intros P Hd Hb. induction j as [|j IH]; intros rows cols cm Hj Hl Hr Hc Hcm Hin Hrn Hcn Hinj.
  - exists cm. split; [reflexivity|].
    assert (Call : forall i, (i < n)%nat -> In (nth i pm 0%nat) cols).
    { assert (S : incl (seq 0 n) cols).
      { apply (NoDup_length_incl Hc); [rewrite seq_length; lia|]. intros x Hx. apply in_seq. split; [lia|]. apply Hcn in Hx. lia. }
      intros i Hi. apply S. apply (Permutation_in _ P). apply nth_In. rewrite (Permutation_length P), seq_length. exact Hi. }
    assert (ND : NoDup cm).
    { apply (NoDup_nth cm 0%nat). intros i i' Hi Hi' E. rewrite Hcm in Hi, Hi'. apply Hinj; auto. }
    apply NoDup_Permutation_bis; [exact ND|rewrite seq_length; lia|].
    intros x Hx. destruct (In_nth _ _ 0%nat Hx) as [i [Hi E]]. destruct (Hin i ltac:(lia) (Call i ltac:(lia))) as [m [Hm Em]].
    apply in_seq. split; [lia|]. rewrite <- E, Em. apply Hrn in Hm. lia.
  - cbn [greedy]. destruct (argmax2_spec n (zeroed d rows cols) ltac:(lia)) as [M1 [M2 M3]]. destruct (argmax2 n (zeroed d rows cols)) as [m p].
    cbn [fst snd] in *. destruct (where_eq_perm n pm p P M2) as [idx [Hidx [Eidx ->]]].
    assert (Pos : 0 < zeroed d rows cols m p).
    { destruct (Hb rows cols Hr Hc Hl ltac:(lia)) as [m0 [p0 [A1 [A2 [A3 [A4 A5]]]]]]. specialize (M3 m0 p0 A1 A2).
      unfold zeroed in M3 at 1. apply existsb_nin in A3, A4. rewrite A3, A4 in M3. cbn [orb] in M3. lra. }
    assert (Nm : ~ In m rows /\ ~ In p cols).
    { unfold zeroed in Pos. destruct (existsb (Nat.eqb m) rows) eqn:E1; [cbn in Pos; lra|]. destruct (existsb (Nat.eqb p) cols) eqn:E2; [cbn in Pos; lra|].
      split; apply existsb_nin; assumption. }
    destruct Nm as [Nm Np].
    rewrite (greedy_ext j n pm _ (zeroed d (m :: rows) (p :: cols))) by (intros; apply strike_zeroed).
    apply IH; [cbn [length]; lia|cbn [length]; lia|constructor; assumption|constructor; assumption|rewrite length_set_nth; exact Hcm| | | |].
    + intros i Hi Hp. rewrite nth_set_nth by lia. destruct (Nat.eqb_spec idx i) as [->|N].
      * exists m. split; [left; reflexivity|reflexivity].
      * destruct Hp as [Hp|Hp]; [exfalso; apply N|].
        -- apply (proj1 (NoDup_nth pm 0%nat)); [apply (Permutation_NoDup (Permutation_sym P)); apply seq_NoDup| | |congruence];
           rewrite (Permutation_length P), seq_length; assumption.
        -- destruct (Hin i Hi Hp) as [m' [A B]]. exists m'. split; [right; exact A|exact B].
    + intros x [<-|Hx]; [exact M1|apply Hrn; exact Hx].
    + intros x [<-|Hx]; [exact M2|apply Hcn; exact Hx].
    + assert (NI : forall i, (i < n)%nat -> idx <> i -> In (nth i pm 0%nat) (p :: cols) -> In (nth i pm 0%nat) cols).
      { intros i Hi N [Hp|Hp]; [|exact Hp]. exfalso. apply N.
        apply (proj1 (NoDup_nth pm 0%nat)); [apply (Permutation_NoDup (Permutation_sym P)); apply seq_NoDup| | |congruence];
        rewrite (Permutation_length P), seq_length; assumption. }
      intros i i' Hi Hi' Hp Hp' E. rewrite !nth_set_nth in E by lia.
      destruct (Nat.eqb_spec idx i) as [E1|N1], (Nat.eqb_spec idx i') as [E2|N2].
      * congruence.
      * exfalso. destruct (Hin i' Hi' (NI i' Hi' N2 Hp')) as [m' [A B]]. apply Nm. rewrite E, B. exact A.
      * exfalso. destruct (Hin i Hi (NI i Hi N1 Hp)) as [m' [A B]]. apply Nm. rewrite <- E, B. exact A.
      * apply Hinj; auto.
Qed.

Lemma greedy_perm n d pm : Permutation pm (seq 0 n) -> (forall m p, 0 <= d m p) -> block_positive n d ->
  exists r, greedy n n d pm (repeat 0%nat n) = Ok r /\ Permutation r (seq 0 n).
Proof.
  intros P Hd Hb. destruct (greedy_picks n d pm P Hd Hb n [] [] (repeat 0%nat n)) as [r [E Pr]];
    try (cbn; lia); try constructor; try (apply repeat_length); try (intros; cbn in *; contradiction).
  exists r. split; [|exact Pr]. rewrite <- E. apply greedy_ext. reflexivity.
Qed.

Lemma free_column n (cols : list nat) : (length cols < n)%nat -> exists p0, (p0 < n)%nat /\ ~ In p0 cols.
Proof.
  intros H. destruct (existsb (fun p => negb (existsb (Nat.eqb p) cols)) (seq 0 n)) eqn:E.
  - apply existsb_exists in E. destruct E as [p [I N]]. apply in_seq in I. exists p. split; [lia|]. apply existsb_nin. apply negb_true_iff. exact N.
  - exfalso. assert (S : incl (seq 0 n) cols).
    { intros x Hx. destruct (existsb (Nat.eqb x) cols) eqn:Z; [apply existsb_in; exact Z|]. exfalso.
      assert (T : existsb (fun p => negb (existsb (Nat.eqb p) cols)) (seq 0 n) = true) by (apply existsb_exists; exists x; rewrite Z; split; [exact Hx|reflexivity]).
      congruence. }
    pose proof (NoDup_incl_length (seq_NoDup n 0) S) as L. rewrite seq_length in L. lia.
Qed.

(** Matching along a permutation pi that dominates every column. *)
Lemma greedy_follows n d pm (pi : nat -> nat) : Permutation pm (seq 0 n) -> (forall m p, 0 <= d m p) ->
  Permutation (map pi (seq 0 n)) (seq 0 n) ->
  (forall m p, (m < n)%nat -> (p < n)%nat -> m <> pi p -> d m p < d (pi p) p) ->
  (forall p, (p < n)%nat -> 0 < d (pi p) p) ->
  forall j cols cm, (j + length cols = n)%nat -> NoDup cols -> length cm = n -> (forall x, In x cols -> (x < n)%nat) ->
  (forall i, (i < n)%nat -> In (nth i pm 0%nat) cols -> nth i cm 0%nat = pi (nth i pm 0%nat)) ->
  exists r, greedy j n (zeroed d (map pi cols) cols) pm cm = Ok r /\ length r = n /\ forall i, (i < n)%nat -> nth i r 0%nat = pi (nth i pm 0%nat).
Proof.
  intros P Hd Hpi Hdom Hpos. destruct (perm_inj n pi Hpi) as [I1 [I2 _]].
  induction j as [|j IH]; intros cols cm Hj Hc Hcm Hcn Hin.
  - exists cm. split; [reflexivity|]. split; [exact Hcm|]. intros i Hi. apply Hin; [exact Hi|].
    assert (S : incl (seq 0 n) cols).
    { apply (NoDup_length_incl Hc); [rewrite seq_length; lia|]. intros x Hx. apply in_seq. split; [lia|]. apply Hcn in Hx. lia. }
    apply S. apply (Permutation_in _ P). apply nth_In. rewrite (Permutation_length P), seq_length. exact Hi.
  - cbn [greedy]. destruct (argmax2_spec n (zeroed d (map pi cols) cols) ltac:(lia)) as [M1 [M2 M3]].
    destruct (argmax2 n (zeroed d (map pi cols) cols)) as [m p]. cbn [fst snd] in *.
    destruct (where_eq_perm n pm p P M2) as [idx [Hidx [Eidx ->]]].
    assert (Free : forall p0, (p0 < n)%nat -> ~ In p0 cols -> zeroed d (map pi cols) cols (pi p0) p0 = d (pi p0) p0).
    { intros p0 H0 N0. unfold zeroed. rewrite (proj2 (existsb_nin p0 cols) N0).
      assert (N1 : ~ In (pi p0) (map pi cols)).
      { intros H. apply in_map_iff in H. destruct H as [x [Ex Hx]]. apply I1 in Ex; [subst; contradiction|apply Hcn; exact Hx|exact H0]. }
      rewrite (proj2 (existsb_nin _ _) N1). reflexivity. }
    assert (Ex : exists p0, (p0 < n)%nat /\ ~ In p0 cols).
    { destruct (free_column n cols) as [p0 H0]; [lia|]. exists p0. exact H0. }
    assert (Pos : 0 < zeroed d (map pi cols) cols m p).
    { destruct Ex as [p0 [A B]]. specialize (M3 (pi p0) p0 (I2 p0 A) A). rewrite (Free p0 A B) in M3. specialize (Hpos p0 A). lra. }
    assert (Nm : ~ In p cols /\ zeroed d (map pi cols) cols m p = d m p).
    { unfold zeroed in *. destruct (existsb (Nat.eqb m) (map pi cols)); [cbn in Pos; lra|]. destruct (existsb (Nat.eqb p) cols) eqn:E2; [cbn in Pos; lra|].
      split; [apply existsb_nin; exact E2|reflexivity]. }
    destruct Nm as [Np Ev].
    assert (Em : m = pi p).
    { destruct (Nat.eq_dec m (pi p)) as [E|N]; [exact E|]. exfalso. specialize (M3 (pi p) p (I2 p M2) M2). rewrite (Free p M2 Np), Ev in M3.
      specialize (Hdom m p M1 M2 N). lra. }
    rewrite (greedy_ext j n pm _ (zeroed d (map pi (p :: cols)) (p :: cols))) by (intros; rewrite strike_zeroed; cbn [map]; rewrite Em; reflexivity).
    apply IH; [cbn [length]; lia|constructor; assumption|rewrite length_set_nth; exact Hcm| |].
    + intros x [<-|Hx]; [exact M2|apply Hcn; exact Hx].
    + intros i Hi Hp. rewrite nth_set_nth by lia. destruct (Nat.eqb_spec idx i) as [E|N].
      * rewrite <- E, Eidx. exact Em.
      * destruct Hp as [Hp|Hp]; [|apply Hin; assumption]. exfalso. apply N.
        apply (proj1 (NoDup_nth pm 0%nat)); [apply (Permutation_NoDup (Permutation_sym P)); apply seq_NoDup| | |congruence];
        rewrite (Permutation_length P), seq_length; assumption.
Qed.
