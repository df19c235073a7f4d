(** Proofs about insert_gamma. *)
From Verif Require Import Base Vec3 M_qpts S_qpts L_qpts.

Definition doubled {A} (p : nat -> bool) (f : nat -> A) (n : nat) : list A :=
  concat (map (fun i => if p i then [f i; f i] else [f i]) (seq 0 n)).

Lemma filter_combine_map {A} (idx : list nat) (f : nat -> A) i :
  NoDup idx ->
  map snd (filter (fun p : nat * A => Nat.eqb (fst p) i) (combine idx (map f idx)))
  = if in_dec Nat.eq_dec i idx then [f i] else [].
Proof.
  induction idx as [|k idx IH]; intros Hnd.
  - reflexivity.
  - inversion Hnd as [|? ? Hni Hnd']; subst. cbn [map combine filter fst].
    specialize (IH Hnd'). destruct (Nat.eqb_spec k i) as [->|Hne].
    + cbn [map snd]. rewrite IH. destruct (in_dec Nat.eq_dec i idx); [contradiction|].
      destruct (in_dec Nat.eq_dec i (i :: idx)) as [|Hn]; [reflexivity|].
      exfalso. apply Hn. left. reflexivity.
    + rewrite IH. destruct (in_dec Nat.eq_dec i idx) as [Hi|Hi],
        (in_dec Nat.eq_dec i (k :: idx)) as [Hk|Hk]; try reflexivity.
      * exfalso. apply Hk. right. exact Hi.
      * exfalso. destruct Hk as [Hk|Hk]; congruence.
Qed.

Lemma combine_seq_nth {A} (l : list A) d s :
  combine (seq s (length l)) l = map (fun i => (i, nth (i - s) l d)) (seq s (length l)).
Proof.
  revert s. induction l as [|x l IH]; intros s; [reflexivity|].
  cbn [length seq combine map]. rewrite Nat.sub_diag. cbn [nth]. f_equal.
  rewrite IH. apply map_ext_in. intros i Hi. apply in_seq in Hi.
  replace (i - s)%nat with (S (i - S s)) by lia. reflexivity.
Qed.

Lemma np_insert_doubled {A} (l : list A) idx d (p : nat -> bool) :
  NoDup idx -> (forall i, In i idx <-> (i < length l)%nat /\ p i = true) ->
  np_insert l idx (fancy l idx d) = doubled p (fun i => nth i l d) (length l).
Proof.
  intros Hnd Hin. unfold np_insert, fancy, doubled.
  rewrite (combine_seq_nth l d 0), map_map. cbn [fst snd].
  rewrite filter_combine_map by exact Hnd.
  destruct (in_dec Nat.eq_dec (length l) idx) as [H|_].
  { apply Hin in H. lia. }
  rewrite app_nil_r. f_equal. apply map_ext_in. intros i Hi. apply in_seq in Hi.
  rewrite filter_combine_map by exact Hnd. rewrite Nat.sub_0_r.
  destruct (in_dec Nat.eq_dec i idx) as [H|H].
  - apply Hin in H. destruct H as [_ ->]. reflexivity.
  - destruct (p i) eqn:E; [|reflexivity]. exfalso. apply H. apply Hin. split; [lia|exact E].
Qed.

Lemma split_gamma_NoDup qpts : NoDup (split_gamma qpts).
Proof. apply NoDup_filter, NoDup_where_true. Qed.

Lemma in_split_gamma qpts i :
  In i (split_gamma qpts) <-> (i < length qpts)%nat /\ interior_gamma qpts i = true.
Proof.
  unfold split_gamma, interior_gamma. rewrite filter_In, in_where_true, map_length.
  split.
  - intros [[H1 H2] H3]. split; [exact H1|]. rewrite H3.
    rewrite (map_nth_indep _ _ _ vzero) in H2 by exact H1. exact H2.
  - intros [H1 H2]. apply andb_true_iff in H2. destruct H2 as [H2 H3].
    rewrite (map_nth_indep _ _ _ vzero) by exact H1. repeat split; assumption.
Qed.

Lemma insert_qpts_doubled qpts :
  insert_gamma_qpts qpts
  = doubled (interior_gamma qpts) (fun i => nth i qpts vzero) (length qpts).
Proof.
  unfold insert_gamma_qpts. apply np_insert_doubled.
  - apply split_gamma_NoDup.
  - apply in_split_gamma.
Qed.

Lemma scatter_self_map {A} (h : A -> A) (w : list A) idx i d :
  NoDup idx -> (forall k, In k idx -> (k < length w)%nat) ->
  nth i (scatter w idx (map h (fancy w idx d))) d
  = if in_dec Nat.eq_dec i idx then h (nth i w d) else nth i w d.
Proof.
  intros Hnd Hlt. destruct (in_dec Nat.eq_dec i idx) as [Hi|Hi].
  - apply (In_nth _ _ 0%nat) in Hi. destruct Hi as [j [Hj1 Hj2]]. rewrite <- Hj2.
    rewrite nth_scatter_in; try assumption.
    + rewrite (map_nth_indep _ _ _ d) by (unfold fancy; rewrite map_length; exact Hj1).
      f_equal. unfold fancy. rewrite (map_nth_indep _ _ _ 0%nat) by exact Hj1. reflexivity.
    + unfold fancy. rewrite !map_length. exact Hj1.
  - apply nth_scatter_notin. exact Hi.
Qed.

Lemma insert_weights_doubled {A} (h : A -> A) (d : A) qpts (w : list A) :
  length w = length qpts ->
  let sg := split_gamma qpts in
  let w' := scatter w sg (map h (fancy w sg d)) in
  np_insert w' sg (fancy w' sg d)
  = concat (map (fun i => if interior_gamma qpts i
                          then [h (nth i w d); h (nth i w d)] else [nth i w d])
                (seq 0 (length qpts))).
Proof.
  intros Hl sg w'.
  assert (Hw'l : length w' = length qpts) by (unfold w'; rewrite scatter_length; exact Hl).
  rewrite (np_insert_doubled w' sg d (interior_gamma qpts)).
  - unfold doubled. rewrite Hw'l. f_equal. apply map_ext_in. intros i Hi. apply in_seq in Hi.
    unfold w'. rewrite scatter_self_map.
    + destruct (in_dec Nat.eq_dec i sg) as [H|H].
      * apply in_split_gamma in H. destruct H as [_ ->]. reflexivity.
      * destruct (interior_gamma qpts i) eqn:E; [|reflexivity].
        exfalso. apply H. apply in_split_gamma. split; [lia|exact E].
    + apply split_gamma_NoDup.
    + intros k Hk. apply in_split_gamma in Hk. rewrite Hl. apply Hk.
  - apply split_gamma_NoDup.
  - intros i. rewrite Hw'l. apply in_split_gamma.
Qed.

Lemma insert_float_weights qpts w : length w = length qpts ->
  insert_gamma_weights qpts (WFloat w)
  = WFloat (concat (map (fun i => if interior_gamma qpts i
                          then [nth i w 0 / 2; nth i w 0 / 2] else [nth i w 0])
                (seq 0 (length qpts)))).
Proof.
  intros Hl. unfold insert_gamma_weights. f_equal.
  apply (insert_weights_doubled (fun x => x / 2) 0 qpts w Hl).
Qed.

Lemma insert_int_weights qpts w : length w = length qpts ->
  insert_gamma_weights qpts (WInt w)
  = WInt (concat (map (fun i => if interior_gamma qpts i
                          then [trunc_half (nth i w 0%Z); trunc_half (nth i w 0%Z)]
                          else [nth i w 0%Z])
                (seq 0 (length qpts)))).
Proof.
  intros Hl. unfold insert_gamma_weights. f_equal.
  apply (insert_weights_doubled trunc_half 0%Z qpts w Hl).
Qed.

Lemma Rsum_concat_map {A} (f : A -> list R) l : Rsum (concat (map f l)) = Sum l (fun x => Rsum (f x)).
Proof.
  induction l as [|x l IH]; [reflexivity|]. cbn [map concat].
  rewrite Rsum_app, Sum_cons, IH. reflexivity.
Qed.

Lemma Sum_nth (l : list R) : Sum (seq 0 (length l)) (fun i => nth i l 0) = Rsum l.
Proof.
  induction l as [|x l IH]; [reflexivity|]. cbn [length seq]. rewrite Sum_cons. cbn [nth].
  rewrite <- seq_shift, Sum_map. cbn [nth]. rewrite IH. reflexivity.
Qed.

Lemma insert_float_weights_sum qpts w : length w = length qpts ->
  Rsum (final_weights (length (insert_gamma_qpts qpts))
          (Some (insert_gamma_weights qpts (WFloat w)))) = Rsum w.
Proof.
  intros Hl. rewrite insert_float_weights by exact Hl. cbn [final_weights].
  rewrite Rsum_concat_map, <- (Sum_nth w), Hl. apply Sum_ext. intros i _.
  destruct (interior_gamma qpts i); simpl; lra.
Qed.

(** directions of the two copies *)
Lemma doubled_split qpts pre g b post :
  qpts = pre ++ g :: b :: post -> pre <> [] -> is_gamma g = true ->
  exists pre' post', 
    doubled (interior_gamma qpts) (fun i => nth i qpts vzero) (length qpts)
    = pre' ++ g :: g :: b :: post' /\
    exists pre'', pre' = pre'' ++ [last pre vzero].
Proof.
  intros -> Hpre Hg.
  set (qs := pre ++ g :: b :: post).
  set (blk := fun i => if interior_gamma qs i then [nth i qs vzero; nth i qs vzero] else [nth i qs vzero]).
  assert (Hlen : length qs = (length pre + (2 + length post))%nat).
  { unfold qs. rewrite app_length. reflexivity. }
  assert (Hlp : (0 < length pre)%nat) by (destruct pre; [congruence|simpl; lia]).
  assert (Hseq : seq 0 (length qs)
    = seq 0 (length pre) ++ length pre :: S (length pre) :: seq (2 + length pre) (length post)).
  { rewrite Hlen, seq_app. reflexivity. }
  assert (Hbg : blk (length pre) = [g; g]).
  { unfold blk.
    assert (Hn : nth (length pre) qs vzero = g).
    { unfold qs. rewrite app_nth2, Nat.sub_diag by lia. reflexivity. }
    unfold interior_gamma. rewrite Hn, Hg.
    destruct (Nat.ltb_spec 0 (length pre)); [|lia].
    destruct (Nat.ltb_spec (length pre) (length qs - 1)); [reflexivity|lia]. }
  assert (Hbb : exists tlb, blk (S (length pre)) = b :: tlb).
  { unfold blk.
    assert (Hn : nth (S (length pre)) qs vzero = b).
    { unfold qs. rewrite app_nth2 by lia.
      replace (S (length pre) - length pre)%nat with 1%nat by lia. reflexivity. }
    rewrite Hn. destruct (interior_gamma _ _); eexists; reflexivity. }
  destruct Hbb as [tlb Hbb].
  exists (concat (map blk (seq 0 (length pre)))),
    (tlb ++ concat (map blk (seq (2 + length pre) (length post)))).
  split.
  - unfold doubled. fold blk. rewrite Hseq, map_app, concat_app. cbn [map concat].
    rewrite Hbg, Hbb. reflexivity.
  - replace (length pre) with (length pre - 1 + 1)%nat by lia.
    rewrite seq_app, map_app, concat_app. cbn [seq map concat Nat.add]. rewrite app_nil_r.
    assert (Hn : nth (length pre - 1) qs vzero = last pre vzero).
    { unfold qs. rewrite app_nth1 by lia.
      destruct (exists_last Hpre) as [p' [a ->]].
      rewrite last_last, app_length, app_nth2 by (simpl; lia).
      replace (length p' + length [a] - 1 - length p')%nat with 0%nat by (simpl; lia). reflexivity. }
    unfold blk at 2. rewrite Hn. destruct (interior_gamma _ _).
    + exists (concat (map blk (seq 0 (length pre - 1))) ++ [last pre vzero]).
      rewrite <- app_assoc. reflexivity.
    + eexists. reflexivity.
Qed.

Lemma is_gamma_self g : is_gamma (vsub g g) = true.
Proof.
  replace (vsub g g) with vzero; [apply is_gamma_vzero|].
  destruct g as [[x y] z]. simpl. unfold vzero. apply V3_eq; ring.
Qed.

Lemma insert_gamma_directions pre a g b post :
  is_gamma g = true -> is_gamma (vsub b g) = false ->
  exists pre' post',
    insert_gamma_qpts (pre ++ a :: g :: b :: post) = pre' ++ a :: g :: g :: b :: post' /\
    approach (pre' ++ a :: g :: g :: b :: post') (length pre' + 1) = vsub g a /\
    approach (pre' ++ a :: g :: g :: b :: post') (length pre' + 2) = vsub b g.
Proof.
  intros Hg Hb.
  destruct (doubled_split (pre ++ a :: g :: b :: post) (pre ++ [a]) g b post)
    as [pre1 [post1 [H1 [pre2 H2]]]].
  - rewrite <- app_assoc. reflexivity.
  - destruct pre; discriminate.
  - exact Hg.
  - rewrite last_last in H2. exists pre2, post1.
    rewrite insert_qpts_doubled, H1, H2. rewrite <- app_assoc. cbn [app].
    split; [reflexivity|].
    set (n2 := length pre2). set (L := pre2 ++ a :: g :: g :: b :: post1).
    assert (HL : length L = (n2 + (4 + length post1))%nat).
    { unfold L. rewrite app_length. reflexivity. }
    assert (Hn : forall k, nth (n2 + k) L vzero = nth k (a :: g :: g :: b :: post1) vzero).
    { intros k. unfold L. rewrite app_nth2 by (unfold n2; lia). f_equal. unfold n2. lia. }
    unfold approach. fold L. rewrite HL.
    split.
    + destruct (Nat.leb_spec (n2 + (4 + length post1)) 1); [lia|].
      destruct (Nat.eqb_spec (n2 + 1) 0); [lia|].
      destruct (Nat.eqb_spec (n2 + 1) (n2 + (4 + length post1) - 1)); [lia|].
      replace (n2 + 1 + 1)%nat with (n2 + 2)%nat by lia.
      replace (n2 + 1 - 1)%nat with (n2 + 0)%nat by lia.
      rewrite !Hn. cbn [nth]. rewrite is_gamma_self. reflexivity.
    + destruct (Nat.leb_spec (n2 + (4 + length post1)) 1); [lia|].
      destruct (Nat.eqb_spec (n2 + 2) 0); [lia|].
      destruct (Nat.eqb_spec (n2 + 2) (n2 + (4 + length post1) - 1)); [lia|].
      replace (n2 + 2 + 1)%nat with (n2 + 3)%nat by lia.
      rewrite !Hn. cbn [nth]. rewrite Hb. reflexivity.
Qed.

(** witnesses *)
Lemma is_gamma_half : is_gamma (1/2, 0, 0) = false.
Proof.
  unfold is_gamma, frac_dist.
  rewrite (rint_small (1/2)) by (rewrite Rabs_right; lra).
  rewrite (rint_small 0) by (rewrite Rabs_R0; lra).
  rewrite Rabs_R0, Rabs_right by lra. apply Rltb_false. unfold gamma_tol.
  rewrite !Rplus_0_r. assert (2 <= 10 ^ 15) by lra.
  apply Rle_trans with (/ 2); [|lra]. apply Rinv_le_contravar; lra.
Qed.

Definition wit_qpts : list V3 := [(1/2, 0, 0); (0, 0, 0); (1/2, 0, 0)].

Lemma wit_p i : (i < 3)%nat -> interior_gamma wit_qpts i = (i =? 1)%nat.
Proof.
  intros Hi. destruct i as [|[|[|i]]]; try lia; unfold interior_gamma, wit_qpts;
    cbn [length nth Nat.ltb Nat.leb Nat.sub andb Nat.eqb]; try reflexivity.
  change (0, 0, 0) with vzero. apply is_gamma_vzero.
Qed.

Lemma insert_int_weights_lost :
  exists qpts w, length w = length qpts /\
    Rsum (final_weights (length (insert_gamma_qpts qpts))
            (Some (insert_gamma_weights qpts (WInt w)))) <> Rsum (map IZR w).
Proof.
  exists wit_qpts, [1; 1; 1]%Z. split; [reflexivity|].
  rewrite insert_int_weights by reflexivity. cbn [final_weights].
  cbn [length wit_qpts seq map]. fold wit_qpts. rewrite (wit_p 0), (wit_p 1), (wit_p 2) by lia. simpl. intros H. change (trunc_half 1) with 0%Z in H. lra.
Qed.

Lemma insert_none_differs :
  exists qpts, 
    let n' := length (insert_gamma_qpts qpts) in
    final_weights n' None
    <> final_weights n' (Some (insert_gamma_weights qpts
         (WFloat (repeat (1 / INR (length qpts)) (length qpts))))).
Proof.
  exists wit_qpts. cbn zeta.
  rewrite insert_float_weights by reflexivity. rewrite insert_qpts_doubled. unfold doubled.
  cbn [length wit_qpts seq map]. fold wit_qpts. rewrite (wit_p 0), (wit_p 1), (wit_p 2) by lia. simpl.
  intros H. injection H. intros. lra.
Qed.
