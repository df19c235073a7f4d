(** Lemmas for C30: automatic breakpoints and the counterexamples. *)
From Coq Require Import String Sorted.
From Verif Require Import Base M_qpts M_path M_broad M_dos M_bins S_broad S_bins L_util L_qpts L_struct L_path L_dos L_dos2 L_bins.
Open Scope R_scope.

Definition upward (l : list R) : Prop := forall i j, (i < j)%nat -> (j < length l)%nat -> nth i l 0 <= nth j l 0.

Lemma upward_cons a l : upward l -> (forall x, In x l -> a <= x) -> upward (a :: l).
Proof.
  intros U H i j Hij Hj. destruct j as [|j]; [lia|]. cbn [nth length] in *. destruct i as [|i].
  - apply H. apply nth_In. lia.
  - apply U; lia.
Qed.
Lemma upward_tail a l : upward (a :: l) -> upward l.
Proof. intros U i j Hij Hj. apply (U (S i) (S j)); cbn [length]; lia. Qed.
Lemma upward_head a l x : upward (a :: l) -> In x l -> a <= x.
Proof.
  intros U I. destruct (In_nth _ _ 0 I) as (i & Hi & E). rewrite <- E. apply (U 0%nat (S i)); cbn [length]; lia.
Qed.

Lemma insert_perm a l : Permutation (insert_sorted a l) (a :: l).
Proof.
  induction l as [|b l IH]; [apply Permutation_refl|]. cbn [insert_sorted]. destruct (Rleb a b); [apply Permutation_refl|].
  rewrite IH. apply perm_swap.
Qed.
Lemma insert_upward a l : upward l -> upward (insert_sorted a l).
Proof.
  induction l as [|b l IH]; intros U; [intros i j Hij Hj; cbn in Hj; lia|]. cbn [insert_sorted].
  destruct (Rleb a b) eqn:E.
  - apply Rleb_iff in E. apply upward_cons; [exact U|]. intros x [Eb|I]; [lra|]. pose proof (upward_head _ _ _ U I). lra.
  - apply Rleb_nf in E. apply upward_cons; [apply IH; eapply upward_tail; exact U|].
    intros x I. apply (Permutation_in _ (insert_perm a l)) in I. destruct I as [Ea|I]; [lra|]. exact (upward_head _ _ _ U I).
Qed.
Lemma sort_perm l : Permutation (sortR l) l.
Proof. induction l as [|a l IH]; [constructor|]. cbn [sortR fold_right]. rewrite insert_perm. apply perm_skip. exact IH. Qed.
Lemma sort_upward l : upward (sortR l).
Proof. induction l as [|a l IH]; [intros i j _ Hj; cbn in Hj; lia|]. apply insert_upward. exact IH. Qed.

Lemma median_spec l m : median l = Some m -> is_median m l.
Proof.
  unfold median. destruct l as [|a r]; [discriminate|]. set (l := a :: r) in *. intros E.
  assert (Si : forall x y : R, Some x = Some y -> x = y) by congruence. cbv zeta in E. apply Si in E.
  exists (sortR l). split; [apply sort_perm|]. split; [apply sort_upward|].
  destruct (Nat.odd (length l)) eqn:O.
  - apply Nat.odd_spec in O. destruct O as [k Ek]. exists k. left. split; [exact Ek|]. rewrite <- E. f_equal.
    rewrite Ek, Nat.add_comm, Nat.mul_comm, Nat.div_add by lia. reflexivity.
  - rewrite <- Nat.negb_even in O. apply negb_false_iff in O. apply Nat.even_spec in O. destruct O as [k Ek].
    assert (0 < k)%nat by (destruct k; [cbn in Ek; discriminate|lia]).
    exists (k - 1)%nat. right. split; [lia|]. rewrite <- E, Ek.
    rewrite (Nat.mul_comm 2 k), Nat.div_mul by lia. replace (S (k - 1)) with k by lia. reflexivity.
Qed.

Lemma median_pos l m : is_median m l -> (forall x, In x l -> 0 < x) -> 0 < m.
Proof.
  intros (s & P & U & k & K) H. pose proof (Permutation_length P) as L.
  assert (N : forall i, (i < length s)%nat -> 0 < nth i s 0).
  { intros i Hi. apply H. apply (Permutation_in _ P). apply nth_In. exact Hi. }
  destruct K as [[E ->]|[E ->]].
  - apply N. lia.
  - pose proof (N k ltac:(lia)). pose proof (N (S k) ltac:(lia)). lra.
Qed.

Lemma diff_gaps x : np_diffR x = gaps x.
Proof.
  apply (nth_ext _ _ 0 0).
  - unfold gaps. rewrite length_np_diffR, map_length, seq_length. reflexivity.
  - intros i Hi. rewrite length_np_diffR in Hi. rewrite nth_np_diffR by lia. unfold gaps.
    rewrite (map_nth_indep _ _ _ 0%nat 0) by (rewrite seq_length; lia). rewrite seq_nth by lia. reflexivity.
Qed.

Lemma sorted_map_inc (l : list nat) : StronglySorted lt l -> Sorted Z.le (map (fun i => (Z.of_nat i + 1)%Z) l).
Proof.
  induction 1 as [|a l S IH F]; [constructor|]. cbn [map]. apply sorted_cons_le; [exact IH|].
  intros i I. apply in_map_iff in I. destruct I as (j & <- & J). rewrite Forall_forall in F. specialize (F j J). lia.
Qed.
Lemma seq_strong n a : StronglySorted lt (seq a n).
Proof.
  revert a. induction n as [|n IH]; intros a; cbn [seq]; constructor; [apply IH|].
  apply Forall_forall. intros x Hx. apply in_seq in Hx. lia.
Qed.
Lemma filter_strong f l : StronglySorted lt l -> StronglySorted lt (filter f l).
Proof.
  induction 1 as [|a l S IH F]; [constructor|]. cbn [filter]. destruct (f a); [|exact IH].
  constructor; [exact IH|]. rewrite Forall_forall in *. intros x Hx. apply filter_In in Hx. apply F. apply Hx.
Qed.

Lemma breakpoints_ordered btol x : Sorted Z.le (breakpoints btol x) /\ NoDup (breakpoints btol x) /\
  forall b, In b (breakpoints btol x) -> (1 <= b < Z.of_nat (length x))%Z.
Proof.
  unfold breakpoints. destruct (median (np_diffR x)) as [m|]; [|split; [constructor|split; [constructor|intros b []]]].
  split; [|split].
  - apply sorted_map_inc. apply filter_strong, seq_strong.
  - apply FinFun.Injective_map_NoDup; [intros a b E; lia|]. apply NoDup_where_true.
  - intros b I. apply in_map_iff in I. destruct I as (i & <- & I). apply in_where_true in I.
    rewrite map_length, length_np_diffR in I. lia.
Qed.

Lemma breakpoints_spec btol x : increasing x -> (2 <= length x)%nat ->
  exists m, is_median m (gaps x) /\ 0 < m /\
  forall b, In b (breakpoints btol x) <->
    exists i, (S i < length x)%nat /\ b = Z.of_nat (S i) /\ btol * m < nth (S i) x 0 - nth i x 0.
Proof.
  intros Inc L. unfold breakpoints. pose proof (length_np_diffR x) as Ld.
  destruct (median (np_diffR x)) as [m|] eqn:M.
  2:{ destruct (np_diffR x) as [|g gs]; [cbn in Ld; lia|]. discriminate. }
  pose proof (median_spec _ _ M) as IM. rewrite diff_gaps in IM. exists m. split; [exact IM|].
  assert (Pm : 0 < m).
  { apply (median_pos _ _ IM). intros g I. unfold gaps in I. apply in_map_iff in I. destruct I as (i & <- & I).
    apply in_seq in I. pose proof (Inc i (S i) ltac:(lia) ltac:(lia)). lra. }
  split; [exact Pm|]. intros b.
  assert (C : forall g, (if Reqb m 0 then Rltb 0 g else Rltb btol (g / m)) = Rltb (btol * m) g).
  { intros g. destruct (Reqb_spec m 0); [lra|]. destruct (Rltb (btol * m) g) eqn:F.
    - apply Rltb_iff in F. apply Rltb_iff. apply (Rmult_lt_reg_r m); [exact Pm|]. unfold Rdiv.
      rewrite Rmult_assoc, Rinv_l by lra. lra.
    - apply Rltb_nf in F. apply Rltb_nf. apply (Rmult_le_reg_r m); [exact Pm|]. unfold Rdiv.
      rewrite Rmult_assoc, Rinv_l by lra. lra. }
  rewrite in_map_iff. split.
  - intros (i & <- & I). apply in_where_true in I. rewrite map_length, length_np_diffR in I. destruct I as [Hi Hv].
    exists i. split; [lia|]. split; [lia|].
    rewrite (map_nth_indep _ _ _ 0 false) in Hv by (rewrite length_np_diffR; lia). rewrite C in Hv.
    apply Rltb_iff in Hv. rewrite nth_np_diffR in Hv by lia. exact Hv.
  - intros (i & Hi & -> & Hg). exists i. split; [lia|]. apply in_where_true. rewrite map_length, length_np_diffR.
    split; [lia|]. rewrite (map_nth_indep _ _ _ 0 false) by (rewrite length_np_diffR; lia). rewrite C.
    apply Rltb_iff. rewrite nth_np_diffR by lia. exact Hg.
Qed.

Lemma split_auto {A} (s : xspec A) btol : increasing (xs s) -> (2 <= length (xs s))%nat ->
  (length (xs s) = length (ys s) \/ length (xs s) = (length (ys s) + 1)%nat) ->
  exists idx m, split s None btol = split s (Some idx) None /\
  ordered_within (length (ys s)) idx /\ NoDup idx /\
  is_median m (gaps (xs s)) /\ 0 < m /\
  forall b, In b idx <-> exists i, (S i < length (xs s))%nat /\ b = Z.of_nat (S i) /\
    (match btol with None => 10 | Some r => r end) * m < nth (S i) (xs s) 0 - nth i (xs s) 0.
Proof.
  intros Inc L Hl. set (r := match btol with None => 10 | Some r => r end).
  destruct (breakpoints_spec r (xs s) Inc L) as (m & M1 & M2 & M3).
  destruct (breakpoints_ordered r (xs s)) as (B1 & B2 & B3).
  exists (breakpoints r (xs s)), m. split; [reflexivity|]. split; [|split; [exact B2|split; [exact M1|split; [exact M2|exact M3]]]].
  split; [exact B1|]. intros i I. specialize (B3 i I). lia.
Qed.

(** Splitting an edge-type axis: every segment but the last becomes point-type. *)
Lemma split_edges_shift {A} (s : xspec A) i : length (xs s) = (length (ys s) + 1)%nat -> increasing (xs s) ->
  (0 < i < length (ys s))%nat ->
  exists s1 s2 c, split s (Some [Z.of_nat i]) None = Ok [s1; s2] /\
  get_bin_centres (length (ys s)) (xs s) = Ok c /\
  length (ys s1) = i /\
  get_bin_centres (length (ys s1)) (xs s1) = Ok (firstn i (xs s)) /\
  (forall k, (k < i)%nat -> nth k (firstn i (xs s)) 0 < nth k c 0) /\
  (forall e, get_bin_edges (length (ys s1)) (xs s1) = Ok e -> last e 0 < nth i (xs s) 0).
Proof.
  intros L Inc Hi. destruct (edges_axis _ _ L Inc) as (_ & c & Ec & Lc & Hc).
  unfold split, split_by_indices, ranges_from_indices. cbn [pairs_from mapE fst snd].
  rewrite !pyslice_mid by lia. rewrite !pyslice_end by lia. unfold mk_xspec.
  rewrite !firstn_length, !skipn_length. rewrite !Nat2Z.id. cbn [Z.to_nat skipn]. rewrite !Nat.sub_0_r.
  replace (Nat.min i (length (xs s))) with i by lia. replace (Nat.min i (length (ys s))) with i by lia.
  rewrite Nat.eqb_refl. cbn [orb].
  replace (Nat.eqb (length (xs s) - i) (length (ys s) - i + 1)) with true by (symmetry; apply Nat.eqb_eq; lia).
  rewrite orb_true_r. do 3 eexists. split; [reflexivity|]. split; [exact Ec|]. cbn [xs ys].
  rewrite !firstn_length. split; [lia|]. replace (Nat.min i (length (ys s))) with i by lia.
  assert (Lf : length (firstn i (xs s)) = i) by (rewrite firstn_length; lia).
  assert (Nf : forall k, (k < i)%nat -> nth k (firstn i (xs s)) 0 = nth k (xs s) 0).
  { intros k Hk. rewrite <- (firstn_skipn i (xs s)) at 2. rewrite app_nth1 by lia. reflexivity. }
  split; [|split].
  - unfold get_bin_centres. rewrite Lf, is_edge_false. reflexivity.
  - intros k Hk. rewrite Nf by exact Hk. apply Hc. lia.
  - intros e Ee. unfold get_bin_edges in Ee. rewrite Lf, is_edge_false in Ee.
    destruct (to_edges (firstn i (xs s))) as (e' & E' & Le & _ & En & _); [intros N; rewrite N in Lf; cbn in Lf; lia|].
    rewrite E' in Ee. injection Ee as <-. rewrite Lf in *.
    assert (last e' 0 = nth i e' 0) as ->.
    { assert (Ne : e' <> []) by (intros N; rewrite N in Le; cbn in Le; lia).
      rewrite (app_removelast_last 0 Ne) at 2. rewrite app_nth2; rewrite length_removelast, Le; [|lia].
      replace (i - (S i - 1))%nat with 0%nat by lia. reflexivity. }
    rewrite En, Nf by lia. apply Inc; lia.
Qed.

Lemma split_unsorted : exists (s : xspec R) idx segs, length (xs s) = length (ys s) /\
  (forall i, In i idx -> (0 <= i <= Z.of_nat (length (ys s)))%Z) /\
  split s (Some idx) None = Ok segs /\ concat (map ys segs) <> ys s.
Proof.
  exists (mkX [0; 1; 2] [5; 6; 7] None), [2%Z; 1%Z]. eexists. split; [reflexivity|]. split.
  - cbn. intros i [<-|[<-|[]]]; lia.
  - split; [reflexivity|]. cbn. intros E. injection E. intros E1. lra.
Qed.

Lemma split_both {A} (s : xspec A) idx b : split s (Some idx) (Some b) = Err BothGiven.
Proof. reflexivity. Qed.

Lemma C29_example : increasing [0; 1; 3] /\ regular 2 (1/2) 4 [2; 5/2; 3; 7/2] /\
  get_bin_edges 3 [0; 1; 3] = Ok [0; (1 + 0) / 2; (3 + 1) / 2; 3].
Proof.
  split; [|split; [split; [reflexivity|]|reflexivity]].
  - intros i j Hij Hj. cbn [length] in Hj. destruct j as [|[|[|j]]]; try lia; destruct i as [|[|i]]; try lia; cbn [nth]; lra.
  - intros i Hi. destruct i as [|[|[|[|i]]]]; try lia; cbn [nth]; simpl INR; lra.
Qed.

Lemma C30_example : let s := mkX [0; 1; 2; 5; 6] [10; 11; 12; 13; 14] (Some [(0%Z, "G"%string); (3%Z, "X"%string)]) in
  ordered_within (length (ys s)) [3%Z] /\ increasing (xs s) /\
  split s (Some [3%Z]) None = Ok [mkX [0; 1; 2] [10; 11; 12] (Some [(0%Z, "G"%string)]);
                                  mkX [5; 6] [13; 14] (Some [(0%Z, "X"%string)])].
Proof.
  cbv zeta. split; [|split].
  - split; [repeat constructor|]. cbn. intros i [<-|[]]. lia.
  - intros i j Hij Hj. cbn [xs length] in Hj.
    destruct j as [|[|[|[|[|j]]]]]; try lia; destruct i as [|[|[|[|i]]]]; try lia; cbn [nth xs]; lra.
  - reflexivity.
Qed.
