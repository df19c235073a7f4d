(** Lemmas for C29, C30. *)
From Coq Require Import String Sorted.
From Verif Require Import Base M_qpts M_path M_broad M_dos M_bins S_broad S_bins L_util L_qpts L_path L_dos L_dos2.
Open Scope R_scope.

Lemma is_edge_true n : is_bin_edge n (n + 1) = Ok true.
Proof. unfold is_bin_edge. rewrite Nat.eqb_refl. reflexivity. Qed.
Lemma is_edge_false n : is_bin_edge n n = Ok false.
Proof.
  unfold is_bin_edge. destruct (Nat.eqb_spec n (n + 1)); [lia|]. rewrite Nat.eqb_refl. reflexivity.
Qed.

Lemma edges_axis n x : length x = (n + 1)%nat -> increasing x ->
  get_bin_edges n x = Ok x /\
  exists c, get_bin_centres n x = Ok c /\ length c = n /\
  forall i, (i < n)%nat -> nth i c 0 = (nth i x 0 + nth (S i) x 0) / 2 /\ nth i x 0 < nth i c 0 < nth (S i) x 0.
Proof.
  intros L H. unfold get_bin_edges, get_bin_centres. rewrite L, is_edge_true. split; [reflexivity|].
  exists (edges_to_centres x). split; [reflexivity|]. rewrite length_centres. split; [lia|].
  intros i Hi. rewrite nth_centres by lia. split; [reflexivity|].
  pose proof (H i (S i) ltac:(lia) ltac:(lia)). lra.
Qed.

Lemma to_edges c : c <> [] -> exists e, centres_to_edges c = Ok e /\ length e = S (length c) /\
  nth 0 e 0 = nth 0 c 0 /\ nth (length c) e 0 = nth (length c - 1) c 0 /\
  forall i, (0 < i < length c)%nat -> nth i e 0 = (nth (i - 1) c 0 + nth i c 0) / 2.
Proof.
  destruct c as [|c0 r]; [congruence|]. intros _. unfold centres_to_edges. eexists. split; [reflexivity|].
  set (mid := map _ _).
  assert (Lr : length (removelast (c0 :: r)) = length r) by (rewrite length_removelast; cbn [length]; lia).
  assert (Lm : length mid = length r).
  { unfold mid. rewrite map_length, combine_length, Lr. lia. }
  assert (Nm : forall i, (i < length r)%nat -> nth i mid 0 = (nth i r 0 + nth i (c0 :: r) 0) / 2).
  { intros i Hi. unfold mid. rewrite (map_nth_indep _ _ _ (0, 0) 0) by (rewrite combine_length, Lr; lia).
    rewrite nth_combine by (rewrite Lr; reflexivity). cbn [fst snd].
    rewrite nth_removelast by (cbn [length]; lia). reflexivity. }
  clearbody mid. repeat split.
  - rewrite !app_length, Lm. cbn [length]. lia.
  - rewrite app_assoc, app_nth2; rewrite app_length, Lm; cbn [length]; [|lia].
    replace (S (length r) - (1 + length r))%nat with 0%nat by lia.
    change (nth 0 [last (c0 :: r) c0] 0) with (last (c0 :: r) c0).
    replace (S (length r) - 1)%nat with (length r) by lia.
    rewrite (nth_indep (c0 :: r) 0 c0) by (cbn [length]; lia).
    clear. revert c0. induction r as [|a r IH] using rev_ind; intros c0; [reflexivity|].
    rewrite app_length. cbn [length]. replace (length r + 1)%nat with (S (length r)) by lia.
    change (c0 :: r ++ [a]) with ((c0 :: r) ++ [a]). rewrite last_last, app_nth2; cbn [length]; [|lia].
    replace (S (length r) - S (length r))%nat with 0%nat by lia. reflexivity.
  - intros i [H1 H2]. cbn [length] in H2. destruct i as [|i]; [lia|].
    replace (S i - 1)%nat with i by lia. change (nth (S i) (c0 :: r) 0) with (nth i r 0).
    match goal with |- ?a = _ => change a with (nth i (mid ++ [last (c0 :: r) c0]) 0) end.
    rewrite app_nth1 by lia. rewrite Nm by lia. lra.
Qed.

Lemma centres_axis n x : length x = n -> (0 < n)%nat -> increasing x ->
  get_bin_centres n x = Ok x /\
  exists e, get_bin_edges n x = Ok e /\ length e = (n + 1)%nat /\
  nth 0 e 0 = nth 0 x 0 /\ nth n e 0 = nth (n - 1) x 0 /\
  (forall i, (0 < i < n)%nat -> nth i e 0 = (nth (i - 1) x 0 + nth i x 0) / 2) /\
  (forall i, (i < n)%nat -> nth i e 0 <= nth i x 0 <= nth (S i) e 0) /\
  ((2 <= n)%nat -> forall i, (i < n)%nat -> nth i e 0 < nth (S i) e 0).
Proof.
  intros L Hn H. unfold get_bin_edges, get_bin_centres. rewrite L, is_edge_false. split; [reflexivity|].
  destruct (to_edges x) as (e & E & Le & E0 & En & Em); [destruct x; [cbn in L; lia|discriminate]|].
  exists e. rewrite L in *. split; [exact E|]. split; [lia|]. split; [exact E0|]. split; [exact En|].
  split; [exact Em|].
  assert (Lo : forall i, (i < n)%nat -> nth i e 0 <= nth i x 0 /\ ((0 < i)%nat -> nth i e 0 < nth i x 0)).
  { intros i Hi. destruct i as [|i]; [rewrite E0; split; [lra|lia]|]. rewrite Em by lia.
    replace (S i - 1)%nat with i by lia. pose proof (H i (S i) ltac:(lia) ltac:(lia)). split; [lra|intros _; lra]. }
  assert (Hi' : forall i, (i < n)%nat -> nth i x 0 <= nth (S i) e 0 /\ ((S i < n)%nat -> nth i x 0 < nth (S i) e 0)).
  { intros i Hi. destruct (Nat.eq_dec (S i) n) as [E1|N1].
    - rewrite E1, En. replace (n - 1)%nat with i by lia. split; [lra|lia].
    - rewrite Em by lia. replace (S i - 1)%nat with i by lia.
      pose proof (H i (S i) ltac:(lia) ltac:(lia)). split; [lra|intros _; lra]. }
  split.
  - intros i Hi. split; [apply Lo|apply Hi']; exact Hi.
  - intros H2 i Hi. destruct (Lo i Hi) as [A A']. destruct (Hi' i Hi) as [B B'].
    destruct (Nat.eq_dec i 0) as [Z|Z].
    + assert (S i < n)%nat by lia. specialize (B' ltac:(lia)). lra.
    + specialize (A' ltac:(lia)). lra.
Qed.

Lemma wrong_length n x : length x <> n -> length x <> (n + 1)%nat ->
  get_bin_edges n x = Err UnexpectedLength /\ get_bin_centres n x = Err UnexpectedLength.
Proof.
  intros A B. unfold get_bin_edges, get_bin_centres, is_bin_edge.
  destruct (Nat.eqb_spec (length x) (n + 1)); [lia|]. destruct (Nat.eqb_spec (length x) n); [lia|].
  split; reflexivity.
Qed.

Lemma regular_increasing a h n x : 0 < h -> regular a h n x -> increasing x.
Proof.
  intros Hh [L R] i j Hij Hj. rewrite L in Hj. rewrite !R by lia.
  assert (INR i < INR j) by (apply lt_INR; lia). nra.
Qed.

(** Back conversion of the edges computed from evenly spaced centres. *)
Lemma regular_back a h n x : 0 < h -> (2 <= n)%nat -> regular a h n x ->
  exists e, get_bin_edges n x = Ok e /\ length (edges_to_centres e) = n /\
  (forall i, (0 < i < n - 1)%nat -> nth i (edges_to_centres e) 0 = nth i x 0) /\
  nth 0 (edges_to_centres e) 0 = nth 0 x 0 + h / 4 /\
  nth (n - 1) (edges_to_centres e) 0 = nth (n - 1) x 0 - h / 4.
Proof.
  intros Hh Hn Rg. pose proof (regular_increasing _ _ _ _ Hh Rg) as Inc. destruct Rg as [L R].
  destruct (centres_axis n x L ltac:(lia) Inc) as (_ & e & E & Le & E0 & En & Em & _).
  exists e. split; [exact E|]. rewrite length_centres, Le. split; [lia|]. split; [|split].
  - intros i Hi. rewrite nth_centres by lia. rewrite !Em by lia.
    replace (S i - 1)%nat with i by lia. rewrite !R by lia.
    rewrite S_INR, minus_INR by lia. simpl (INR 1). lra.
  - rewrite nth_centres by lia. rewrite E0, Em by lia. simpl (1 - 1)%nat. rewrite !R by lia. simpl INR. lra.
  - rewrite nth_centres by lia. replace (S (n - 1)) with n by lia. rewrite En, Em by lia.
    replace (n - 1 - 1)%nat with (n - 2)%nat by lia. rewrite !R by lia.
    replace (n - 1)%nat with (S (n - 2)) by lia. rewrite S_INR. lra.
Qed.

Lemma regular_centres_rejected a h n x : 0 < h -> (3 <= n)%nat -> regular a h n x ->
  assert_regular_bins regular_rtol 0 n x = Err NotRegular.
Proof.
  intros Hh Hn Rg. pose proof (regular_increasing _ _ _ _ Hh Rg) as Inc. destruct Rg as [L R].
  destruct (centres_axis n x L ltac:(lia) Inc) as (_ & e & E & Le & E0 & En & Em & _).
  unfold assert_regular_bins, get_bin_widths. rewrite E.
  pose proof (length_np_diffR e) as Ld.
  assert (D0 : nth 0 (np_diffR e) 0 = h / 2).
  { rewrite nth_np_diffR by lia. rewrite E0, Em by lia. simpl (1 - 1)%nat. rewrite !R by lia. simpl INR. lra. }
  assert (D1 : nth 1 (np_diffR e) 0 = h).
  { rewrite nth_np_diffR by lia. rewrite !Em by lia. simpl (1 - 1)%nat. simpl (2 - 1)%nat. rewrite !R by lia. simpl INR. lra. }
  destruct (np_diffR e) as [|w0 [|w1 ws]]; cbn [length] in Ld; try lia. cbn [nth] in D0, D1. subst w0 w1.
  destruct (forallb _ _) eqn:F; [|reflexivity]. exfalso.
  rewrite forallb_forall in F. specialize (F h (or_intror (or_introl eq_refl))).
  unfold isclose_tol, regular_rtol in F. apply Rleb_iff in F.
  rewrite (Rabs_pos_eq (h - h / 2)) in F by lra. rewrite (Rabs_pos_eq (h / 2)) in F by lra.
  replace (10 ^ 5) with 100000 in F by (simpl; lra). lra.
Qed.

Lemma regular_check n x : length x = (n + 1)%nat -> (0 < n)%nat ->
  (assert_regular_bins regular_rtol 0 n x = Ok tt <->
   forall i, (i < n)%nat -> Rabs ((nth (S i) x 0 - nth i x 0) - (nth 1 x 0 - nth 0 x 0)) <= 1 / 100000 * Rabs (nth 1 x 0 - nth 0 x 0)).
Proof.
  intros L Hn. unfold assert_regular_bins, get_bin_widths, get_bin_edges. rewrite L, is_edge_true.
  pose proof (length_np_diffR x) as Ld.
  assert (Nd : forall i, (i < n)%nat -> nth i (np_diffR x) 0 = nth (S i) x 0 - nth i x 0) by (intros; apply nth_np_diffR; lia).
  destruct (np_diffR x) as [|w0 ws]; [cbn [length] in Ld; lia|].
  assert (W0 : w0 = nth 1 x 0 - nth 0 x 0) by (rewrite <- (Nd 0%nat ltac:(lia)); reflexivity).
  replace (1 / 100000) with (regular_rtol) by (unfold regular_rtol; simpl; lra).
  destruct (forallb _ _) eqn:F.
  - split; [|reflexivity]. intros _ i Hi. rewrite forallb_forall in F.
    specialize (F (nth i (w0 :: ws) 0) ltac:(apply nth_In; lia)). unfold isclose_tol in F. apply Rleb_iff in F.
    rewrite Nd in F by exact Hi. rewrite W0 in F. lra.
  - split; [discriminate|]. intros A. exfalso. assert (T : forallb (fun w => isclose_tol regular_rtol 0 w w0) (w0 :: ws) = true).
    { apply forallb_forall. intros w Iw. destruct (In_nth _ _ 0 Iw) as (i & Hi & Ei). rewrite <- Ei.
      rewrite Nd by lia. unfold isclose_tol. apply Rleb_iff. rewrite W0. specialize (A i ltac:(lia)). lra. }
    congruence.
Qed.

(** ** split *)
Lemma clip_in n i : (0 <= i <= Z.of_nat n)%Z -> clip n i = Z.to_nat i.
Proof.
  intros H. unfold clip. destruct (Z.ltb_spec i 0); [lia|]. rewrite Z.min_l by lia. reflexivity.
Qed.
Lemma pyslice_mid {A} (l : list A) a b : (0 <= a <= b)%Z -> (b <= Z.of_nat (length l))%Z ->
  pyslice l a (Some b) = firstn (Z.to_nat b - Z.to_nat a) (skipn (Z.to_nat a) l).
Proof. intros H1 H2. unfold pyslice. rewrite !clip_in by lia. reflexivity. Qed.
Lemma pyslice_end {A} (l : list A) a : (0 <= a <= Z.of_nat (length l))%Z ->
  pyslice l a None = skipn (Z.to_nat a) l.
Proof.
  intros H. unfold pyslice. rewrite clip_in by lia. apply firstn_all2. rewrite skipn_length. lia.
Qed.

Lemma firstn_skipn_step {A} (l : list A) a b : (a <= b)%nat -> firstn (b - a) (skipn a l) ++ skipn b l = skipn a l.
Proof.
  intros H. replace (skipn b l) with (skipn (b - a) (skipn a l)).
  - apply firstn_skipn.
  - rewrite skipn_skipn'. f_equal. lia.
Qed.

Lemma filter_split {A} (f g h : A -> bool) l : (forall p, In p l -> f p = orb (g p) (h p) /\ andb (g p) (h p) = false) ->
  Permutation (filter f l) (filter g l ++ filter h l).
Proof.
  induction l as [|p l IH]; intros H; [constructor|].
  specialize (IH (fun q Hq => H q (or_intror Hq))). destruct (H p (or_introl eq_refl)) as [E N].
  cbn [filter]. rewrite E. destruct (g p), (h p); cbn in N |- *; try discriminate.
  - apply perm_skip. exact IH.
  - apply Permutation_cons_app. exact IH.
  - exact IH.
Qed.

Lemma map_shift_back (t : ticks) (a : Z) : map (fun p => ((fst p + a)%Z, snd p)) (map (fun p => ((fst p - a)%Z, snd p)) t) = t.
Proof.
  rewrite map_map. rewrite <- (map_id t) at 2. apply map_ext. intros [k l]. cbn. f_equal. lia.
Qed.

Lemma split_from {A} (s : xspec A) k : length (xs s) = (length (ys s) + k)%nat -> (k <= 1)%nat ->
  forall idx a, Sorted Z.le (a :: idx) -> (0 <= a)%Z -> (forall i, In i (a :: idx) -> (i <= Z.of_nat (length (ys s)))%Z) ->
  exists segs,
    mapE (fun r => mk_xspec (pyslice (xs s) (fst r) (snd r)) (pyslice (ys s) (fst r) (snd r))
                          (cut_x_ticks (xticks s) (fst r) (snd r))) (pairs_from a idx) = Ok segs /\
    length segs = S (length idx) /\
    concat (map xs segs) = skipn (Z.to_nat a) (xs s) /\
    concat (map ys segs) = skipn (Z.to_nat a) (ys s) /\
    (forall j, (j < length idx)%nat -> length (xs (nth j segs s)) = length (ys (nth j segs s))) /\
    length (xs (nth (length idx) segs s)) = (length (ys (nth (length idx) segs s)) + k)%nat /\
    Permutation (glued_ticks a segs) (filter (fun p => (a <=? fst p)%Z) (own_ticks s)) /\
    (forall j p, (j < length segs)%nat -> In p (own_ticks (nth j segs s)) ->
        (0 <= fst p)%Z /\ ((j < length idx)%nat -> (fst p < Z.of_nat (length (xs (nth j segs s))))%Z)) /\
    (forall j, (j < length idx)%nat -> length (ys (nth j segs s)) = Z.to_nat (nth j idx 0%Z - nth j (a :: idx) 0%Z)) /\
    (forall j, (j < length segs)%nat -> (xticks (nth j segs s) = None <-> xticks s = None)).
Proof.
  intros L Hk. induction idx as [|b idx IH]; intros a So Ha Hb.
  - cbn [pairs_from mapE fst snd]. pose proof (Hb a (or_introl eq_refl)) as Hb1.
    rewrite !pyslice_end by lia. unfold mk_xspec. rewrite !skipn_length.
    replace (_ || _)%bool with true.
    2:{ symmetry. destruct k as [|[|k]]; [| |lia].
        - apply orb_true_iff. left. apply Nat.eqb_eq. lia.
        - apply orb_true_iff. right. apply Nat.eqb_eq. lia. }
    eexists. split; [reflexivity|]. cbn [length map xs ys concat nth]. rewrite !app_nil_r, !skipn_length.
    split; [reflexivity|]. split; [reflexivity|]. split; [reflexivity|]. split; [lia|]. split; [lia|].
    split; [|split; [|split]].
    + cbn [glued_ticks]. rewrite app_nil_r. unfold own_ticks, cut_x_ticks. cbn [xticks].
      destruct (xticks s) as [t|]; [|constructor]. rewrite map_shift_back.
      replace (filter _ t) with (filter (fun p : Z * string => (a <=? fst p)%Z) t) at 1; [apply Permutation_refl|].
      apply filter_ext. intros p. rewrite andb_true_r. reflexivity.
    + intros j p Hj. assert (j = 0)%nat as -> by lia. cbn [nth own_ticks xticks]. unfold own_ticks, cut_x_ticks. cbn [xticks].
      destruct (xticks s) as [t|]; [|intros []]. intros I. apply in_map_iff in I. destruct I as (q & Eq & Iq).
      apply filter_In in Iq. destruct Iq as [_ Iq]. rewrite andb_true_r in Iq. apply Z.leb_le in Iq. subst p. cbn.
      split; [lia|]. intros Hx. lia.
    + intros j Hj. lia.
    + intros j Hj. assert (j = 0)%nat as -> by lia. cbn [nth xticks]. unfold cut_x_ticks. destruct (xticks s); split; congruence.
  - inversion So as [|? ? So' Hab]; subst. inversion Hab; subst.
    pose proof (Hb a (or_introl eq_refl)) as Ba. pose proof (Hb b (or_intror (or_introl eq_refl))) as Bb.
    destruct (IH b So' ltac:(lia) (fun i Hi => Hb i (or_intror Hi))) as (segs & E & Ls & Cx & Cy & Lx & Ll & Pm & Tk & Ln & Nn).
    cbn [pairs_from mapE fst snd]. rewrite E.
    rewrite !pyslice_mid by lia.
    set (sx := firstn _ (skipn _ (xs s))). set (sy := firstn _ (skipn _ (ys s))).
    assert (Lsx : length sx = (Z.to_nat b - Z.to_nat a)%nat) by (unfold sx; rewrite firstn_length, skipn_length; lia).
    assert (Lsy : length sy = (Z.to_nat b - Z.to_nat a)%nat) by (unfold sy; rewrite firstn_length, skipn_length; lia).
    unfold mk_xspec at 1. rewrite Lsx, Lsy, Nat.eqb_refl. cbn [orb].
    eexists. split; [reflexivity|]. cbn [length map xs ys concat].
    split; [lia|]. split; [rewrite Cx; apply firstn_skipn_step; lia|]. split; [rewrite Cy; apply firstn_skipn_step; lia|].
    split; [|split; [|split; [|split; [|split]]]].
    + intros [|j] Hj; cbn [nth xs ys]; [congruence|]. apply Lx. lia.
    + cbn [nth]. exact Ll.
    + cbn [glued_ticks xs]. rewrite Lsx. replace (a + Z.of_nat (Z.to_nat b - Z.to_nat a))%Z with b by lia.
      rewrite Pm. unfold own_ticks, cut_x_ticks. cbn [xticks].
      destruct (xticks s) as [t|]; [|constructor]. rewrite map_shift_back. symmetry. apply filter_split.
      intros p _. destruct (Z.leb_spec a (fst p)), (Z.ltb_spec (fst p) b), (Z.leb_spec b (fst p)); cbn; split; auto; lia.
    + intros [|j] p Hj.
      * cbn [nth]. unfold own_ticks, cut_x_ticks. cbn [xticks xs]. destruct (xticks s) as [t|]; [|intros []].
        intros I. apply in_map_iff in I. destruct I as (q & Eq & Iq). apply filter_In in Iq. destruct Iq as [_ Iq].
        apply andb_true_iff in Iq. destruct Iq as [I1 I2]. apply Z.leb_le in I1. apply Z.ltb_lt in I2. subst p. cbn [fst].
        rewrite Lsx. split; [lia|intros _; lia].
      * cbn [nth]. intros I. destruct (Tk j p ltac:(lia) I) as [T1 T2]. split; [exact T1|]. intros Hj2. apply T2. lia.
    + intros [|j] Hj; cbn [nth ys]; [rewrite Lsy; lia|]. rewrite Ln by lia. reflexivity.
    + intros [|j] Hj; cbn [nth xticks]; [unfold cut_x_ticks; destruct (xticks s); split; congruence|]. apply Nn. lia.
Qed.

Lemma sorted_cons_le a l : Sorted Z.le l -> (forall i, In i l -> (a <= i)%Z) -> Sorted Z.le (a :: l).
Proof. intros S H. constructor; [exact S|]. destruct l as [|b l]; constructor. apply H. left. reflexivity. Qed.

Lemma split_parts {A} (s : xspec A) k idx : length (xs s) = (length (ys s) + k)%nat -> (k <= 1)%nat ->
  ordered_within (length (ys s)) idx ->
  (forall p, In p (own_ticks s) -> (0 <= fst p)%Z) ->
  exists segs, split s (Some idx) None = Ok segs /\ length segs = S (length idx) /\
    concat (map xs segs) = xs s /\ concat (map ys segs) = ys s /\
    (forall j, (j < length idx)%nat -> length (xs (nth j segs s)) = length (ys (nth j segs s)) /\
               length (ys (nth j segs s)) = Z.to_nat (nth j idx 0%Z - nth j (0%Z :: idx) 0%Z)) /\
    length (xs (nth (length idx) segs s)) = (length (ys (nth (length idx) segs s)) + k)%nat /\
    Permutation (glued_ticks 0 segs) (own_ticks s) /\
    (forall j p, (j < length segs)%nat -> In p (own_ticks (nth j segs s)) ->
        (0 <= fst p)%Z /\ ((j < length idx)%nat -> (fst p < Z.of_nat (length (xs (nth j segs s))))%Z)) /\
    (forall j, (j < length segs)%nat -> (xticks (nth j segs s) = None <-> xticks s = None)).
Proof.
  intros L Hk [So Hr] Ht. unfold split, split_by_indices, ranges_from_indices.
  destruct (split_from s k L Hk idx 0%Z) as (segs & E & Ls & Cx & Cy & Lx & Ll & Pm & Tk & Ln & Nn).
  - apply sorted_cons_le; [exact So|]. intros i Hi. apply Hr. exact Hi.
  - lia.
  - intros i [<-|Hi]; [lia|]. apply Hr. exact Hi.
  - exists segs. split; [exact E|]. split; [exact Ls|]. split; [exact Cx|]. split; [exact Cy|].
    split; [intros j Hj; split; [apply Lx|apply Ln]; exact Hj|]. split; [exact Ll|]. split; [|split; [exact Tk|exact Nn]].
    rewrite Pm. assert (F : forall t : ticks, (forall p, In p t -> (0 <= fst p)%Z) -> filter (fun p => (0 <=? fst p)%Z) t = t).
    { induction t as [|p t IH]; intros Hp; [reflexivity|]. cbn [filter].
      rewrite (proj2 (Z.leb_le 0 (fst p)) (Hp p (or_introl eq_refl))). f_equal. apply IH. intros q Hq. apply Hp. right. exact Hq. }
    rewrite (F _ Ht). apply Permutation_refl.
Qed.
