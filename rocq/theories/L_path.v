(** Lemmas for C40, C41, C50, C54, C55. *)
From Coq Require Import String Sorting.
From Verif Require Import Base Vec3 M_grid M_cell M_qpts M_dynmat M_path S_path L_grid L_cell L_qpts L_struct L_conv L_util.
Open Scope R_scope.

(** ** abscissa *)
Lemma frac_dist_le u (k : Z) : frac_dist u <= Rabs (u - IZR k).
Proof.
  unfold frac_dist. pose proof (rint_dist u) as H. destruct (Z.eq_dec k (rint u)) as [->|N]; [lra|].
  assert (1 <= Rabs (IZR k - IZR (rint u))).
  { rewrite <- minus_IZR, <- abs_IZR. apply IZR_le. lia. }
  replace (IZR k - IZR (rint u)) with ((u - IZR (rint u)) - (u - IZR k)) in H0 by ring.
  pose proof (Rabs_triang (u - IZR (rint u)) (- (u - IZR k))) as T. rewrite Rabs_Ropp in T.
  unfold Rminus in *. lra.
Qed.

Lemma length_np_diff l : length (np_diff l) = (length l - 1)%nat.
Proof. unfold np_diff. rewrite map_length, combine_length. destruct l; cbn [length tl]; lia. Qed.

Lemma nth_combine_tl {A} (l : list A) i d : (S i < length l)%nat ->
  nth i (combine l (tl l)) (d, d) = (nth i l d, nth (S i) l d).
Proof.
  revert i. induction l as [|a l IH]; intros i Hi; [cbn in Hi; lia|]. destruct l as [|b l]; [cbn in Hi; lia|].
  destruct i as [|i]; [reflexivity|]. cbn [tl combine nth] in *. specialize (IH i ltac:(cbn in *; lia)).
  cbn [tl] in IH. rewrite IH. reflexivity.
Qed.

Lemma nth_np_diff l i d : (S i < length l)%nat -> nth i (np_diff l) d = vsub (nth (S i) l vzero) (nth i l vzero).
Proof.
  intros Hi. unfold np_diff.
  rewrite (map_nth_indep _ (combine l (tl l)) i (vzero, vzero) d) by (rewrite combine_length; destruct l; cbn [length tl] in *; lia).
  rewrite nth_combine_tl by exact Hi. reflexivity.
Qed.

Lemma length_cumsum_from acc l : length (cumsum_from acc l) = length l.
Proof. revert acc; induction l; intros; cbn; [reflexivity|f_equal; apply IHl]. Qed.
Lemma nth_cumsum_from acc l i : (i < length l)%nat -> nth i (cumsum_from acc l) 0 = acc + Rsum (firstn (S i) l).
Proof.
  revert acc i. induction l as [|x l IH]; intros acc i Hi; [cbn in Hi; lia|].
  destruct i as [|i]; cbn [cumsum_from nth]; [cbn; ring|].
  rewrite IH by (cbn in Hi; lia). change (firstn (S (S i)) (x :: l)) with (x :: firstn (S i) l).
  change (Rsum (x :: firstn (S i) l)) with (x + Rsum (firstn (S i) l)). ring.
Qed.

Lemma cumsum_step l i : (S i < length l)%nat -> nth (S i) (cumsum l) 0 = nth i (cumsum l) 0 + nth (S i) l 0.
Proof.
  unfold cumsum. generalize 0 at 1 3. revert i. induction l as [|x l IH]; intros i acc Hi; [cbn in Hi; lia|].
  destruct i as [|i]; cbn [cumsum_from nth].
  - destruct l as [|y l]; [cbn in Hi; lia|]. reflexivity.
  - apply IH. cbn in Hi. lia.
Qed.

Lemma calc_modq_false d : calc_modq d = false <-> lattice_jump d.
Proof.
  destruct d as [[x y] z]. unfold calc_modq, lattice_jump, abs_sum, delta_rem, abscissa_tol. rewrite negb_false_iff, andb_true_iff.
  unfold taxi, vzero. rewrite !Rminus_0_r. rewrite !Rltb_iff. apply and_iff_compat_l. split.
  - intros H. exists (rint x, rint y, rint z). exact H.
  - intros [[[a b] c] H]. cbn [zvec] in H.
    assert (K : forall u (k : Z), frac_dist u <= Rabs (u - IZR k)) by (intros; apply frac_dist_le).
    pose proof (K x a). pose proof (K y b). pose proof (K z c). lra.
Qed.

Lemma abscissa_length recip k qpts : (0 < length qpts)%nat -> length (calc_abscissa recip k qpts) = length qpts.
Proof.
  intros H. unfold calc_abscissa, cumsum. rewrite map_length, length_cumsum_from. cbn [length]. rewrite map_length, length_np_diff. lia.
Qed.

Lemma nth_scale k l i : nth i (map (fun x => x * k) l) 0 = nth i l 0 * k.
Proof. replace 0 with (0 * k) at 1 by ring. apply (map_nth (fun x => x * k)). Qed.

Lemma abscissa_first recip k qpts : nth 0 (calc_abscissa recip k qpts) 0 = 0.
Proof. unfold calc_abscissa. rewrite nth_scale. unfold cumsum. cbn [cumsum_from nth]. ring. Qed.

Lemma abscissa_step recip k qpts i : (S i < length qpts)%nat ->
  let d := vsub (nth (S i) qpts vzero) (nth i qpts vzero) in
  let x j := nth j (calc_abscissa recip k qpts) 0 in
  (lattice_jump d -> x (S i) = x i) /\
  (~ lattice_jump d -> x (S i) = x i + norm (vmul d recip) * k).
Proof.
  intros Hi d x. unfold x, calc_abscissa. rewrite !nth_scale.
  rewrite cumsum_step by (cbn [length]; rewrite map_length, length_np_diff; lia).
  cbn [nth]. rewrite (map_nth_indep (modq recip) (np_diff qpts) i vzero 0) by (rewrite length_np_diff; lia).
  rewrite nth_np_diff by exact Hi. fold d. unfold modq.
  destruct (calc_modq d) eqn:E.
  - split; [|intros; ring]. intros H. apply calc_modq_false in H. congruence.
  - split; [intros; ring|]. intros H. apply calc_modq_false in E. contradiction.
Qed.

Lemma step_monotone {n : nat} (f : nat -> R) : (forall i, (S i < n)%nat -> f i <= f (S i)) ->
  forall i j, (i <= j)%nat -> (j < n)%nat -> f i <= f j.
Proof.
  intros H i j Hij Hj. induction Hij; [lra|]. specialize (IHHij ltac:(lia)). specialize (H m ltac:(lia)). lra.
Qed.

Lemma abscissa_monotone recip k qpts i j : 0 <= k -> (i <= j)%nat -> (j < length qpts)%nat ->
  nth i (calc_abscissa recip k qpts) 0 <= nth j (calc_abscissa recip k qpts) 0.
Proof.
  intros Hk. apply (step_monotone (fun i => nth i (calc_abscissa recip k qpts) 0)). clear i j. intros i Hi.
  destruct (abscissa_step recip k qpts i Hi) as [H1 H2].
  set (d := vsub _ _) in *. destruct (calc_modq d) eqn:E.
  - rewrite H2 by (intros H; apply calc_modq_false in H; congruence).
    pose proof (norm_nonneg (vmul d recip)). pose proof (Rmult_le_pos _ _ H Hk). lra.
  - rewrite H1 by (apply calc_modq_false; exact E). lra.
Qed.

(** ** labels *)
Lemma nth_removelast {A} (l : list A) i d : (S i < length l)%nat -> nth i (removelast l) d = nth i l d.
Proof.
  intros Hi. destruct l as [|a l]; [cbn in Hi; lia|].
  rewrite (app_removelast_last (l := a :: l) d) at 2 by discriminate. rewrite app_nth1; [reflexivity|].
  rewrite removelast_firstn_len, firstn_length. lia.
Qed.
Lemma length_removelast {A} (l : list A) : length (removelast l) = (length l - 1)%nat.
Proof. rewrite removelast_firstn_len, firstn_length. lia. Qed.
Lemma nth_tl {A} (l : list A) i d : nth i (tl l) d = nth (S i) l d.
Proof. destruct l; [destruct i|]; reflexivity. Qed.
Lemma length_tl {A} (l : list A) : length (tl l) = (length l - 1)%nat.
Proof. destruct l; cbn [tl length]; lia. Qed.
Lemma length_interior {A} (l : list A) : length (interior l) = (length l - 2)%nat.
Proof. unfold interior. rewrite length_removelast, length_tl. lia. Qed.
Lemma nth_interior {A} (l : list A) i d : (S (S i) < length l)%nat -> nth i (interior l) d = nth (S i) l d.
Proof. intros H. unfold interior. rewrite nth_removelast by (rewrite length_tl; lia). apply nth_tl. Qed.

Lemma length_direction_changed tol l : length (direction_changed tol l) = (length l - 2)%nat.
Proof.
  unfold direction_changed. cbv zeta. rewrite map_length, combine_length, length_tl, length_np_diff. lia.
Qed.
Lemma nth_direction_changed tol l i : (S (S i) < length l)%nat ->
  let d0 := vsub (nth (S i) l vzero) (nth i l vzero) in
  let d1 := vsub (nth (S (S i)) l vzero) (nth (S i) l vzero) in
  nth i (direction_changed tol l) false = Rltb tol (Rabs (Rabs (dot d1 d0) - norm d1 * norm d0)).
Proof.
  intros Hi d0 d1. unfold direction_changed. cbv zeta.
  rewrite (map_nth_indep _ _ i (vzero, vzero) false) by (rewrite combine_length, length_tl, length_np_diff; lia).
  rewrite nth_combine_tl by (rewrite length_np_diff; lia). cbn [fst snd].
  rewrite !nth_np_diff by lia. reflexivity.
Qed.

Lemma nth_combine {A B} (l : list A) (m : list B) i a b : length l = length m -> 
  nth i (combine l m) (a, b) = (nth i l a, nth i m b).
Proof. apply combine_nth. Qed.

Definition turns (qpts : list V3) (i : nat) : Prop :=
  let d0 := vsub (nth i qpts vzero) (nth (i - 1) qpts vzero) in
  let d1 := vsub (nth (i + 1) qpts vzero) (nth i qpts vzero) in
  dir_tol < norm d1 * norm d0 - Rabs (dot d1 d0).

Lemma cs_abs u v : Rabs (dot u v) <= norm u * norm v.
Proof. apply cauchy. Qed.

Lemma nth_has_label qpts i : (i < length qpts)%nat ->
  nth i (qpt_has_label qpts) false = true <->
  (i = 0%nat \/ i = (length qpts - 1)%nat \/
   ((0 < i)%nat /\ (i < length qpts - 1)%nat /\
    (turns qpts i \/ is_gamma (nth i qpts vzero) = true \/ nth (i + 1) qpts vzero = nth i qpts vzero))).
Proof.
  intros Hi. unfold qpt_has_label. destruct (Nat.leb_spec (length qpts) 2) as [H2|H2].
  - rewrite (map_nth_indep _ qpts i vzero false) by exact Hi. split; [|reflexivity]. intros _. lia.
  - destruct i as [|i]; [cbn; split; [left; reflexivity|reflexivity]|].
    set (M := map _ (combine _ _)).
    assert (LM : length M = (length qpts - 2)%nat).
    { unfold M. rewrite map_length, !combine_length, length_direction_changed, !map_length, combine_length, length_tl, length_tl, !length_interior. lia. }
    cbn [app nth]. destruct (Nat.eq_dec (S i) (length qpts - 1)) as [E|N].
    + rewrite app_nth2 by lia. replace (i - length M)%nat with 0%nat by lia. cbn. split; [lia|reflexivity].
    + rewrite app_nth1 by lia. unfold M in *.
      rewrite (map_nth_indep _ _ i ((false, false), false) false) by (rewrite map_length in LM; lia).
      rewrite combine_nth by (rewrite !combine_length, length_direction_changed, !map_length, combine_length, !length_tl, !length_interior; lia).
      rewrite combine_nth by (rewrite length_direction_changed, !map_length, !length_interior; lia). cbn [fst snd].
      rewrite nth_direction_changed by lia. cbv zeta.
      rewrite (map_nth_indep is_gamma _ i vzero false) by (rewrite length_interior; lia). rewrite nth_interior by lia.
      rewrite (map_nth_indep _ (combine (tl (tl qpts)) (interior qpts)) i (vzero, vzero) false)
        by (rewrite combine_length, !length_tl, length_interior; lia).
      rewrite combine_nth by (rewrite !length_tl, length_interior; lia). cbn [fst snd].
      rewrite nth_interior by lia. rewrite !nth_tl. rewrite !orb_true_iff, Rltb_iff.
      unfold turns, dir_tol. replace (S i - 1)%nat with i by lia. replace (S i + 1)%nat with (S (S i)) by lia.
      pose proof (cs_abs (vsub (nth (S (S i)) qpts vzero) (nth (S i) qpts vzero)) (vsub (nth (S i) qpts vzero) (nth i qpts vzero))) as C.
      rewrite Rabs_left1 by lra.
      unfold V3_eqb. destruct (V3_eq_dec _ _) as [E|E].
      * split; [|intros; right; reflexivity]. intros _. right. right. split; [lia|]. split; [lia|]. auto.
      * split.
        -- intros [[H|H]|H]; [| |discriminate]; right; right; (split; [lia|]; split; [lia|]); [left; lra|auto].
        -- intros [H|[H|[_ [_ [H|[H|H]]]]]]; [lia|lia|left; left; lra|left; right; exact H|contradiction].
Qed.

Lemma length_has_label qpts : length (qpt_has_label qpts) = length qpts.
Proof.
  unfold qpt_has_label. destruct (Nat.leb_spec (length qpts) 2) as [H2|H2]; [apply map_length|].
  rewrite !app_length, map_length, !combine_length, length_direction_changed, !map_length, combine_length, !length_tl, !length_interior.
  cbn [length]. lia.
Qed.

Theorem labels_spec qpts :
  StronglySorted lt (qpts_with_labels qpts) /\
  forall i, In i (qpts_with_labels qpts) <-> (i < length qpts)%nat /\
   (i = 0%nat \/ i = (length qpts - 1)%nat \/
   ((0 < i)%nat /\ (i < length qpts - 1)%nat /\
    (turns qpts i \/ is_gamma (nth i qpts vzero) = true \/ nth (i + 1) qpts vzero = nth i qpts vzero))).
Proof.
  unfold qpts_with_labels, where_true. rewrite length_has_label. split.
  - apply filter_sorted. apply seq_sorted.
  - intros i. rewrite filter_In, in_seq. split.
    + intros [H1 H2]. split; [lia|]. apply nth_has_label; [lia|exact H2].
    + intros [H1 H2]. split; [lia|]. apply nth_has_label; assumption.
Qed.

Lemma map_fst_combine' {A B} (l : list A) (m : list B) : length m = length l -> map fst (combine l m) = l.
Proof. revert m; induction l; intros [|b m] H; cbn in *; try discriminate; [reflexivity..|]. f_equal. apply IHl. lia. Qed.

Lemma qpoint_labels_positions points show qpts : map fst (get_qpoint_labels points show qpts) = qpts_with_labels qpts.
Proof.
  unfold get_qpoint_labels. cbv zeta. rewrite map_fst_combine'; [reflexivity|].
  destruct (forallb _ _); rewrite map_length; reflexivity.
Qed.
