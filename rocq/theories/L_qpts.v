(** Proofs about q-point handling. *)
From Verif Require Import Base Vec3 M_qpts S_qpts.

(** ** rounding *)
Lemma rint_dist x : Rabs (x - IZR (rint x)) <= 1/2.
Proof.
  unfold rint. pose proof (base_Int_part x) as [H1 H2].
  destruct (Rlt_dec _ _) as [Ha|Ha].
  - rewrite Rabs_right; lra.
  - destruct (Rlt_dec _ _) as [Hb|Hb].
    + rewrite plus_IZR. rewrite Rabs_left; lra.
    + destruct (Z.even _); [rewrite Rabs_right; lra|].
      rewrite plus_IZR. rewrite Rabs_left; lra.
Qed.

Lemma Int_part_unique x n : IZR n <= x < IZR n + 1 -> Int_part x = n.
Proof.
  intros [H1 H2]. pose proof (base_Int_part x) as [H3 H4].
  assert (IZR (Int_part x) < IZR (n + 1)) by (rewrite plus_IZR; lra).
  assert (IZR n < IZR (Int_part x + 1)) by (rewrite plus_IZR; lra).
  apply lt_IZR in H, H0. lia.
Qed.

Lemma rint_small x : Rabs x <= 1/2 -> Rabs (x - IZR (rint x)) = Rabs x.
Proof.
  intros H.
  assert (Hb : -(1/2) <= x <= 1/2) by (unfold Rabs in H; destruct (Rcase_abs x); lra). clear H.
  unfold rint. destruct (Rle_lt_dec 0 x) as [Hx|Hx].
  - assert (Int_part x = 0%Z) as -> by (apply Int_part_unique; simpl; lra).
    cbn [Z.even Z.add]. replace (x - IZR 0) with x by (simpl; ring).
    destruct (Rlt_dec x (1/2)); [f_equal; simpl; ring|].
    destruct (Rlt_dec (1/2) x); [lra|f_equal; simpl; ring].
  - assert (Int_part x = (-1)%Z) as -> by (apply Int_part_unique; simpl; lra).
    cbn [Z.even Z.add]. replace (x - IZR (-1)) with (x + 1) by (simpl; ring).
    destruct (Rlt_dec (x+1) (1/2)); [lra|].
    destruct (Rlt_dec (1/2) (x+1)); f_equal; cbn [Z.pos_sub Z.add]; simpl; ring.
Qed.

Lemma rint_frac_dist_eq x : Rabs (x - IZR (c_round x)) = Rabs (x - IZR (rint x)).
Proof.
  unfold c_round, rint. pose proof (base_Int_part x) as [H1 H2].
  destruct (Rlt_dec _ _) as [Ha|Ha]; [reflexivity|].
  destruct (Rlt_dec _ _) as [Hb|Hb]; [reflexivity|].
  assert (x - IZR (Int_part x) = 1/2) by lra.
  destruct (_ <? _)%Z, (Z.even _); try reflexivity; rewrite plus_IZR;
    unfold Rabs; destruct (Rcase_abs _), (Rcase_abs _); lra.
Qed.

Lemma c_is_gamma_ok q : c_is_gamma q = is_gamma q.
Proof.
  destruct q as [[x y] z]. unfold c_is_gamma, is_gamma, c_frac_dist, frac_dist.
  rewrite !rint_frac_dist_eq, Rplus_0_l. reflexivity.
Qed.

Lemma gamma_tol_pos : 0 < gamma_tol.
Proof. unfold gamma_tol. apply Rinv_0_lt_compat. apply pow_lt. lra. Qed.

Lemma is_gamma_vzero : is_gamma vzero = true.
Proof.
  unfold is_gamma, vzero, frac_dist.
  pose proof (rint_small 0) as H. rewrite !H by (rewrite Rabs_R0; lra).
  rewrite Rabs_R0. apply Rltb_true. pose proof gamma_tol_pos. lra.
Qed.

Lemma is_gamma_canon q : is_gamma (canon q) = is_gamma q.
Proof.
  unfold canon. destruct (is_gamma q) eqn:E; [apply is_gamma_vzero|].
  rewrite <- E. destruct q as [[x y] z]. unfold is_gamma, qnorm, frac_dist.
  rewrite (rint_small (x - IZR (rint x))), (rint_small (y - IZR (rint y))),
    (rint_small (z - IZR (rint z))) by apply rint_dist. reflexivity.
Qed.

Lemma is_gamma_canon_zero q : is_gamma (canon q) = true -> canon q = vzero.
Proof. rewrite is_gamma_canon. intros H. unfold canon. rewrite H. reflexivity. Qed.

(** ** np.unique *)
Lemma lexlt_trans u v w : lexlt u v = true -> lexlt v w = true -> lexlt u w = true.
Proof.
  destruct u as [[a b] c], v as [[d e] f], w as [[g h] i]. unfold lexlt.
  repeat destruct (Rlt_dec _ _); intros; try discriminate; try reflexivity; try lra.
Qed.
Lemma lexlt_irrefl u : lexlt u u = false.
Proof.
  destruct u as [[a b] c]. unfold lexlt. repeat destruct (Rlt_dec _ _); try reflexivity; lra.
Qed.
Lemma lexlt_total u v : u <> v -> lexlt u v = false -> lexlt v u = true.
Proof.
  destruct u as [[a b] c], v as [[d e] f]. unfold lexlt. intros Hne.
  repeat destruct (Rlt_dec _ _); intros; try discriminate; try reflexivity; try lra.
  exfalso. apply Hne. f_equal; [f_equal|]; lra.
Qed.

Inductive sortedL : list V3 -> Prop :=
| sL_nil : sortedL []
| sL_cons x l : (forall y, In y l -> lexlt x y = true) -> sortedL l -> sortedL (x :: l).

Lemma in_insert_uniq x y l : In y (insert_uniq x l) <-> y = x \/ In y l.
Proof.
  induction l as [|z l IH]; cbn [insert_uniq].
  - simpl. intuition.
  - destruct (V3_eq_dec x z) as [->|Hne]; [simpl; intuition|].
    destruct (lexlt x z); simpl in *; intuition.
Qed.

Lemma insert_uniq_sorted x l : sortedL l -> sortedL (insert_uniq x l).
Proof.
  induction 1 as [|z l Hz Hs IH]; cbn [insert_uniq].
  - constructor; [intros y []|constructor].
  - destruct (V3_eq_dec x z) as [->|Hne]; [constructor; assumption|].
    destruct (lexlt x z) eqn:E.
    + constructor; [|constructor; assumption].
      intros y [<-|Hy]; [exact E|]. apply (lexlt_trans x z y E). apply Hz. exact Hy.
    + constructor; [|exact IH]. intros y Hy. apply in_insert_uniq in Hy.
      destruct Hy as [->|Hy]; [apply lexlt_total; assumption|apply Hz; exact Hy].
Qed.

Lemma np_unique_sorted l : sortedL (np_unique l).
Proof. induction l as [|x l IH]; [constructor|]. apply insert_uniq_sorted. exact IH. Qed.

Lemma in_np_unique x l : In x (np_unique l) <-> In x l.
Proof.
  induction l as [|y l IH]; [reflexivity|].
  change (np_unique (y :: l)) with (insert_uniq y (np_unique l)).
  rewrite in_insert_uniq, IH. simpl. intuition.
Qed.

Lemma sortedL_NoDup l : sortedL l -> NoDup l.
Proof.
  induction 1 as [|x l Hx Hs IH]; constructor; [|exact IH].
  intros Hin. apply Hx in Hin. rewrite lexlt_irrefl in Hin. discriminate.
Qed.

Lemma np_unique_NoDup l : NoDup (np_unique l).
Proof. apply sortedL_NoDup, np_unique_sorted. Qed.

Lemma index_of_lt x l : In x l -> (index_of x l < length l)%nat.
Proof.
  induction l as [|y l IH]; intros H; [destruct H|]. cbn [index_of length].
  destruct (V3_eq_dec x y); [lia|]. destruct H as [->|H]; [congruence|]. apply IH in H. lia.
Qed.
Lemma nth_index_of x l d : In x l -> nth (index_of x l) l d = x.
Proof.
  induction l as [|y l IH]; intros H; [destruct H|]. cbn [index_of].
  destruct (V3_eq_dec x y) as [->|Hne]; [reflexivity|].
  destruct H as [->|H]; [congruence|]. cbn [nth]. apply IH. exact H.
Qed.
Lemma index_of_nth l k d : NoDup l -> (k < length l)%nat -> index_of (nth k l d) l = k.
Proof.
  intros Hnd Hk. apply (proj1 (NoDup_nth l d) Hnd).
  - apply index_of_lt. apply nth_In. exact Hk.
  - exact Hk.
  - apply nth_index_of. apply nth_In. exact Hk.
Qed.

(** ** where, scatter, mapE *)
Lemma in_where_true m i : In i (where_true m) <-> (i < length m)%nat /\ nth i m false = true.
Proof.
  unfold where_true. rewrite filter_In, in_seq. split; intros [H1 H2]; split; auto; lia.
Qed.
Lemma NoDup_where_true m : NoDup (where_true m).
Proof. apply NoDup_filter, seq_NoDup. Qed.

Lemma in_where_eq l v i : In i (where_eq l v) <-> (i < length l)%nat /\ nth i l 0%nat = v.
Proof.
  unfold where_eq. rewrite in_where_true, map_length. split; intros [H1 H2]; split; auto.
  - rewrite (map_nth_indep _ _ _ 0%nat) in H2 by exact H1. apply Nat.eqb_eq. exact H2.
  - rewrite (map_nth_indep _ _ _ 0%nat) by exact H1. apply Nat.eqb_eq. exact H2.
Qed.

Lemma NoDup_singleton {A} (l : list A) x : NoDup l -> (forall y, In y l <-> y = x) -> l = [x].
Proof.
  intros Hnd H. destruct l as [|a [|b l]].
  - exfalso. apply (proj2 (H x)). reflexivity.
  - f_equal. apply H. left. reflexivity.
  - exfalso. assert (a = x) by (apply H; left; reflexivity).
    assert (b = x) by (apply H; right; left; reflexivity). subst.
    inversion Hnd as [|? ? Hni _]. apply Hni. left. reflexivity.
Qed.

Lemma where_eq_unique l v i : (i < length l)%nat -> nth i l 0%nat = v ->
  (forall j, (j < length l)%nat -> nth j l 0%nat = v -> j = i) -> where_eq l v = [i].
Proof.
  intros Hi Hv Hu. apply NoDup_singleton; [apply NoDup_where_true|].
  intros j. rewrite in_where_eq. split.
  - intros [H1 H2]. apply Hu; assumption.
  - intros ->. split; assumption.
Qed.

Lemma set_nth_length {A} (l : list A) i v : length (set_nth l i v) = length l.
Proof.
  revert i. induction l as [|x l IH]; intros [|i]; simpl; try reflexivity. rewrite IH. reflexivity.
Qed.
Lemma nth_set_nth {A} (l : list A) i j v d :
  nth j (set_nth l i v) d = if (Nat.eqb j i && (i <? length l)%nat)%bool then v else nth j l d.
Proof.
  revert i j. induction l as [|x l IH]; intros i j.
  - cbn [set_nth length]. destruct i; rewrite ?andb_false_r; reflexivity.
  - destruct i as [|i], j as [|j]; cbn [set_nth nth length Nat.eqb]; try reflexivity.
    rewrite IH. cbn [Nat.ltb]. reflexivity.
Qed.
Lemma scatter_length {A} (l : list A) idx vals : length (scatter l idx vals) = length l.
Proof.
  revert l vals. induction idx as [|i idx IH]; intros l [|v vals]; simpl; try reflexivity.
  rewrite IH. apply set_nth_length.
Qed.
Lemma nth_scatter_notin {A} (l : list A) idx vals i d :
  ~ In i idx -> nth i (scatter l idx vals) d = nth i l d.
Proof.
  revert l vals. induction idx as [|k idx IH]; intros l [|v vals] Hni; simpl; try reflexivity.
  rewrite IH by (intros H; apply Hni; right; exact H).
  rewrite nth_set_nth. destruct (Nat.eqb_spec i k) as [->|]; [|reflexivity].
  exfalso. apply Hni. left. reflexivity.
Qed.
Lemma nth_scatter_in {A} (l : list A) idx vals j d :
  NoDup idx -> (forall i, In i idx -> (i < length l)%nat) ->
  (j < length idx)%nat -> (j < length vals)%nat ->
  nth (nth j idx 0%nat) (scatter l idx vals) d = nth j vals d.
Proof.
  revert l vals j. induction idx as [|k idx IH]; intros l [|v vals] j Hnd Hlt Hj Hj2;
    cbn [length] in Hj, Hj2; try lia.
  inversion Hnd as [|? ? Hni Hnd']; subst. cbn [scatter].
  destruct j as [|j]; cbn [nth].
  - rewrite nth_scatter_notin by exact Hni. rewrite nth_set_nth, Nat.eqb_refl.
    assert (k < length l)%nat as H by (apply Hlt; left; reflexivity).
    apply Nat.ltb_lt in H. rewrite H. reflexivity.
  - apply IH; try lia; [exact Hnd'|]. intros i Hi. rewrite set_nth_length. apply Hlt. right. exact Hi.
Qed.

Lemma mapE_ok {A B E} (f : A -> res B E) (g : A -> B) l :
  (forall x, In x l -> f x = Ok (g x)) -> mapE f l = Ok (map g l).
Proof.
  induction l as [|x l IH]; intros H; [reflexivity|]. cbn [mapE map].
  rewrite H by (left; reflexivity). rewrite IH; [reflexivity|].
  intros y Hy. apply H. right. exact Hy.
Qed.

(** ** Generic correctness from an index invariant *)
Section Generic.
Variable X : Type.
Variable calc : V3 -> option V3 -> X.
Variable dflt : X.

Lemma get_q_dir_approach qpts qpts_i idx p :
  length qpts_i = length qpts -> where_eq qpts_i idx = [p] -> (p < length qpts)%nat ->
  get_q_dir qpts qpts_i idx = Ok (approach qpts p).
Proof.
  intros Hl Hw Hp. unfold get_q_dir, approach, getq. rewrite Hw.
  destruct (Nat.ltb_spec 1 (length qpts)) as [H1|H1];
    destruct (Nat.leb_spec (length qpts) 1) as [H2|H2]; try lia; [|reflexivity].
  destruct (Nat.eqb_spec p 0) as [->|Hp0]; [reflexivity|].
  destruct (Nat.eqb_spec p (length qpts - 1)) as [Hpe|Hpe].
  - subst p. replace (length qpts - 1 - 1)%nat with (length qpts - 2)%nat by lia. reflexivity.
  - destruct (is_gamma _); reflexivity.
Qed.

Lemma calculate_generic c reduce splitting qpts rq qpts_i :
  reduce_qpts reduce splitting qpts = (rq, qpts_i) ->
  length qpts_i = length qpts ->
  (forall i, (i < length qpts)%nat ->
     (nth i qpts_i 0%nat < length rq)%nat /\
     nth (nth i qpts_i 0%nat) rq vzero = c (nth i qpts vzero)) ->
  (forall q, is_gamma (c q) = is_gamma q) ->
  (splitting = true -> forall k, (k < length rq)%nat -> is_gamma (nth k rq vzero) = true ->
     exists i, (i < length qpts)%nat /\ nth i qpts_i 0%nat = k /\
       forall j, (j < length qpts)%nat -> nth j qpts_i 0%nat = k -> j = i) ->
  exists out, calculate calc dflt reduce splitting qpts = Ok out /\
    length out = length qpts /\
    forall i q, nth_error qpts i = Some q ->
      nth_error out i = Some (calc (c q)
        (if (splitting && is_gamma q)%bool then Some (approach qpts i) else None)).
Proof.
  intros Hr Hlen Hidx Hc Hsplit. unfold calculate. rewrite Hr.
  set (split_idx := if splitting then where_true (map is_gamma rq) else []).
  (* position of the input gamma for each reduced gamma *)
  set (pos := fun k => hd 0%nat (where_eq qpts_i k)).
  assert (Hpos : forall k, In k split_idx -> where_eq qpts_i k = [pos k] /\ (pos k < length qpts)%nat).
  { intros k Hk. unfold split_idx in Hk. destruct splitting; [|destruct Hk].
    apply in_where_true in Hk. rewrite map_length in Hk. destruct Hk as [Hk1 Hk2].
    rewrite (map_nth_indep _ _ _ vzero) in Hk2 by exact Hk1.
    destruct (Hsplit eq_refl k Hk1 Hk2) as [i [Hi1 [Hi2 Hi3]]].
    assert (Hw : where_eq qpts_i k = [i]).
    { apply where_eq_unique; [lia|exact Hi2|]. intros j Hj. apply Hi3. lia. }
    unfold pos. rewrite Hw. cbn [hd]. split; [reflexivity|exact Hi1]. }
  rewrite (mapE_ok _ (fun k => approach qpts (pos k))).
  2:{ intros k Hk. destruct (Hpos k Hk) as [H1 H2]. apply get_q_dir_approach; assumption. }
  set (rcalc := fun k => calc (nth k rq vzero)
     (if (splitting && is_gamma (nth k rq vzero))%bool then Some (approach qpts (pos k)) else None)).
  rewrite (mapE_ok _ rcalc).
  2:{ intros k Hk. apply in_seq in Hk. unfold getq, rcalc.
      destruct (splitting && is_gamma (nth k rq vzero))%bool eqn:E; [|reflexivity].
      assert (Hin : In k split_idx).
      { unfold split_idx. apply andb_true_iff in E. destruct E as [-> E].
        apply in_where_true. rewrite map_length. split; [lia|].
        rewrite (map_nth_indep _ _ _ vzero) by lia. exact E. }
      destruct (first_where split_idx k) as [m|] eqn:Ef.
      - unfold first_where in Ef.
        assert (Hm : In m (where_eq split_idx k)).
        { destruct (where_eq split_idx k); [discriminate|]. injection Ef as ->. left. reflexivity. }
        apply in_where_eq in Hm. destruct Hm as [Hm1 Hm2].
        rewrite (map_nth_indep _ _ _ 0%nat) by exact Hm1. rewrite Hm2. reflexivity.
      - exfalso. apply (In_nth _ _ 0%nat) in Hin. destruct Hin as [m [Hm1 Hm2]].
        assert (Hm : In m (where_eq split_idx k)) by (apply in_where_eq; split; assumption).
        unfold first_where in Ef. destruct (where_eq split_idx k); [destruct Hm|discriminate]. }
  eexists. split; [reflexivity|]. split; [rewrite map_length; exact Hlen|].
  intros i q Hq.
  assert (Hi : (i < length qpts)%nat) by (apply nth_error_Some; congruence).
  assert (Hqn : nth i qpts vzero = q) by (apply nth_error_nth; exact Hq).
  destruct (Hidx i Hi) as [Hk1 Hk2]. set (k := nth i qpts_i 0%nat) in *.
  rewrite (nth_error_nth' _ dflt) by (rewrite map_length; lia). f_equal.
  rewrite (map_nth_indep _ _ _ 0%nat) by lia. fold k.
  rewrite (map_nth_indep _ _ _ 0%nat) by (rewrite seq_length; exact Hk1).
  rewrite nth_seq_id by exact Hk1. unfold rcalc. rewrite Hk2, Hqn, Hc.
  destruct (splitting && is_gamma q)%bool eqn:E; [|reflexivity].
  f_equal. f_equal. f_equal.
  apply andb_true_iff in E. destruct E as [Es Eg]. subst splitting.
  assert (Hin : In k split_idx).
  { unfold split_idx. apply in_where_true. rewrite map_length. split; [exact Hk1|].
    rewrite (map_nth_indep _ _ _ vzero) by exact Hk1. rewrite Hk2, Hqn, Hc. exact Eg. }
  destruct (Hpos k Hin) as [Hw _].
  assert (In i (where_eq qpts_i k)) as Hiw by (apply in_where_eq; split; [lia|reflexivity]).
  rewrite Hw in Hiw. destruct Hiw as [H|[]]. exact H.
Qed.
End Generic.

(** ** The two branches *)
Lemma norm_qpts_canon qpts : norm_qpts qpts = map canon qpts.
Proof. reflexivity. Qed.

Lemma inverse_spec qpts i : (i < length qpts)%nat ->
  nth i (np_unique_inverse (norm_qpts qpts)) 0%nat
    = index_of (canon (nth i qpts vzero)) (np_unique (norm_qpts qpts))
  /\ In (canon (nth i qpts vzero)) (np_unique (norm_qpts qpts)).
Proof.
  intros Hi. unfold np_unique_inverse.
  assert (Hl : (i < length (norm_qpts qpts))%nat) by (rewrite norm_qpts_canon, map_length; exact Hi).
  rewrite (map_nth_indep _ _ _ vzero) by exact Hl.
  assert (Hn : nth i (norm_qpts qpts) vzero = canon (nth i qpts vzero)).
  { rewrite norm_qpts_canon. apply map_nth_indep. exact Hi. }
  rewrite Hn. split; [reflexivity|]. apply in_np_unique. rewrite <- Hn. apply nth_In. exact Hl.
Qed.

Lemma unique_gamma_zero qpts k :
  (k < length (np_unique (norm_qpts qpts)))%nat ->
  is_gamma (nth k (np_unique (norm_qpts qpts)) vzero) = true ->
  nth k (np_unique (norm_qpts qpts)) vzero = vzero.
Proof.
  intros Hk Hg. assert (Hin := nth_In _ vzero Hk). apply (proj1 (in_np_unique _ _)) in Hin.
  revert Hin Hg. generalize (nth k (np_unique (norm_qpts qpts)) vzero). intros u Hin Hg.
  rewrite norm_qpts_canon in Hin. apply in_map_iff in Hin. destruct Hin as [q [<- _]]. apply is_gamma_canon_zero. exact Hg.
Qed.

Lemma reduce_invariant splitting qpts rq qpts_i :
  reduce_qpts true splitting qpts = (rq, qpts_i) ->
  length qpts_i = length qpts /\
  (forall i, (i < length qpts)%nat ->
     (nth i qpts_i 0%nat < length rq)%nat /\
     nth (nth i qpts_i 0%nat) rq vzero = canon (nth i qpts vzero)) /\
  (splitting = true -> forall k, (k < length rq)%nat -> is_gamma (nth k rq vzero) = true ->
     exists i, (i < length qpts)%nat /\ nth i qpts_i 0%nat = k /\
       forall j, (j < length qpts)%nat -> nth j qpts_i 0%nat = k -> j = i).
Proof.
  unfold reduce_qpts.
  set (U := np_unique (norm_qpts qpts)). set (inv := np_unique_inverse (norm_qpts qpts)).
  set (G := where_true (map is_gamma qpts)).
  assert (Hinvlen : length inv = length qpts).
  { unfold inv, np_unique_inverse. rewrite map_length, norm_qpts_canon, map_length. reflexivity. }
  assert (Hinv : forall i, (i < length qpts)%nat ->
     nth i inv 0%nat = index_of (canon (nth i qpts vzero)) U /\ In (canon (nth i qpts vzero)) U).
  { intros i Hi. apply inverse_spec. exact Hi. }
  assert (HinG : forall i, In i G <-> (i < length qpts)%nat /\ is_gamma (nth i qpts vzero) = true).
  { intros i. unfold G. rewrite in_where_true, map_length. split; intros [H1 H2]; split; auto.
    - rewrite (map_nth_indep _ _ _ vzero) in H2 by exact H1. exact H2.
    - rewrite (map_nth_indep _ _ _ vzero) by exact H1. exact H2. }
  assert (HndG : NoDup G) by apply NoDup_where_true.
  assert (HndU : NoDup U) by apply np_unique_NoDup.
  assert (Hinvlt : forall i, (i < length qpts)%nat -> (nth i inv 0%nat < length U)%nat).
  { intros i Hi. destruct (Hinv i Hi) as [-> Hin]. apply index_of_lt. exact Hin. }
  assert (Hinvnth : forall i, (i < length qpts)%nat -> nth (nth i inv 0%nat) U vzero = canon (nth i qpts vzero)).
  { intros i Hi. destruct (Hinv i Hi) as [-> Hin]. apply nth_index_of. exact Hin. }
  (* a gamma row of U is hit exactly by the gamma inputs *)
  assert (HUg : forall k, (k < length U)%nat -> is_gamma (nth k U vzero) = true ->
     forall i, (i < length qpts)%nat -> (nth i inv 0%nat = k <-> In i G)).
  { intros k Hk Hg i Hi. pose proof (unique_gamma_zero qpts k Hk Hg) as Hz. fold U in Hz.
    rewrite HinG. split.
    - intros He. split; [exact Hi|]. rewrite <- is_gamma_canon, <- Hinvnth by exact Hi.
      rewrite He. exact Hg.
    - intros [_ Hgi]. destruct (Hinv i Hi) as [-> Hin]. unfold canon. rewrite Hgi.
      rewrite <- Hz. apply index_of_nth; assumption. }
  (* some gamma input exists for a gamma row *)
  assert (HUex : forall k, (k < length U)%nat -> is_gamma (nth k U vzero) = true -> exists i, In i G).
  { intros k Hk Hg. assert (Hin := nth_In _ vzero Hk). unfold U in Hin. apply (proj1 (in_np_unique _ _)) in Hin.
    fold U in Hin. revert Hin Hg. generalize (nth k U vzero). intros u Hin Hg.
    rewrite norm_qpts_canon in Hin. apply (In_nth _ _ vzero) in Hin. destruct Hin as [i [Hi1 Hi2]].
    rewrite map_length in Hi1. exists i. apply HinG. split; [exact Hi1|].
    rewrite (map_nth_indep _ _ _ vzero) in Hi2 by exact Hi1.
    rewrite <- is_gamma_canon, Hi2. exact Hg. }
  destruct (splitting && (1 <? length G)%nat)%bool eqn:E.
  - (* several gammas, LO-TO *)
    apply andb_true_iff in E. destruct E as [-> E]. apply Nat.ltb_lt in E.
    destruct G as [|g0 G'] eqn:HG; [simpl in E; lia|].
    cbn [tl length]. replace (S (length G') - 1)%nat with (length G') by lia.
    intros H. injection H as <- <-.
    set (qi := scatter inv G' (seq (length U) (length G'))).
    inversion HndG as [|? ? Hni HndG']; subst.
    assert (HG'lt : forall i, In i G' -> (i < length inv)%nat).
    { intros i Hi. rewrite Hinvlen. apply HinG. right. exact Hi. }
    assert (Hqi_in : forall j, (j < length G')%nat -> nth (nth j G' 0%nat) qi 0%nat = (length U + j)%nat).
    { intros j Hj. unfold qi. rewrite nth_scatter_in; try assumption; rewrite ?seq_length; try exact Hj.
      apply seq_nth. exact Hj. }
    assert (Hqi_out : forall i, ~ In i G' -> nth i qi 0%nat = nth i inv 0%nat).
    { intros i Hi. apply nth_scatter_notin. exact Hi. }
    assert (Hdec : forall i, In i G' \/ ~ In i G') by (intros i; destruct (in_dec Nat.eq_dec i G'); auto).
    split; [unfold qi; rewrite scatter_length; exact Hinvlen|]. split.
    + intros i Hi. destruct (Hdec i) as [Hin|Hout].
      * assert (Hgi : is_gamma (nth i qpts vzero) = true) by (apply HinG; right; exact Hin).
        apply (In_nth _ _ 0%nat) in Hin. destruct Hin as [j [Hj1 Hj2]]. rewrite <- Hj2 at 1 2.
        rewrite Hqi_in by exact Hj1. rewrite app_length, repeat_length. split; [lia|].
        rewrite app_nth2 by lia. replace (length U + j - length U)%nat with j by lia.
        rewrite nth_repeat. unfold canon. rewrite Hgi. reflexivity.
      * rewrite Hqi_out by exact Hout. pose proof (Hinvlt i Hi) as Hlt.
        rewrite app_length. split; [lia|]. rewrite app_nth1 by exact Hlt. apply Hinvnth. exact Hi.
    + intros _ k Hk Hg. rewrite app_length, repeat_length in Hk.
      destruct (lt_dec k (length U)) as [HkU|HkU].
      * rewrite app_nth1 in Hg by exact HkU. exists g0.
        assert (Hg0 : In g0 (g0 :: G')) by (left; reflexivity).
        assert (Hg0n : (g0 < length qpts)%nat) by (apply HinG; exact Hg0).
        split; [exact Hg0n|]. rewrite (Hqi_out g0) by exact Hni. split.
        -- apply (HUg k HkU Hg g0 Hg0n). exact Hg0.
        -- intros j Hj Hjk. destruct (Hdec j) as [Hin|Hout].
           ++ apply (In_nth _ _ 0%nat) in Hin. destruct Hin as [m [Hm1 Hm2]].
              rewrite <- Hm2, Hqi_in in Hjk by exact Hm1. lia.
           ++ rewrite Hqi_out in Hjk by exact Hout. apply (HUg k HkU Hg j Hj) in Hjk.
              destruct Hjk as [H|H]; [symmetry; exact H|contradiction].
      * set (m := (k - length U)%nat). assert (Hm : (m < length G')%nat) by lia.
        exists (nth m G' 0%nat).
        assert (HmG : In (nth m G' 0%nat) G') by (apply nth_In; exact Hm).
        split; [apply HinG; right; exact HmG|]. split.
        -- rewrite Hqi_in by exact Hm. lia.
        -- intros j Hj Hjk. destruct (Hdec j) as [Hin|Hout].
           ++ apply (In_nth _ _ 0%nat) in Hin. destruct Hin as [m' [Hm1 Hm2]].
              rewrite <- Hm2, Hqi_in in Hjk by exact Hm1. rewrite <- Hm2. f_equal. lia.
           ++ rewrite Hqi_out in Hjk by exact Hout. pose proof (Hinvlt j Hj). lia.
  - intros H. injection H as <- <-. split; [exact Hinvlen|]. split.
    + intros i Hi. split; [apply Hinvlt|apply Hinvnth]; exact Hi.
    + intros -> k Hk Hg. cbn [andb] in E. apply Nat.ltb_ge in E.
      destruct (HUex k Hk Hg) as [i Hi]. exists i.
      assert (Hin : (i < length qpts)%nat) by (apply HinG; exact Hi).
      split; [exact Hin|]. split; [apply (HUg k Hk Hg i Hin); exact Hi|].
      intros j Hj Hjk. apply (HUg k Hk Hg j Hj) in Hjk.
      destruct G as [|g [|g' G'']]; cbn [length] in E; [destruct Hi| |lia].
      destruct Hi as [<-|[]], Hjk as [<-|[]]. reflexivity.
Qed.

Lemma calculate_correct X (calc : V3 -> option V3 -> X) dflt reduce splitting qpts :
  exists out, calculate calc dflt reduce splitting qpts = Ok out /\
    length out = length qpts /\
    forall i q, nth_error qpts i = Some q ->
      nth_error out i = Some (calc (if reduce then canon q else q)
        (if (splitting && is_gamma q)%bool then Some (approach qpts i) else None)).
Proof.
  destruct (reduce_qpts reduce splitting qpts) as [rq qpts_i] eqn:Hr.
  destruct reduce.
  - destruct (reduce_invariant _ _ _ _ Hr) as [H1 [H2 H3]].
    apply (calculate_generic X calc dflt canon true splitting qpts rq qpts_i Hr H1 H2 is_gamma_canon H3).
  - assert (Hr' := Hr). cbn [reduce_qpts] in Hr'. injection Hr' as <- <-.
    apply (calculate_generic X calc dflt (fun q => q) false splitting qpts qpts _ Hr).
    + apply seq_length.
    + intros i Hi. rewrite nth_seq_id by exact Hi. split; [exact Hi|reflexivity].
    + reflexivity.
    + intros _ k Hk _. exists k. split; [exact Hk|]. rewrite nth_seq_id by exact Hk.
      split; [reflexivity|]. intros j Hj. rewrite nth_seq_id by exact Hj. auto.
Qed.

Lemma nth_error_ext' {A} (l1 l2 : list A) :
  (forall i, nth_error l1 i = nth_error l2 i) -> l1 = l2.
Proof.
  revert l2. induction l1 as [|x l1 IH]; intros [|y l2] H.
  - reflexivity.
  - specialize (H 0%nat). discriminate.
  - specialize (H 0%nat). discriminate.
  - pose proof (H 0%nat) as H0. injection H0 as ->. f_equal. apply IH.
    intros i. apply (H (S i)).
Qed.

Lemma reduction_invisible X (calc : V3 -> option V3 -> X) dflt splitting qpts :
  (forall q d, In q qpts -> calc (canon q) d = calc q d) ->
  calculate calc dflt true splitting qpts = calculate calc dflt false splitting qpts.
Proof.
  intros H.
  destruct (calculate_correct X calc dflt true splitting qpts) as [o1 [-> [L1 P1]]].
  destruct (calculate_correct X calc dflt false splitting qpts) as [o2 [-> [L2 P2]]].
  f_equal. apply nth_error_ext'. intros i.
  destruct (nth_error qpts i) as [q|] eqn:Hq.
  - rewrite (P1 i q Hq), (P2 i q Hq). f_equal. apply H. eapply nth_error_In. exact Hq.
  - apply nth_error_None in Hq. rewrite !(proj2 (nth_error_None _ _)) by lia. reflexivity.
Qed.
