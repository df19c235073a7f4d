(** Lemmas for M_dynmat: closed forms. *)
From Verif Require Import Base Cpx Vec3 M_grid L_grid M_dynmat.
Open Scope R_scope.

Lemma Cnorm2_one z : Cnorm2 z = 1 -> Cinv z = Cconj z.
Proof.
  intros H. unfold Cinv. rewrite H. apply C_eq; simpl; field.
Qed.
Lemma Cpow_cis t n : Cpow (cis t) n = cis (INR n * t).
Proof.
  induction n as [|n IH].
  - simpl. rewrite Rmult_0_l. symmetry. apply cis_0.
  - cbn [Cpow]. rewrite IH, S_INR, <- cis_add. f_equal. ring.
Qed.
Lemma Cpowz_cis t k : Cpowz (cis t) k = cis (IZR k * t).
Proof.
  unfold Cpowz. destruct (Z.leb_spec 0 k) as [H|H].
  - rewrite Cpow_cis, INR_IZR_INZ, Z2Nat.id by lia. reflexivity.
  - rewrite Cpow_cis, INR_IZR_INZ, Z2Nat.id by lia.
    rewrite Cnorm2_one by apply Cnorm2_cis.
    rewrite <- cis_opp. f_equal. rewrite opp_IZR. ring.
Qed.

Lemma zinsert_In x y l : In y (zinsert x l) <-> y = x \/ In y l.
Proof.
  induction l as [|z l IH]; cbn [zinsert].
  - simpl. intuition congruence.
  - destruct (Z.eqb_spec x z) as [->|Hne].
    + simpl. intuition congruence.
    + destruct (x <? z)%Z; simpl in *; intuition congruence.
Qed.
Lemma zunique_In x l : In x (zunique l) <-> In x l.
Proof.
  induction l as [|y l IH]; [reflexivity|].
  change (zunique (y :: l)) with (zinsert y (zunique l)).
  rewrite zinsert_In. simpl. intuition congruence.
Qed.
Lemma zindex_spec x l : In x l ->
  (zindex x l < length l)%nat /\ nth (zindex x l) l 0%Z = x.
Proof.
  induction l as [|y l IH]; [intros []|].
  cbn [zindex]. destruct (Z.eqb_spec x y) as [->|Hne].
  - intros _. simpl. split; [lia|reflexivity].
  - intros [H|H]; [congruence|]. destruct (IH H). simpl. split; [lia|assumption].
Qed.

Lemma axis_phases_spec qk coords :
  axis_phases qk coords = map (fun k => cis (2 * PI * qk * IZR k)) coords.
Proof.
  unfold axis_phases, zunique_inverse. rewrite map_map.
  apply map_ext_in. intros x Hx.
  pose proof (proj2 (zunique_In x coords) Hx) as Hu.
  destruct (zindex_spec _ _ Hu) as [Hlt Hn].
  rewrite (map_nth_indep _ _ _ 0%Z) by exact Hlt.
  rewrite Hn, Cpowz_cis. f_equal. ring.
Qed.

Lemma cmul_lists_map {A} (f g : A -> C) l :
  cmul_lists (map f l) (map g l) = map (fun x => Cmul (f x) (g x)) l.
Proof.
  induction l as [|a l IH]; [reflexivity|].
  unfold cmul_lists in *. cbn [map combine]. rewrite IH. reflexivity.
Qed.

Lemma repeat_map {A B} (c : B) (l : list A) : repeat c (length l) = map (fun _ => c) l.
Proof. induction l as [|a l IH]; [reflexivity|]. simpl. rewrite IH. reflexivity. Qed.

Lemma calc_phases_spec q origins :
  calc_phases q origins = map (fun o => cis (2 * PI * dot q (zvec o))) origins.
Proof.
  destruct q as [[qx qy] qz]. unfold calc_phases.
  rewrite !axis_phases_spec, !map_map, repeat_map, !cmul_lists_map.
  apply map_ext. intros [[x y] z]. cbn [zx zy zz zvec dot].
  replace (2 * PI * (qx * IZR x + qy * IZR y + qz * IZR z))
    with (2 * PI * qx * IZR x + 2 * PI * qy * IZR y + 2 * PI * qz * IZR z) by ring.
  rewrite !cis_add. ring.
Qed.

Lemma cell_phase_spec d q nc : (nc < n_cells d)%nat ->
  cell_phase d q nc = cis (2 * PI * dot q (zvec (nth nc (f_origins d) (0,0,0)%Z))).
Proof.
  intros H. unfold cell_phase. rewrite calc_phases_spec.
  rewrite (map_nth_indep _ _ _ (0,0,0)%Z) by exact H. reflexivity.
Qed.

Lemma sc_phases_nth d s q k : (k < length (sc_image_r s))%nat ->
  py_nth (sc_phases d s q) (Z.of_nat k) Czero
  = cis (2 * PI * dot q (zvec (zmul3 (nth k (sc_image_r s) (0,0,0)%Z) (f_sc d)))).
Proof.
  intros H. unfold py_nth. destruct (Z.ltb_spec (Z.of_nat k) 0); [lia|].
  rewrite Nat2Z.id. unfold sc_phases. rewrite calc_phases_spec.
  unfold sc_origins. rewrite map_map, app_nth1 by (rewrite map_length; exact H).
  rewrite (map_nth_indep _ _ _ (0,0,0)%Z) by exact H. reflexivity.
Qed.
Lemma py_nth_last {A} (l : list A) x d : py_nth (l ++ [x]) (-1) d = x.
Proof.
  unfold py_nth. cbn [Z.ltb Z.compare].
  rewrite app_length. cbn [length].
  replace (Z.to_nat (Z.of_nat (length l + 1) + -1)) with (length l) by lia.
  rewrite app_nth2 by lia. rewrite Nat.sub_diag. reflexivity.
Qed.

(** Sum over the padded image list = sum over the images. *)
Lemma Csum_sc_image_i d t nc i j (f : Z -> C) :
  f (-1)%Z = Czero ->
  Csum (sc_image_i d t nc i j) f = Csum (t nc i j) (fun k => f (Z.of_nat k)).
Proof.
  intros H. unfold sc_image_i. rewrite Csum_app, Csum_map.
  rewrite (Csum_zero (repeat _ _)).
  - ring.
  - intros x Hx. apply repeat_spec in Hx. subst x. exact H.
Qed.

Definition tab_ok (t : imtab) (s : Z) : Prop :=
  forall nc i j k, In k (t nc i j) -> (k < length (sc_image_r s))%nat.

(** Lattice vector (in cell units) of image k of cell nc. *)
Definition lat (d : fcdata) (s : Z) (nc k : nat) : Z3 :=
  zadd3 (nth nc (f_origins d) (0,0,0)%Z)
        (zmul3 (nth k (sc_image_r s) (0,0,0)%Z) (f_sc d)).

Lemma zvec_add a b : zvec (zadd3 a b) = vadd (zvec a) (zvec b).
Proof.
  destruct a as [[a1 a2] a3], b as [[b1 b2] b3]. simpl. rewrite !plus_IZR. reflexivity.
Qed.
Lemma dot_vadd_r u v w : dot u (vadd v w) = dot u v + dot u w.
Proof. destruct u as [[? ?] ?], v as [[? ?] ?], w as [[? ?] ?]. simpl. ring. Qed.
Lemma dot_vadd_l u v w : dot (vadd v w) u = dot v u + dot w u.
Proof. destruct u as [[? ?] ?], v as [[? ?] ?], w as [[? ?] ?]. simpl. ring. Qed.
Lemma dot_comm u v : dot u v = dot v u.
Proof. destruct u as [[? ?] ?], v as [[? ?] ?]. simpl. ring. Qed.
Lemma dot_vscal_l k u v : dot (vscal k u) v = k * dot u v.
Proof. destruct u as [[? ?] ?], v as [[? ?] ?]. simpl. ring. Qed.
Lemma dot_vscal_r k u v : dot u (vscal k v) = k * dot u v.
Proof. destruct u as [[? ?] ?], v as [[? ?] ?]. simpl. ring. Qed.
Lemma vmul_vadd u v m : vmul (vadd u v) m = vadd (vmul u m) (vmul v m).
Proof.
  destruct u as [[? ?] ?], v as [[? ?] ?], m as [[[[? ?] ?] [[? ?] ?]] [[? ?] ?]].
  simpl. apply V3_eq; ring.
Qed.
Lemma vmul_vscal k u m : vmul (vscal k u) m = vscal k (vmul u m).
Proof.
  destruct u as [[? ?] ?], m as [[[[? ?] ?] [[? ?] ?]] [[? ?] ?]].
  simpl. apply V3_eq; ring.
Qed.

Lemma phase_lat d s q nc k :
  tab_ok (fun _ _ _ => [k]) s -> (nc < n_cells d)%nat ->
  Cmul (cell_phase d q nc) (py_nth (sc_phases d s q) (Z.of_nat k) Czero)
  = cis (2 * PI * dot q (zvec (lat d s nc k))).
Proof.
  intros Hk Hnc. assert (k < length (sc_image_r s))%nat as Hk'.
  { apply (Hk 0%nat 0%nat 0%nat k). left; reflexivity. }
  rewrite cell_phase_spec, sc_phases_nth by assumption.
  rewrite <- cis_add. unfold lat. rewrite zvec_add, dot_vadd_r. f_equal. ring.
Qed.

Lemma dyn_mat_closed d s t fcw q a b : tab_ok t s ->
  dyn_mat d s t fcw q a b
  = Csum (seq 0 (n_cells d)) (fun nc =>
      Cscal (fcw nc a b)
        (Csum (t nc (a / 3) (b / 3))%nat (fun k =>
           cis (2 * PI * dot q (zvec (lat d s nc k)))))).
Proof.
  intros Hok. unfold dyn_mat. apply Csum_ext. intros nc Hnc. apply in_seq in Hnc.
  f_equal. unfold sc_phase_sum. rewrite Csum_sc_image_i.
  2:{ apply py_nth_last. }
  rewrite <- Csum_mul. apply Csum_ext. intros k Hk.
  apply phase_lat; [|lia]. intros ? ? ? k' [<-|[]]. exact (Hok _ _ _ _ Hk).
Qed.

Lemma sc_origins_cart_nth d s k : (k < length (sc_image_r s))%nat ->
  py_nth (sc_origins_cart d s) (Z.of_nat k) vzero
  = vmul (zvec (zmul3 (nth k (sc_image_r s) (0,0,0)%Z) (f_sc d))) (f_cell d).
Proof.
  intros H. unfold py_nth. destruct (Z.ltb_spec (Z.of_nat k) 0); [lia|].
  rewrite Nat2Z.id. unfold sc_origins_cart, sc_origins.
  rewrite map_map, app_nth1 by (rewrite map_length; exact H).
  rewrite (map_nth_indep _ _ _ (0,0,0)%Z) by exact H. reflexivity.
Qed.
Lemma all_origins_cart_lat d s nc k : (k < length (sc_image_r s))%nat ->
  all_origins_cart d s nc (Z.of_nat k) = vmul (zvec (lat d s nc k)) (f_cell d).
Proof.
  intros H. unfold all_origins_cart, lat. rewrite sc_origins_cart_nth by exact H.
  rewrite zvec_add, vmul_vadd.
  destruct (vmul _ (f_cell d)) as [[? ?] ?], (vmul _ (f_cell d)) as [[? ?] ?].
  simpl. apply V3_eq; ring.
Qed.

Lemma dyn_mat_grad_closed d s t fcw q a b l : tab_ok t s ->
  dyn_mat_grad d s t fcw q a b l
  = Csum (seq 0 (n_cells d)) (fun nc =>
      Cscal (fcw nc a b)
        (Csum (t nc (a / 3) (b / 3))%nat (fun k =>
           Cmul Ci (Cscal (comp (vmul (zvec (lat d s nc k)) (f_cell d)) l)
             (cis (2 * PI * dot q (zvec (lat d s nc k)))))))).
Proof.
  intros Hok. unfold dyn_mat_grad. apply Csum_ext. intros nc Hnc. apply in_seq in Hnc.
  f_equal. rewrite Csum_sc_image_i.
  2:{ unfold sc_phases. rewrite py_nth_last. rewrite Cscal_mul. ring. }
  rewrite <- Csum_mul. apply Csum_ext. intros k Hk. f_equal.
  rewrite all_origins_cart_lat by exact (Hok _ _ _ _ Hk). f_equal.
  rewrite <- (phase_lat d s q nc k); [ring| |lia].
  intros ? ? ? k' [<-|[]]. exact (Hok _ _ _ _ Hk).
Qed.

(** * The image table *)

Lemma ws_loop_filter ws surv :
  ws_loop ws surv = filter (fun e => forallb (fun w => ws_pass w (snd e)) ws) surv.
Proof.
  revert surv. induction ws as [|w ws IH]; intros surv; cbn [ws_loop forallb].
  - symmetry. induction surv as [|a l IHl]; [reflexivity|]. simpl. rewrite IHl. reflexivity.
  - assert (filter (fun e => ws_pass w (snd e) && forallb (fun w => ws_pass w (snd e)) ws)%bool surv
            = filter (fun e => forallb (fun w => ws_pass w (snd e)) ws)
                (filter (fun e => ws_pass w (snd e)) surv)) as ->.
    { induction surv as [|a l IHl]; [reflexivity|]. cbn [filter].
      destruct (ws_pass w (snd a)); cbn [andb]; [cbn [filter]|]; rewrite IHl; reflexivity. }
    destruct (filter (fun e => ws_pass w (snd e)) surv) as [|e l] eqn:E.
    + reflexivity.
    + rewrite <- IH. reflexivity.
Qed.

(** The image test of a vector. *)
Definition in_ws (d : fcdata) (v : V3) : bool :=
  forallb (fun w => ws_pass w v) (ws_list_norm d).

Definition tab_bump (im : nat) (i : nat) (l : list (nat * nat * V3)) (t : imtab) : imtab :=
  fold_left (fun t e => let '(nc, j, _) := e in im_append t nc i j im) l t.

Lemma tab_bump_notin im i l t nc' i' j' :
  (i <> i' \/ ~ In (nc', j') (map fst l)) ->
  tab_bump im i l t nc' i' j' = t nc' i' j'.
Proof.
  unfold tab_bump. revert t. induction l as [|[[nc j] v] l IH]; intros t H; [reflexivity|].
  cbn [fold_left]. rewrite IH.
  - unfold im_append.
    destruct (Nat.eqb_spec nc nc'), (Nat.eqb_spec i i'), (Nat.eqb_spec j j'); subst;
      cbn [andb]; try reflexivity.
    exfalso. destruct H as [H|H]; [apply H; reflexivity|].
    apply H. left. reflexivity.
  - destruct H as [H|H]; [left; exact H|right]. intros Hin. apply H. right. exact Hin.
Qed.
Lemma tab_bump_in im i l t nc' j' :
  NoDup (map fst l) -> In (nc', j') (map fst l) ->
  tab_bump im i l t nc' i j' = t nc' i j' ++ [im].
Proof.
  revert t. induction l as [|[[nc j] v] l IH]; intros t Hnd Hin; [destruct Hin|].
  change (tab_bump im i ((nc, j, v) :: l) t) with (tab_bump im i l (im_append t nc i j im)).
  cbn [map fst] in Hnd, Hin.
  inversion Hnd as [|? ? Hni Hnd']; subst.
  destruct Hin as [Heq|Hin].
  - injection Heq as -> ->. rewrite tab_bump_notin by (right; exact Hni).
    unfold im_append. rewrite !Nat.eqb_refl. reflexivity.
  - rewrite IH by assumption. unfold im_append.
    destruct (Nat.eqb_spec nc nc'), (Nat.eqb_spec j j'); subst; cbn [andb];
      rewrite ?Nat.eqb_refl, ?andb_false_r; cbn [andb]; try reflexivity.
    contradiction.
Qed.

Lemma all_pairs_fst d i m :
  map fst (all_pairs d i m)
  = flat_map (fun nc => map (fun j => (nc, j)) (seq 0 (n_atoms d))) (seq 0 (n_cells d)).
Proof.
  unfold all_pairs. induction (seq 0 (n_cells d)) as [|nc l IH]; [reflexivity|].
  cbn [flat_map]. rewrite map_app, IH, map_map. reflexivity.
Qed.
Lemma all_pairs_In d i m e :
  In e (all_pairs d i m) <->
  exists nc j, (nc < n_cells d)%nat /\ (j < n_atoms d)%nat /\ e = (nc, j, image_dist d nc i j m).
Proof.
  unfold all_pairs. rewrite in_flat_map. split.
  - intros [nc [H1 H2]]. apply in_map_iff in H2. destruct H2 as [j [H2 H3]].
    apply in_seq in H1. apply in_seq in H3. exists nc, j. repeat split; [lia|lia|congruence].
  - intros [nc [j [H1 [H2 ->]]]]. exists nc. split; [apply in_seq; lia|].
    apply in_map_iff. exists j. split; [reflexivity|apply in_seq; lia].
Qed.
Lemma all_pairs_NoDup d i m : NoDup (map fst (all_pairs d i m)).
Proof.
  rewrite all_pairs_fst. apply NoDup_flat_map.
  - apply seq_NoDup.
  - intros nc _. apply NoDup_map_inj; [|apply seq_NoDup]. intros; congruence.
  - intros x y z _ _ Hx Hy. apply in_map_iff in Hx. apply in_map_iff in Hy.
    destruct Hx as [? [<- _]], Hy as [? [? _]]. congruence.
Qed.
Lemma NoDup_map_filter {A B} (f : A -> B) p l : NoDup (map f l) -> NoDup (map f (filter p l)).
Proof.
  induction l as [|a l IH]; intros H; [constructor|].
  cbn [map] in H. inversion H as [|? ? Hni Hnd]; subst. cbn [filter].
  destruct (p a); [|apply IH; exact Hnd]. cbn [map]. constructor; [|apply IH; exact Hnd].
  intros Hin. apply Hni. apply in_map_iff in Hin. destruct Hin as [y [Hy Hiny]].
  apply filter_In in Hiny. apply in_map_iff. exists y. tauto.
Qed.

Lemma image_step_spec d i t im m nc' i' j' :
  (nc' < n_cells d)%nat -> (j' < n_atoms d)%nat ->
  image_step d i t (im, m) nc' i' j'
  = t nc' i' j' ++
    (if (Nat.eqb i i' && in_ws d (image_dist d nc' i j' m))%bool then [im] else []).
Proof.
  intros Hnc Hj. unfold image_step. rewrite ws_loop_filter.
  change (tab_bump im i (filter (fun e => in_ws d (snd e)) (all_pairs d i m)) t nc' i' j' = t nc' i' j' ++
    (if (Nat.eqb i i' && in_ws d (image_dist d nc' i j' m))%bool then [im] else [])).
  destruct (Nat.eqb_spec i i') as [<-|Hne]; cbn [andb].
  2:{ rewrite tab_bump_notin by (left; exact Hne). rewrite app_nil_r. reflexivity. }
  destruct (in_ws d (image_dist d nc' i j' m)) eqn:E.
  - apply tab_bump_in.
    + apply NoDup_map_filter, all_pairs_NoDup.
    + apply in_map_iff. exists (nc', j', image_dist d nc' i j' m). split; [reflexivity|].
      apply filter_In. split; [|exact E]. apply all_pairs_In. exists nc', j'. auto.
  - rewrite app_nil_r. apply tab_bump_notin. right. intros Hin.
    apply in_map_iff in Hin. destruct Hin as [e [He Hin]].
    apply filter_In in Hin. destruct Hin as [Hin Hp]. apply all_pairs_In in Hin.
    destruct Hin as [nc [j [_ [_ ->]]]]. simpl in He, Hp. injection He as -> ->. congruence.
Qed.

Lemma image_steps_spec d i l t nc' i' j' :
  (nc' < n_cells d)%nat -> (j' < n_atoms d)%nat ->
  fold_left (image_step d i) l t nc' i' j'
  = t nc' i' j' ++
    (if Nat.eqb i i'
     then map fst (filter (fun e => in_ws d (image_dist d nc' i j' (snd e))) l) else []).
Proof.
  intros Hnc Hj. revert t. induction l as [|[im m] l IH]; intros t; cbn [fold_left filter map].
  - destruct (Nat.eqb i i'); rewrite app_nil_r; reflexivity.
  - rewrite IH, image_step_spec by assumption. rewrite <- app_assoc. f_equal.
    destruct (Nat.eqb i i'); cbn [andb]; [|reflexivity].
    cbn [snd]. destruct (in_ws d (image_dist d nc' i j' m)); reflexivity.
Qed.

Lemma image_steps_out d i l t nc' i' j' :
  ((n_cells d <= nc')%nat \/ (n_atoms d <= j')%nat) ->
  fold_left (image_step d i) l t nc' i' j' = t nc' i' j'.
Proof.
  intros H. revert t. induction l as [|[im m] l IH]; intros t; cbn [fold_left]; [reflexivity|].
  rewrite IH. unfold image_step. rewrite ws_loop_filter.
  apply (tab_bump_notin im i _ t). right. intros Hin.
  apply in_map_iff in Hin. destruct Hin as [e [He Hin]].
  apply filter_In in Hin. destruct Hin as [Hin _]. apply all_pairs_In in Hin.
  destruct Hin as [nc [j [H1 [H2 ->]]]]. simpl in He. injection He as -> ->. lia.
Qed.

Definition images_of (d : fcdata) (s : Z) (nc i j : nat) : list nat :=
  filter (fun k => in_ws d (image_dist d nc i j (nth k (sc_image_r s) (0,0,0)%Z)))
         (seq 0 (length (sc_image_r s))).

Lemma filter_combine_seq {A} (p : A -> bool) (l : list A) d0 (off : nat) :
  map fst (filter (fun e => p (snd e)) (combine (seq off (length l)) l))
  = filter (fun k => p (nth (k - off) l d0)) (seq off (length l)).
Proof.
  revert off. induction l as [|a l IH]; intros off; [reflexivity|].
  cbn [length seq combine filter snd]. rewrite Nat.sub_diag. change (nth 0 (a :: l) d0) with a.
  assert (filter (fun k => p (nth (k - off) (a :: l) d0)) (seq (S off) (length l))
          = filter (fun k => p (nth (k - S off) l d0)) (seq (S off) (length l))) as E.
  { apply filter_ext_in. intros k Hk. apply in_seq in Hk.
    replace (k - off)%nat with (S (k - S off)) by lia. reflexivity. }
  destruct (p a); cbn [map fst]; rewrite IH, E; reflexivity.
Qed.

Lemma sc_images_gen d l ims nc' i' j' t :
  (nc' < n_cells d)%nat -> (j' < n_atoms d)%nat -> NoDup l ->
  fold_left (fun t i => fold_left (image_step d i) ims t) l t nc' i' j'
  = t nc' i' j' ++
    (if existsb (Nat.eqb i') l
     then map fst (filter (fun e => in_ws d (image_dist d nc' i' j' (snd e))) ims) else []).
Proof.
  intros Hnc Hj. revert t. induction l as [|i l IH]; intros t Hnd; cbn [fold_left existsb].
  - rewrite app_nil_r. reflexivity.
  - inversion Hnd as [|? ? Hni Hnd']; subst.
    rewrite IH by exact Hnd'. rewrite image_steps_spec by assumption.
    rewrite (Nat.eqb_sym i' i).
    destruct (Nat.eqb_spec i i') as [<-|Hne]; cbn [orb].
    + assert (existsb (Nat.eqb i) l = false) as ->.
      { destruct (existsb (Nat.eqb i) l) eqn:E; [|reflexivity].
        apply existsb_exists in E. destruct E as [x [Hx E]].
        apply Nat.eqb_eq in E. subst x. contradiction. }
      rewrite app_nil_r. reflexivity.
    + rewrite app_nil_r. reflexivity.
Qed.

Lemma sc_images_spec d s nc i j :
  (nc < n_cells d)%nat -> (i < n_atoms d)%nat -> (j < n_atoms d)%nat ->
  sc_images d s nc i j = images_of d s nc i j.
Proof.
  intros Hnc Hi Hj. unfold sc_images.
  rewrite sc_images_gen by (try assumption; apply seq_NoDup).
  assert (existsb (Nat.eqb i) (seq 0 (n_atoms d)) = true) as ->.
  { apply existsb_exists. exists i. split; [apply in_seq; lia|apply Nat.eqb_refl]. }
  cbn [app]. unfold images_of.
  rewrite (filter_combine_seq (fun m => in_ws d (image_dist d nc i j m)) _ (0,0,0)%Z 0%nat).
  apply filter_ext. intros k. rewrite Nat.sub_0_r. reflexivity.
Qed.

Lemma sc_images_out d s nc i j :
  ((n_cells d <= nc)%nat \/ (n_atoms d <= i)%nat \/ (n_atoms d <= j)%nat) ->
  sc_images d s nc i j = [].
Proof.
  intros H. unfold sc_images.
  assert (forall l t, (forall i', In i' l -> (i' < n_atoms d)%nat) -> t nc i j = [] ->
    fold_left (fun t i => fold_left (image_step d i)
      (combine (seq 0 (length (sc_image_r s))) (sc_image_r s)) t) l t nc i j = []) as G.
  { intros l. induction l as [|i' l IH]; intros t Hl Ht; [exact Ht|].
    cbn [fold_left]. apply IH; [intros; apply Hl; right; assumption|].
    destruct (le_lt_dec (n_cells d) nc); [rewrite image_steps_out by (left; assumption); exact Ht|].
    destruct (le_lt_dec (n_atoms d) j); [rewrite image_steps_out by (right; assumption); exact Ht|].
    rewrite image_steps_spec by assumption. rewrite Ht.
    assert (i' <> i). { pose proof (Hl i' (or_introl eq_refl)). lia. }
    destruct (Nat.eqb_spec i' i); [contradiction|reflexivity]. }
  apply G; [|reflexivity]. intros i' Hi'. apply in_seq in Hi'. lia.
Qed.

Lemma sc_images_ok d s : tab_ok (sc_images d s) s.
Proof.
  intros nc i j k Hk.
  destruct (le_lt_dec (n_cells d) nc); [rewrite sc_images_out in Hk by auto; destruct Hk|].
  destruct (le_lt_dec (n_atoms d) i); [rewrite sc_images_out in Hk by auto; destruct Hk|].
  destruct (le_lt_dec (n_atoms d) j); [rewrite sc_images_out in Hk by auto; destruct Hk|].
  rewrite sc_images_spec in Hk by assumption.
  apply filter_In in Hk. destruct Hk as [Hk _]. apply in_seq in Hk. lia.
Qed.
