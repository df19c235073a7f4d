(** Lemmas for C32 and C34: grouping, selecting, slicing. *)
From Coq Require Import String Sorted.
From Verif Require Import Base M_qpts M_path M_bins M_coll S_coll L_util L_struct L_qpts L_path2 L_dos2 L_bins2 L_coll L_coll2.
Open Scope R_scope.

(** ** Grouping *)
Lemma key_eqb_spec a b : key_eqb a b = true <-> a = b.
Proof.
  unfold key_eqb. revert b. induction a as [|x a IH]; intros [|y b]; cbn [list_eqb]; try (split; congruence).
  rewrite andb_true_iff, IH. split.
  - intros [H ->]. f_equal. destruct x as [u|], y as [v|]; try discriminate; [|reflexivity].
    apply value_eqb_spec in H. congruence.
  - intros H. injection H as -> ->. split; [|reflexivity]. destruct y as [v|]; [apply value_eqb_spec; reflexivity|reflexivity].
Qed.

Section Groups.
Variable keyf : nat -> list (option value).
Notation step := (fun g i => group_insert key_eqb (keyf i) i g).

(** Groups as a partition: distinct keys, every member carries its group's key. *)
Definition good (n : nat) (g : list (list (option value) * list nat)) : Prop :=
  NoDup (map fst g) /\ Permutation (concat (map snd g)) (seq 0 n) /\
  forall K l, In (K, l) g -> l <> [] /\ forall i, In i l -> keyf i = K.

Lemma insert_keys k i g : In k (map fst g) /\ map fst (group_insert key_eqb k i g) = map fst g \/
  ~ In k (map fst g) /\ group_insert key_eqb k i g = g ++ [(k, [i])].
Proof.
  induction g as [|[k' l'] g IH]; cbn [group_insert map fst].
  - right. split; [intros []|reflexivity].
  - destruct (key_eqb k k') eqn:Q.
    + apply key_eqb_spec in Q. left. split; [left; congruence|reflexivity].
    + assert (k <> k') by (intros ->; rewrite (proj2 (key_eqb_spec k' k') eq_refl) in Q; discriminate).
      destruct IH as [[A B]|[A B]].
      * left. split; [right; exact A|]. cbn [map fst]. rewrite B. reflexivity.
      * right. split; [intros [C|C]; [congruence|contradiction]|]. rewrite B. reflexivity.
Qed.
Lemma insert_perm k i g : Permutation (concat (map snd (group_insert key_eqb k i g))) (concat (map snd g) ++ [i]).
Proof.
  induction g as [|[k' l'] g IH]; cbn [group_insert map snd concat]; [apply Permutation_refl|].
  destruct (key_eqb k k').
  - cbn [map snd concat]. rewrite <- !app_assoc. apply Permutation_app_head. apply Permutation_app_comm.
  - cbn [map snd concat]. rewrite IH, app_assoc. apply Permutation_refl.
Qed.
Lemma insert_members k i g K l : In (K, l) (group_insert key_eqb k i g) ->
  l <> [] \/ In (K, l) g.
Proof.
  induction g as [|[k' l'] g IH]; cbn [group_insert].
  - intros [E|[]]. injection E as <- <-. left. discriminate.
  - destruct (key_eqb k k').
    + intros [E|I]; [|right; right; exact I]. injection E as <- <-. left. destruct l'; discriminate.
    + intros [E|I]; [right; left; exact E|]. destruct (IH I) as [A|A]; [left; exact A|right; right; exact A].
Qed.
Lemma insert_keyed k i g : keyf i = k -> (forall K l, In (K, l) g -> forall j, In j l -> keyf j = K) ->
  forall K l, In (K, l) (group_insert key_eqb k i g) -> forall j, In j l -> keyf j = K.
Proof.
  intros Hk. induction g as [|[k' l'] g IH]; intros H K l; cbn [group_insert].
  - intros [E|[]] j Ij. injection E as <- <-. destruct Ij as [<-|[]]. exact Hk.
  - destruct (key_eqb k k') eqn:Q.
    + apply key_eqb_spec in Q. subst k'. intros [E|I] j Ij.
      * injection E as <- <-. apply in_app_iff in Ij. destruct Ij as [Ij|[<-|[]]]; [|exact Hk].
        apply (H k l'); [left; reflexivity|exact Ij].
      * apply (H K l); [right; exact I|exact Ij].
    + intros [E|I] j Ij; [apply (H K l); [left; exact E|exact Ij]|].
      apply (IH (fun K l I => H K l (or_intror I)) K l I j Ij).
Qed.

Lemma groups_good n : good n (fold_left step (seq 0 n) []).
Proof.
  induction n as [|n IH].
  - split; [constructor|]. split; [constructor|]. intros K l [].
  - rewrite seq_S, fold_left_app. cbn [fold_left plus]. destruct IH as (A & B & C). set (g := fold_left step (seq 0 n) []) in *.
    split; [|split].
    + destruct (insert_keys (keyf n) n g) as [[I E]|[I E]]; rewrite E; [exact A|].
      rewrite map_app. apply NoDup_app_intro; [exact A|repeat constructor; intros []|].
      intros x Hx [<-|[]]. contradiction.
    + rewrite insert_perm, seq_S. apply Permutation_app_tail. exact B.
    + intros K l I. split.
      * destruct (insert_members _ _ _ _ _ I) as [H|H]; [exact H|]. apply (C K l H).
      * apply (insert_keyed (keyf n) n g eq_refl (fun K l I j => proj2 (C K l I) j) K l I).
Qed.

Lemma insert_nth k i g b : incl (nth b (map snd g) []) (nth b (map snd (group_insert key_eqb k i g)) []) /\
  forall j, In j (nth b (map snd (group_insert key_eqb k i g)) []) -> In j (nth b (map snd g) []) \/ j = i.
Proof.
  revert b. induction g as [|[k' l'] g IH]; intros b; cbn [group_insert].
  - split; [destruct b; intros j []|]. intros j. destruct b as [|[|b]]; cbn; [|intros []|intros []]. intros [<-|[]]. right. reflexivity.
  - destruct (key_eqb k k'); cbn [map snd].
    + destruct b as [|b]; cbn [nth]; [|split; [apply incl_refl|intros j I; left; exact I]]. split; [apply incl_appl, incl_refl|].
      intros j I. apply in_app_iff in I. destruct I as [I|[<-|[]]]; [left; exact I|right; reflexivity].
    + destruct b as [|b]; cbn [nth]; [split; [apply incl_refl|intros j I; left; exact I]|apply IH].
Qed.
Lemma groups_order n : let G := map snd (fold_left step (seq 0 n) []) in
  forall a b j, (a < b)%nat -> (b < length G)%nat -> In j (nth b G []) -> exists i, In i (nth a G []) /\ (i < j)%nat.
Proof.
  induction n as [|n IH]; cbv zeta; [cbn; lia|]. pose proof (groups_good n) as (_ & Pm & Ne).
  rewrite seq_S, fold_left_app. cbn [fold_left plus]. set (g := fold_left step (seq 0 n) []) in *. intros a b j Hab Hb Ij.
  assert (Ha : (a < length g)%nat).
  { rewrite map_length in Hb. destruct (insert_keys (keyf n) n g) as [[_ E]|[_ E]].
    - apply (f_equal (@length _)) in E. rewrite !map_length in E. lia.
    - rewrite E, app_length in Hb. cbn in Hb. lia. }
  destruct (insert_nth (keyf n) n g a) as [Inc _]. destruct (insert_nth (keyf n) n g b) as [_ Mem].
  destruct (Mem j Ij) as [I| ->].
  - destruct (lt_dec b (length g)) as [Hb'|Hb'].
    + destruct (IH a b j Hab ltac:(rewrite map_length; exact Hb') I) as (i & Ii & Lt). exists i. split; [apply Inc; exact Ii|exact Lt].
    + rewrite nth_overflow in I by (rewrite map_length; lia). destruct I.
  - assert (Il : In (nth a (map snd g) []) (map snd g)) by (apply nth_In; rewrite map_length; exact Ha).
    pose proof Il as Il'. apply in_map_iff in Il'. destruct Il' as ([K l] & El & Il'). cbn in El. destruct (Ne K l Il') as [Nl _].
    destruct l as [|i l]; [congruence|]. exists i.
    assert (Ii : In i (nth a (map snd g) [])) by (rewrite <- El; left; reflexivity). split; [apply Inc; exact Ii|].
    assert (Ic : In i (concat (map snd g))) by (apply in_concat; eexists; split; [exact Il|exact Ii]).
    apply (Permutation_in _ Pm) in Ic. apply in_seq in Ic. lia.
Qed.
End Groups.

Lemma lookup_entry d e k : wf_dict d -> wf_dict e ->
  (lookup k d = lookup k e <-> forall v, In (k, v) d <-> In (k, v) e).
Proof.
  intros [Wd _] [We _]. split.
  - intros E v. rewrite <- (lookup_iff k v d Wd), <- (lookup_iff k v e We), E. reflexivity.
  - intros H. destruct (lookup k d) as [v|] eqn:E.
    + symmetry. apply lookup_iff; [exact We|]. apply H. apply lookup_In. exact E.
    + destruct (lookup k e) as [v|] eqn:F; [|reflexivity]. apply lookup_In in F. apply H in F.
      apply (lookup_iff k v d Wd) in F. congruence.
Qed.

Lemma agree_keys c keys i j : wf_coll c -> (i < clen c)%nat -> (j < clen c)%nat ->
  (map (fun k => lookup k (nth i (iter_metadata c) [])) keys = map (fun k => lookup k (nth j (iter_metadata c) [])) keys
   <-> agree c keys i j).
Proof.
  intros W Hi Hj. destruct (iter_spec c W) as [_ Is].
  pose proof (proj1 (Is i Hi)) as Wi. pose proof (proj1 (Is j Hj)) as Wj. unfold agree. split.
  - intros E k v Ik. rewrite !entry_iff by assumption. apply (lookup_entry _ _ k Wi Wj).
    apply (ext_in_map E k Ik).
  - intros H. apply map_ext_in. intros k Ik. apply (lookup_entry _ _ k Wi Wj). intros v.
    specialize (H k v Ik). rewrite !entry_iff in H by assumption. exact H.
Qed.

Lemma group_spec c keys : wf_coll c ->
  exists g groups, group_by c keys = Ok g /\ wf_coll g /\ clen g = length groups /\
  c_axes g = c_axes c /\ c_ticks g = c_ticks c /\
  Permutation (concat groups) (seq 0 (clen c)) /\ (forall l, In l groups -> l <> []) /\
  (forall a b i j, (a < length groups)%nat -> (b < length groups)%nat -> In i (nth a groups []) -> In j (nth b groups []) ->
     (a = b <-> agree c keys i j)) /\
  (forall k, (k < length groups)%nat -> exists s, at_pos g k s /\ length (s_data s) = width (c_lines c) /\
     summed c (nth k groups []) (s_data s) /\
     forall kv, In kv (s_meta s) <-> forall i, In i (nth k groups []) -> entry c i kv) /\
  forall a b j, (a < b)%nat -> (b < length groups)%nat -> In j (nth b groups []) -> exists i, In i (nth a groups []) /\ (i < j)%nat.
Proof.
  intros W. destruct (iter_spec c W) as [Li Is].
  set (kf := fun i => map (fun k => lookup k (nth i (iter_metadata c) [])) keys).
  set (G := group_indices keys (iter_metadata c)).
  assert (Gd : good kf (clen c) G).
  { unfold G, group_indices. rewrite Li. apply (groups_good kf). }
  destruct Gd as (G1 & G2 & G3). set (groups := map snd G).
  assert (Bound : forall l i, In l groups -> In i l -> (i < clen c)%nat).
  { intros l i Il Ii. assert (In i (concat (map snd G))) by (apply in_concat; exists l; split; assumption).
    apply (Permutation_in _ G2) in H. apply in_seq in H. lia. }
  assert (Ne : forall l, In l groups -> l <> []).
  { intros l Il. apply in_map_iff in Il. destruct Il as ([K l'] & E & Il). cbn in E. subst l'. apply (G3 K l Il). }
  assert (Wid : forall l, In l (c_lines c) -> length l = width (c_lines c)).
  { intros l I. destruct W as (_ & Eq & _). destruct (c_lines c) as [|l0 r] eqn:El; [destruct I|]. cbn [width]. apply Eq; [exact I|left; reflexivity]. }
  set (P := fun (gp : list (option value) * list nat) (s : spec) =>
    s_axes s = c_axes c /\ s_ticks s = c_ticks c /\ length (s_data s) = width (c_lines c) /\ summed c (snd gp) (s_data s) /\ wf_dict (s_meta s) /\
    forall kv, In kv (s_meta s) <-> forall i, In i (snd gp) -> entry c i kv).
  destruct (mapE_rel (fun gp => bind (get_list c (map Z.of_nat (snd gp))) csum) P G) as (bs & Eb & Fb).
  { intros gp Ig. assert (Il : In (snd gp) groups) by (apply in_map; exact Ig).
    destruct (get_list_ok c (snd gp) W (Ne _ Il) (fun i Hi => Bound _ i Il Hi)) as (r & Er & Wr & Pk & Ln & _).
    rewrite Er. cbn [bind]. destruct (csum_ok r Wr) as (s & Es & S1 & S2 & S3 & S4 & S5 & S6).
    exists s. split; [exact Es|]. destruct Pk as (K1 & K2 & K3 & K4). unfold P.
    split; [congruence|]. split; [congruence|]. split.
    { rewrite S3, Ln. destruct (snd gp) as [|i0 r0] eqn:El; [exfalso; apply (Ne _ Il); exact El || reflexivity|]. cbn [map width].
      apply Wid. apply nth_In. apply (Bound _ i0 Il). left. reflexivity. }
    split.
    { intros j. rewrite (S4 j), Ln, K1. unfold Sum. f_equal.
      transitivity (map (fun i => nth j (nth i (c_lines c) []) 0) (map (fun t => nth t (snd gp) 0%nat) (seq 0 (length (snd gp))))).
      - rewrite map_map. apply map_ext_in. intros t It. apply in_seq in It. 
        rewrite (map_nth_indep _ _ _ 0%nat []) by lia. reflexivity.
      - rewrite map_nth_seq'. reflexivity. }
    split; [exact S5|]. intros kv. rewrite S6, K1. split.
    - intros H i Ii. destruct (In_nth _ _ 0%nat Ii) as (t & Ht & Et). specialize (H t Ht).
      destruct (K4 t Ht) as (s1 & s2 & A1 & A2 & _ & _ & _ & A3). rewrite Et in A1. exists s1. split; [exact A1|].
      apply A3. destruct H as (s3 & B1 & B2). unfold at_pos in *. congruence.
    - intros H t Ht. destruct (K4 t Ht) as (s1 & s2 & A1 & A2 & _ & _ & _ & A3). exists s2. split; [exact A2|]. apply A3.
      destruct (H (nth t (snd gp) 0%nat) ltac:(apply nth_In; exact Ht)) as (s3 & B1 & B2). unfold at_pos in *. congruence. }
  assert (Lb : length bs = length G) by (clear -Fb; induction Fb; cbn; congruence).
  assert (G0 : G <> []).
  { intros E. rewrite E in G2. cbn in G2. apply Permutation_nil in G2. destruct W as [W0 _]. unfold clen in G2.
    destruct (c_lines c); [congruence|discriminate]. }
  assert (Pb : forall s, In s bs -> exists gp, In gp G /\ P gp s).
  { intros s I. destruct (In_nth _ _ s I) as (t & Ht & Et). destruct G as [|g0 Gr] eqn:EG; [congruence|]. rewrite <- EG in *.
    exists (nth t G g0). split; [apply nth_In; lia|]. rewrite <- Et. clear -Fb Ht. revert t Ht.
    induction Fb as [|x y G bs Pxy F IH]; intros t Ht; [cbn in Ht; lia|]. destruct t as [|t]; [exact Pxy|]. cbn [nth]. apply IH. cbn in Ht. lia. }
  destruct bs as [|b0 br] eqn:Ebs; [cbn in Lb; destruct G; [congruence|discriminate]|]. rewrite <- Ebs in *.
  assert (I0 : In b0 bs) by (rewrite Ebs; left; reflexivity).
  destruct (from_spectra_ok bs b0 ltac:(rewrite Ebs; discriminate) I0) as (g & Eg & Wg & Lg & Ax & Tk & Lng & _ & Sm).
  { split.
    - intros a b Ia Ib. destruct (Pb a Ia) as (ga & _ & A1 & A2 & A3 & _), (Pb b Ib) as (gb & _ & B1 & B2 & B3 & _).
      split; [congruence|split; congruence].
    - intros a Ia. destruct (Pb a Ia) as (ga & _ & _ & _ & _ & _ & A & _). exact A. }
  exists g, groups. unfold group_by. fold G. rewrite Eb. cbn [bind].
  assert (Lgr : length groups = length G) by (unfold groups; apply map_length).
  destruct (Pb b0 I0) as (gp0 & _ & A1 & A2 & _).
  split; [exact Eg|]. split; [exact Wg|]. split; [lia|]. split; [congruence|]. split; [congruence|]. split; [exact G2|]. split; [exact Ne|]. split.
  - intros a b i j Ha Hb Ii Ij. rewrite Lgr in Ha, Hb.
    assert (Bi : (i < clen c)%nat) by (apply (Bound (nth a groups []) i); [apply nth_In; rewrite Lgr; exact Ha|exact Ii]).
    assert (Bj : (j < clen c)%nat) by (apply (Bound (nth b groups []) j); [apply nth_In; rewrite Lgr; exact Hb|exact Ij]).
    rewrite <- (agree_keys c keys i j W Bi Bj).
    fold (kf i) (kf j). unfold groups in Ii, Ij. 
    rewrite (map_nth_indep _ _ _ ([], []) []) in Ii by exact Ha. rewrite (map_nth_indep _ _ _ ([], []) []) in Ij by exact Hb.
    destruct (nth a G ([], [])) as [Ka la] eqn:Ea. destruct (nth b G ([], [])) as [Kb lb] eqn:Eb'. cbn [snd] in *.
    assert (Ia : In (Ka, la) G) by (rewrite <- Ea; apply nth_In; exact Ha).
    assert (Ib : In (Kb, lb) G) by (rewrite <- Eb'; apply nth_In; exact Hb).
    rewrite (proj2 (G3 _ _ Ia) i Ii), (proj2 (G3 _ _ Ib) j Ij). split.
    + intros E. subst b. rewrite Ea in Eb'. congruence.
    + intros E. apply (proj1 (NoDup_nth (map fst G) []) G1); [rewrite map_length; exact Ha|rewrite map_length; exact Hb|].
      rewrite !(map_nth_indep _ _ _ ([], []) []) by assumption. rewrite Ea, Eb'. exact E.
  - split; [|unfold groups, G, group_indices; rewrite Li; apply (groups_order kf)].
    intros k Hk. rewrite Lgr in Hk. eexists. split; [apply at_pos_iff; [exact Wg|lia|reflexivity]|]. cbn [s_data s_meta].
    assert (Pk : P (nth k G ([], [])) (nth k bs b0)).
    { clear -Fb Hk. revert k Hk. induction Fb as [|x y G bs Pxy F IH]; intros k Hk; [cbn in Hk; lia|]. destruct k as [|k]; [exact Pxy|]. cbn [nth]. apply IH. cbn in Hk. lia. }
    destruct Pk as (_ & _ & P3 & P4 & _ & P6). unfold groups.
    rewrite Lng, (map_nth_indep _ _ _ b0 []) by lia. rewrite (map_nth_indep _ _ _ ([], []) []) by exact Hk.
    split; [exact P3|]. split; [exact P4|]. intros kv. rewrite (Sm k ltac:(lia) kv). apply P6.
Qed.

Lemma Sum_concat {A} (ls : list (list A)) (f : A -> R) : Sum (concat ls) f = Sum ls (fun l => Sum l f).
Proof. induction ls as [|l ls IH]; [reflexivity|]. cbn [concat]. rewrite Sum_app, Sum_cons, IH. reflexivity. Qed.

(** The sum over the groups is the sum of the collection. *)
Lemma group_total c keys : wf_coll c -> exists g sg sc, group_by c keys = Ok g /\ csum g = Ok sg /\ csum c = Ok sc /\
  s_data sg = s_data sc /\ s_axes sg = s_axes sc /\ s_ticks sg = s_ticks sc.
Proof.
  intros W. destruct (group_spec c keys W) as (g & groups & Eg & Wg & Lg & Ax & Tk & Pm & Ne & _ & Gs & _).
  destruct (csum_ok g Wg) as (sg & Esg & X1 & X2 & X3 & X4 & _ & _).
  destruct (csum_ok c W) as (sc & Esc & Y1 & Y2 & Y3 & Y4 & _ & _).
  exists g, sg, sc. split; [exact Eg|]. split; [exact Esg|]. split; [exact Esc|]. split; [|split; congruence].
  assert (Data : forall k, (k < length groups)%nat -> length (nth k (c_lines g) []) = width (c_lines c) /\
     forall j, nth j (nth k (c_lines g) []) 0 = Sum (nth k groups []) (fun i => nth j (nth i (c_lines c) []) 0)).
  { intros k Hk. destruct (Gs k Hk) as (s & As & Ls & Ss & _). apply at_pos_iff in As; [|exact Wg|lia]. subst s. split; assumption. }
  assert (Lw : width (c_lines g) = width (c_lines c)).
  { destruct groups as [|g0 gr] eqn:Egr.
    - cbn in Lg. destruct Wg as [W0 _]. unfold clen in Lg. destruct (c_lines g); [congruence|discriminate].
    - destruct (Data 0%nat ltac:(cbn; lia)) as [D _]. destruct (c_lines g) as [|l0 r] eqn:Eg'; [exfalso; apply (proj1 Wg); exact Eg'|]. exact D. }
  apply (nth_ext _ _ 0 0); [congruence|]. intros j _. rewrite (X4 j), (Y4 j).
  rewrite <- (Sum_perm _ _ (fun i => nth j (nth i (c_lines c) []) 0) Pm), Sum_concat.
  rewrite <- (map_nth_seq' groups []) at 1. rewrite Lg. unfold Sum at 1 2. f_equal. rewrite map_map. apply map_ext_in.
  intros k Hk. apply in_seq in Hk. apply Data. lia.
Qed.

(** ** Selecting *)
Lemma in_combinations kvs sel : In sel (combinations kvs) <-> Forall2 (fun a b => fst b = fst a /\ In (snd b) (snd a)) kvs sel.
Proof.
  revert sel. induction kvs as [|[k vs] kvs IH]; intros sel; cbn [combinations].
  - split; [intros [<-|[]]; constructor|]. intros F. inversion F. left. reflexivity.
  - rewrite in_flat_map. split.
    + intros (v & Iv & I). apply in_map_iff in I. destruct I as (r & <- & I). constructor; [split; [reflexivity|exact Iv]|]. apply IH. exact I.
    + intros F. inversion F as [|a [k' v] ? r [E Iv] F']; subst. cbn in E, Iv. subst k'. exists v. split; [exact Iv|].
      apply in_map_iff. exists r. split; [reflexivity|]. apply IH. exact F'.
Qed.
Lemma nodup_combinations kvs : (forall k vs, In (k, vs) kvs -> NoDup vs) -> NoDup (combinations kvs).
Proof.
  induction kvs as [|[k vs] kvs IH]; intros H; cbn [combinations]; [repeat constructor; intros []|].
  apply NoDup_flat_map.
  - apply (H k). left. reflexivity.
  - intros v _. apply FinFun.Injective_map_NoDup; [intros a b E; congruence|]. apply IH. intros k' vs' I. apply (H k'). right. exact I.
  - intros v w z _ _ A B. apply in_map_iff in A, B. destruct A as (a & <- & _), B as (b & E & _). congruence.
Qed.

Lemma in_select c sel i : wf_coll c -> (In i (select_indices c sel) <-> (i < clen c)%nat /\ forall kv, In kv sel -> entry c i kv).
Proof.
  intros W. destruct (iter_spec c W) as [Li Is]. unfold select_indices. rewrite filter_In, in_seq, Li, forallb_forall. split.
  - intros [A B]. split; [lia|]. intros kv I. apply entry_iff; [exact W|lia|].
    apply (has_item_iff kv); [apply (Is i); lia|]. apply B. exact I.
  - intros [A B]. split; [lia|]. intros kv I. apply has_item_iff; [apply (Is i); lia|]. apply entry_iff; [exact W|lia|]. apply B. exact I.
Qed.

Lemma entry_unique c i k v w : wf_coll c -> (i < clen c)%nat -> entry c i (k, v) -> entry c i (k, w) -> v = w.
Proof.
  intros W Hi A B. apply entry_iff in A, B; try assumption. destruct (iter_spec c W) as [_ Is].
  apply (unique_value _ k v w (proj1 (proj1 (Is i Hi))) A B).
Qed.

Lemma selected c kvs i : wf_coll c ->
  (In i (flat_map (select_indices c) (combinations kvs)) <-> (i < clen c)%nat /\ matches c kvs i).
Proof.
  intros W. rewrite in_flat_map. split.
  - intros (sel & Is & I). apply in_combinations in Is. apply (in_select c sel i W) in I. destruct I as [Hi I]. split; [exact Hi|].
    intros k vs Ik. clear Hi. induction Is as [|a b ka lb [E Iv] F IH]; [destruct Ik|]. destruct Ik as [->|Ik].
    + exists (snd b). split; [exact Iv|]. apply I. left. destruct b. cbn in E. subst. reflexivity.
    + apply IH; [intros kv J; apply I; right; exact J|exact Ik].
  - intros [Hi M]. assert (Ex : exists sel, Forall2 (fun a b => fst b = fst a /\ In (snd b) (snd a)) kvs sel /\ forall kv, In kv sel -> entry c i kv).
    { clear Hi. induction kvs as [|[k vs] kvs IH]; [exists []; split; [constructor|intros kv []]|].
      destruct (M k vs (or_introl eq_refl)) as (v & Iv & Ev). destruct IH as (sel & F & A); [intros k' vs' I; apply (M k' vs'); right; exact I|].
      exists ((k, v) :: sel). split; [constructor; [split; [reflexivity|exact Iv]|exact F]|]. intros kv [<-|I]; [exact Ev|apply A; exact I]. }
    destruct Ex as (sel & F & A). exists sel. split; [apply in_combinations; exact F|]. apply in_select; [exact W|]. split; assumption.
Qed.

Lemma nodup_selected c kvs : wf_coll c -> (forall k vs, In (k, vs) kvs -> NoDup vs) ->
  NoDup (flat_map (select_indices c) (combinations kvs)).
Proof.
  intros W H. apply NoDup_flat_map; [apply nodup_combinations; exact H|intros sel _; unfold select_indices; apply NoDup_filter, seq_NoDup|].
  intros s t i A B Ia Ib. apply in_combinations in A, B. apply (in_select c _ i W) in Ia, Ib.
  destruct Ia as [Hi Ia], Ib as [_ Ib]. clear H. revert t B Ib. induction A as [|a b kvs s [E1 V1] F IH]; intros t B Ib; inversion B as [|? b' ? t' [E2 V2] F']; subst; [reflexivity|].
  f_equal.
  - destruct b as [k v], b' as [k' v']. cbn in *. assert (Ek : k' = k) by congruence. rewrite Ek in *. f_equal.
    apply (entry_unique c i k v v' W Hi); [apply Ia|apply Ib]; left; reflexivity.
  - apply IH; [intros kv J; apply Ia; right; exact J|exact F'|intros kv J; apply Ib; right; exact J].
Qed.

Lemma sorted_single c kvs : (forall k vs, In (k, vs) kvs -> length vs = 1%nat) ->
  StronglySorted lt (flat_map (select_indices c) (combinations kvs)).
Proof.
  intros H. assert (E : exists sel, combinations kvs = [sel]).
  { induction kvs as [|[k vs] kvs IH]; [exists []; reflexivity|].
    destruct IH as (sel & E); [intros k' vs' I; apply (H k'); right; exact I|].
    specialize (H k vs (or_introl eq_refl)). destruct vs as [|v [|? ?]]; try discriminate. cbn [combinations flat_map]. rewrite E.
    exists ((k, v) :: sel). reflexivity. }
  destruct E as (sel & ->). cbn [flat_map]. rewrite app_nil_r. apply filter_strong, seq_strong.
Qed.

Lemma select_spec c kvs : wf_coll c -> (forall k vs, In (k, vs) kvs -> NoDup vs) ->
  (exists i, (i < clen c)%nat /\ matches c kvs i) ->
  exists r is, select c kvs = Ok r /\ wf_coll r /\ picks c r is /\ NoDup is /\
  (forall i, In i is <-> (i < clen c)%nat /\ matches c kvs i) /\
  ((forall k vs, In (k, vs) kvs -> length vs = 1%nat) -> StronglySorted lt is).
Proof.
  intros W N (i0 & M). set (is := flat_map (select_indices c) (combinations kvs)).
  assert (Sel : forall i, In i is <-> (i < clen c)%nat /\ matches c kvs i) by (intros i; apply selected; exact W).
  assert (Ne : is <> []) by (intros E; apply Sel in M; rewrite E in M; destruct M).
  destruct (get_list_ok c is W Ne (fun i Hi => proj1 (proj1 (Sel i) Hi))) as (r & Er & Wr & Pk & _).
  exists r, is. split.
  - unfold select. fold is. destruct is as [|a l]; [congruence|exact Er].
  - split; [exact Wr|]. split; [exact Pk|]. split; [apply nodup_selected; assumption|]. split; [exact Sel|]. apply sorted_single.
Qed.

Lemma select_none c kvs : wf_coll c -> (forall i, (i < clen c)%nat -> ~ matches c kvs i) -> select c kvs = Err NoMatch.
Proof.
  intros W H. unfold select. destruct (flat_map (select_indices c) (combinations kvs)) as [|a l] eqn:E; [reflexivity|].
  exfalso. assert (I : In a (flat_map (select_indices c) (combinations kvs))) by (rewrite E; left; reflexivity).
  apply (selected c kvs a W) in I. apply (H a); apply I.
Qed.

(** Witness: three spectra with species K, Na, K. *)
Definition three : coll := mkColl [[0; 1]] [[1; 2]; [3; 4]; [5; 6]] None
  (mkM [] (Some [[("s"%string, VStr "K"%string)]; [("s"%string, VStr "Na"%string)]; [("s"%string, VStr "K"%string)]])).
Lemma three_wf : wf_coll three.
Proof.
  split; [discriminate|]. split.
  - cbn. intros l m A B. intuition (subst; reflexivity).
  - split; [split; [constructor|intros []]|]. cbn. split; [reflexivity|]. intros d H.
    assert (K : forall v, wf_dict [("s"%string, v)]).
    { intros v. split; [cbn; repeat constructor; intros []|]. cbn. intros [E|[]]. discriminate. }
    intuition (subst; auto).
Qed.
Lemma select_order : exists r, select three [("s"%string, [VStr "Na"; VStr "K"])] = Ok r /\ c_lines r = [[3; 4]; [1; 2]; [5; 6]].
Proof. eexists. split; reflexivity. Qed.
Lemma select_twice : exists r, select three [("s"%string, [VStr "Na"; VStr "Na"])] = Ok r /\ c_lines r = [[3; 4]; [3; 4]].
Proof. eexists. split; reflexivity. Qed.
