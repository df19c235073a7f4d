(** Lemmas for C31, C32, C34: dictionaries, metadata, indexing. *)
From Coq Require Import String.
From Verif Require Import Base M_qpts M_path M_bins M_coll S_coll L_util L_struct L_qpts L_path2 L_dos2.
Open Scope R_scope.

Lemma value_eqb_spec a b : value_eqb a b = true <-> a = b.
Proof.
  destruct a, b; cbn; split; try congruence; intros H.
  - apply Z.eqb_eq in H. congruence.
  - injection H as ->. apply Z.eqb_refl.
  - apply String.eqb_eq in H. congruence.
  - injection H as ->. apply String.eqb_refl.
Qed.

Lemma lookup_In k v d : lookup k d = Some v -> In (k, v) d.
Proof.
  induction d as [|[k' v'] d IH]; [discriminate|]. cbn [lookup]. destruct (String.eqb_spec k k') as [E|E].
  - intros H. injection H as ->. left. congruence.
  - intros H. right. apply IH. exact H.
Qed.
Lemma lookup_none k d : lookup k d = None <-> ~ In k (map fst d).
Proof.
  induction d as [|[k' v'] d IH]; cbn [lookup map fst]; [split; [intros _ []|reflexivity]|].
  destruct (String.eqb_spec k k') as [E|E].
  - split; [discriminate|]. intros N. exfalso. apply N. left. congruence.
  - rewrite IH. split; [intros N [F|F]; [congruence|exact (N F)]|]. intros N F. apply N. right. exact F.
Qed.
Lemma lookup_iff k v d : NoDup (map fst d) -> (lookup k d = Some v <-> In (k, v) d).
Proof.
  intros N. split; [apply lookup_In|].
  induction d as [|[k' v'] d IH]; [intros []|]. cbn [lookup map fst] in *. inversion N; subst.
  intros [E|I].
  - injection E as -> ->. rewrite String.eqb_refl. reflexivity.
  - destruct (String.eqb_spec k k') as [E|E]; [|apply IH; assumption].
    subst k'. exfalso. apply H1. apply (in_map fst) in I. exact I.
Qed.
Lemma has_key_iff k d : has_key k d = true <-> In k (map fst d).
Proof.
  unfold has_key. destruct (lookup k d) as [v|] eqn:E.
  - split; [|reflexivity]. intros _. apply lookup_In in E. apply (in_map fst) in E. exact E.
  - split; [discriminate|]. intros I. apply lookup_none in E. contradiction.
Qed.
Lemma has_item_iff kv d : NoDup (map fst d) -> (has_item kv d = true <-> In kv d).
Proof.
  intros N. destruct kv as [k v]. unfold has_item. cbn [fst snd].
  destruct (lookup k d) as [w|] eqn:E.
  - rewrite value_eqb_spec. rewrite <- (lookup_iff _ _ _ N), E. split; congruence.
  - split; [discriminate|]. intros I. apply (lookup_iff _ _ _ N) in I. congruence.
Qed.

Lemma dict_set_keys d kv : In (fst kv) (map fst d) -> map fst (dict_set d kv) = map fst d.
Proof.
  induction d as [|[k' v'] d IH]; [intros []|]. cbn [map fst dict_set]. destruct (String.eqb_spec (fst kv) k') as [E|E]; [reflexivity|].
  intros [F|F]; [congruence|]. cbn [map fst]. rewrite IH by exact F. reflexivity.
Qed.
Lemma dict_set_new d kv : ~ In (fst kv) (map fst d) -> dict_set d kv = d ++ [kv].
Proof.
  induction d as [|[k' v'] d IH]; [reflexivity|]. cbn [map fst dict_set]. intros N.
  destruct (String.eqb_spec (fst kv) k') as [E|E]; [exfalso; apply N; left; congruence|].
  cbn [app]. rewrite IH; [reflexivity|]. intros F. apply N. right. exact F.
Qed.

(** With disjoint keys a union is a concatenation. *)
Lemma union_app a b : NoDup (map fst b) -> (forall k, In k (map fst b) -> ~ In k (map fst a)) -> dict_union a b = a ++ b.
Proof.
  unfold dict_union. revert a. induction b as [|kv b IH]; intros a N D; [rewrite app_nil_r; reflexivity|].
  cbn [fold_left map] in *. inversion N; subst. rewrite dict_set_new by (apply D; left; reflexivity).
  rewrite IH; [rewrite <- app_assoc; reflexivity|exact H2|].
  intros k Hk. rewrite map_app. intros I. apply in_app_iff in I. destruct I as [I|[I|[]]].
  - exact (D k (or_intror Hk) I).
  - cbn in I. subst k. contradiction.
Qed.

(** ** Combining metadata *)
Lemma nodup_filter (f : string * value -> bool) d : NoDup (map fst d) -> NoDup (map fst (filter f d)).
Proof.
  induction d as [|kv d IH]; [intros _; constructor|]. cbn [map filter]. intros N. inversion N; subst.
  destruct (f kv); [|apply IH; assumption]. cbn [map]. constructor; [|apply IH; assumption].
  intros I. apply H1. apply in_map_iff in I. destruct I as (x & E & I). apply filter_In in I.
  rewrite <- E. apply in_map. apply I.
Qed.
Lemma keys_filter (f : string * value -> bool) d k : In k (map fst (filter f d)) -> In k (map fst d).
Proof. intros I. apply in_map_iff in I. destruct I as (x & <- & I). apply filter_In in I. apply in_map. apply I. Qed.

Lemma unique_value (d : dict) k v w : NoDup (map fst d) -> In (k, v) d -> In (k, w) d -> v = w.
Proof. intros N A B. apply (lookup_iff _ _ _ N) in A. apply (lookup_iff _ _ _ N) in B. congruence. Qed.

Lemma combine_ok ms : ms <> [] -> (forall d, In d ms -> wf_dict d) ->
  exists m, combine_metadata ms = Ok m /\ wf_dict (top m) /\
  (forall kv, In kv (top m) <-> forall d, In d ms -> In kv d) /\
  match line_data m with
  | None => forall d, In d ms -> same_entries d (top m)
  | Some l => length l = length ms /\
      (forall i, (i < length ms)%nat -> wf_dict (nth i l []) /\
         (forall k, In k (map fst (nth i l [])) -> ~ In k (map fst (top m))) /\
         forall kv, In kv (nth i ms []) <-> In kv (top m) \/ In kv (nth i l []))
  end.
Proof.
  intros Ne W. unfold combine_metadata.
  replace (existsb (has_key "line_data") ms) with false.
  2:{ symmetry. destruct (existsb _ ms) eqn:E; [|reflexivity]. apply existsb_exists in E. destruct E as (d & I & H).
      apply has_key_iff in H. destruct (W d I) as [_ N]. contradiction. }
  destruct ms as [|m rest]; [congruence|].
  set (common := filter _ m). set (lines := map _ (m :: rest)).
  assert (Wm : wf_dict m) by (apply W; left; reflexivity).
  assert (Cm : forall kv, In kv common <-> forall d, In d (m :: rest) -> In kv d).
  { intros kv. unfold common. rewrite filter_In, forallb_forall. split.
    - intros [I F] d [<-|Id]; [exact I|]. apply (has_item_iff kv d); [apply W; right; exact Id|]. apply F. exact Id.
    - intros H. split; [apply H; left; reflexivity|]. intros d Id. apply has_item_iff; [apply W; right; exact Id|].
      apply H. right. exact Id. }
  assert (Wc : wf_dict common).
  { split; [apply nodup_filter, Wm|]. intros I. apply keys_filter in I. apply Wm. exact I. }
  assert (Nl : forall i, (i < length (m :: rest))%nat -> nth i lines [] = filter (fun kv => negb (has_key (fst kv) common)) (nth i (m :: rest) [])).
  { intros i Hi. unfold lines. rewrite (map_nth_indep _ _ _ [] []) by exact Hi. reflexivity. }
  assert (Line : forall i, (i < length (m :: rest))%nat -> wf_dict (nth i lines []) /\
         (forall k, In k (map fst (nth i lines [])) -> ~ In k (map fst common)) /\
         forall kv, In kv (nth i (m :: rest) []) <-> In kv common \/ In kv (nth i lines [])).
  { intros i Hi. rewrite (Nl i Hi). set (d := nth i (m :: rest) []).
    assert (Id : In d (m :: rest)) by (apply nth_In; exact Hi). pose proof (W d Id) as [Wd1 Wd2].
    split; [|split].
    - split; [apply nodup_filter; exact Wd1|]. intros I. apply keys_filter in I. contradiction.
    - intros k I. apply in_map_iff in I. destruct I as (x & <- & I). apply filter_In in I. destruct I as [_ I].
      intros J. apply has_key_iff in J. rewrite J in I. discriminate.
    - intros [k v]. rewrite filter_In. cbn [fst]. split.
      + intros I. destruct (has_key k common) eqn:Hk; [|right; split; [exact I|reflexivity]].
        left. apply has_key_iff in Hk. apply in_map_iff in Hk. destruct Hk as ([k' w] & E & J). cbn in E. subst k'.
        assert (In (k, w) d) by (apply Cm; [exact J|exact Id]).
        rewrite (unique_value d k v w Wd1 I H). exact J.
      + intros [I|[I _]]; [apply Cm; [exact I|exact Id]|exact I]. }
  destruct (existsb _ lines) eqn:Ex.
  - eexists. split; [reflexivity|]. cbn [top line_data]. split; [exact Wc|]. split; [exact Cm|].
    split; [unfold lines; apply map_length|exact Line].
  - eexists. split; [reflexivity|]. cbn [top line_data]. split; [exact Wc|]. split; [exact Cm|].
    intros d Id kv. destruct (In_nth _ _ [] Id) as (i & Hi & Ei).
    destruct (Line i Hi) as (_ & _ & L). rewrite Ei in L. rewrite L.
    assert (nth i lines [] = []) as ->.
    { assert (I : In (nth i lines []) lines) by (apply nth_In; unfold lines; rewrite map_length; exact Hi).
      destruct (nth i lines []) as [|kv0 r] eqn:E0; [reflexivity|].
      assert (existsb (fun d => match d with [] => false | _ => true end) lines = true).
      { apply existsb_exists. eexists. split; [exact I|reflexivity]. } congruence. }
    cbn. tauto.
Qed.

(** The metadata of the elements of a well-formed collection. *)
Lemma iter_spec c : wf_coll c -> length (iter_metadata c) = clen c /\
  forall i, (i < clen c)%nat -> wf_dict (nth i (iter_metadata c) []) /\
    match line_data (c_meta c) with
    | None => nth i (iter_metadata c) [] = top (c_meta c)
    | Some ds => forall kv, In kv (nth i (iter_metadata c) []) <-> In kv (top (c_meta c)) \/ In kv (nth i ds [])
    end.
Proof.
  intros (Ne & Eq & Wt & Wl). unfold iter_metadata. destruct (line_data (c_meta c)) as [ds|].
  - destruct Wl as [Ll Wl]. rewrite map_length. split; [exact Ll|]. intros i Hi. unfold clen in Hi.
    assert (Id : In (nth i ds []) ds) by (apply nth_In; lia). destruct (Wl _ Id) as [[W1 W2] Dj].
    rewrite (map_nth_indep _ _ _ [] []) by lia. rewrite union_app by assumption. split; [split|].
    + rewrite map_app. apply NoDup_app_intro; [apply Wt|exact W1|]. intros k A B. exact (Dj k B A).
    + rewrite map_app, in_app_iff. intros [I|I]; [exact (proj2 Wt I)|exact (W2 I)].
    + intros kv. rewrite in_app_iff. tauto.
  - rewrite repeat_length. split; [reflexivity|]. intros i Hi.
    assert (nth i (repeat (top (c_meta c)) (clen c)) [] = top (c_meta c)) as ->.
    { apply (repeat_spec (clen c)). apply nth_In. rewrite repeat_length. exact Hi. }
    split; [exact Wt|reflexivity].
Qed.

Lemma py_index_nat n i : (i < n)%nat -> py_index n (Z.of_nat i) = Some i.
Proof.
  intros H. unfold py_index. destruct (Z.leb_spec (- Z.of_nat n) (Z.of_nat i)); [|lia].
  destruct (Z.ltb_spec (Z.of_nat i) (Z.of_nat n)); [|lia]. cbn [andb]. destruct (Z.ltb_spec (Z.of_nat i) 0); [lia|].
  rewrite Nat2Z.id. reflexivity.
Qed.
Lemma take_nat {A} (d : A) l i : (i < length l)%nat -> take d l (Z.of_nat i) = Ok (nth i l d).
Proof. intros H. unfold take. rewrite py_index_nat by exact H. reflexivity. Qed.

Lemma get_int_nat c i : wf_coll c -> (i < clen c)%nat ->
  get_int c (Z.of_nat i) = Ok (mkS (c_axes c) (nth i (c_lines c) []) (c_ticks c) (nth i (iter_metadata c) [])).
Proof.
  intros W H. destruct (iter_spec c W) as [L _]. unfold get_int. rewrite take_nat by exact H. cbn [bind].
  rewrite take_nat by (rewrite L; exact H). reflexivity.
Qed.
Lemma at_pos_iff c i s : wf_coll c -> (i < clen c)%nat ->
  (at_pos c i s <-> s = mkS (c_axes c) (nth i (c_lines c) []) (c_ticks c) (nth i (iter_metadata c) [])).
Proof. intros W H. unfold at_pos. rewrite get_int_nat by assumption. split; congruence. Qed.
Lemma entry_iff c i kv : wf_coll c -> (i < clen c)%nat -> (entry c i kv <-> In kv (nth i (iter_metadata c) [])).
Proof.
  intros W H. unfold entry. split.
  - intros (s & A & I). apply at_pos_iff in A; [|assumption|assumption]. subst s. exact I.
  - intros I. eexists. split; [apply at_pos_iff; [assumption|assumption|reflexivity]|exact I].
Qed.

(** ** Building a collection out of lines and their metadata *)
Lemma build_coll axes lines t ms : lines <> [] -> length ms = length lines ->
  (forall l m, In l lines -> In m lines -> length l = length m) -> (forall d, In d ms -> wf_dict d) ->
  exists c, bind (combine_metadata ms) (fun m => mk_coll axes lines t m) = Ok c /\ wf_coll c /\
    c_axes c = axes /\ c_lines c = lines /\ c_ticks c = t /\
    (forall kv, In kv (top (c_meta c)) <-> forall d, In d ms -> In kv d) /\
    forall i, (i < length lines)%nat -> same_entries (nth i (iter_metadata c) []) (nth i ms []).
Proof.
  intros Nl Lm Eq W. destruct (combine_ok ms) as (m & E & Wt & Ct & Ld); [destruct ms, lines; cbn in Lm; congruence|exact W|].
  rewrite E. cbn [bind]. unfold mk_coll.
  set (c := mkColl axes lines t m).
  assert (Wc : wf_coll c).
  { split; [exact Nl|]. split; [exact Eq|]. split; [exact Wt|]. cbn [c_meta c].
    destruct (line_data m) as [l|]; [|exact I]. destruct Ld as [Ll Ld]. split; [cbn; congruence|].
    intros d Id. destruct (In_nth _ _ [] Id) as (i & Hi & <-). destruct (Ld i ltac:(lia)) as (A & B & _). split; assumption. }
  exists c. split; [destruct (line_data m) as [l|]; [destruct Ld as [Ll _]; rewrite Ll, Lm, Nat.eqb_refl|]; reflexivity|].
  split; [exact Wc|]. split; [reflexivity|]. split; [reflexivity|]. split; [reflexivity|]. split; [exact Ct|].
  intros i Hi. destruct (iter_spec c Wc) as [_ Is]. destruct (Is i Hi) as [_ S]. cbn [c_meta c] in S.
  destruct (line_data m) as [l|].
  - destruct Ld as [Ll Ld]. destruct (Ld i ltac:(lia)) as (_ & _ & L). intros kv. rewrite S, L. tauto.
  - rewrite S. intros kv. symmetry. apply Ld. apply nth_In. lia.
Qed.

Lemma mapE_take {A} (d : A) l is : (forall i, In i is -> (i < length l)%nat) ->
  mapE (take d l) (map Z.of_nat is) = Ok (map (fun i => nth i l d) is).
Proof.
  induction is as [|i is IH]; intros H; [reflexivity|]. cbn [map mapE]. rewrite take_nat by (apply H; left; reflexivity).
  rewrite IH; [reflexivity|]. intros j Hj. apply H. right. exact Hj.
Qed.

(** Indexing with a non-empty list of valid positions. *)
Lemma get_list_ok c is : wf_coll c -> is <> [] -> (forall i, In i is -> (i < clen c)%nat) ->
  exists r, get_list c (map Z.of_nat is) = Ok r /\ wf_coll r /\ picks c r is /\
    c_lines r = map (fun i => nth i (c_lines c) []) is /\
    (forall kv, In kv (top (c_meta r)) <-> forall i, In i is -> In kv (nth i (iter_metadata c) [])).
Proof.
  intros W Ne H. destruct (iter_spec c W) as [Li Ii]. unfold get_list.
  rewrite mapE_take by exact H. cbn [bind]. rewrite mapE_take by (rewrite Li; exact H). cbn [bind].
  destruct (build_coll (c_axes c) (map (fun i => nth i (c_lines c) []) is) (c_ticks c) (map (fun i => nth i (iter_metadata c) []) is))
    as (r & E & Wr & Ax & Ln & Tk & Tp & Sm).
  - destruct is; [congruence|discriminate].
  - rewrite !map_length. reflexivity.
  - intros l m A B. apply in_map_iff in A, B. destruct A as (i & <- & A), B as (j & <- & B).
    apply W; apply nth_In; apply H; assumption.
  - intros d I. apply in_map_iff in I. destruct I as (i & <- & I). apply Ii. apply H. exact I.
  - exists r. split; [exact E|]. split; [exact Wr|].
    assert (Lr : clen r = length is) by (unfold clen; rewrite Ln, map_length; reflexivity).
    split; [|split; [exact Ln|]].
    + split; [exact Lr|]. split; [exact Ax|]. split; [exact Tk|]. intros j Hj.
      assert (Ij : In (nth j is 0%nat) is) by (apply nth_In; exact Hj).
      exists (mkS (c_axes c) (nth (nth j is 0%nat) (c_lines c) []) (c_ticks c) (nth (nth j is 0%nat) (iter_metadata c) [])).
      exists (mkS (c_axes r) (nth j (c_lines r) []) (c_ticks r) (nth j (iter_metadata r) [])).
      split; [apply at_pos_iff; auto|]. split; [apply at_pos_iff; [assumption|rewrite Lr; exact Hj|reflexivity]|].
      cbn [s_axes s_ticks s_data s_meta]. split; [exact Ax|]. split; [exact Tk|]. split.
      * rewrite Ln. rewrite (map_nth_indep _ _ _ 0%nat []) by exact Hj. reflexivity.
      * specialize (Sm j ltac:(rewrite map_length; exact Hj)).
        rewrite (map_nth_indep _ _ _ 0%nat []) in Sm by exact Hj. exact Sm.
    + intros kv. rewrite Tp. split.
      * intros A i I. apply A. apply in_map_iff. exists i. split; [reflexivity|exact I].
      * intros A d I. apply in_map_iff in I. destruct I as (i & <- & I). apply A. exact I.
Qed.

(** ** Sum *)
Lemma csum_ok c : wf_coll c -> exists s, csum c = Ok s /\
  s_axes s = c_axes c /\ s_ticks s = c_ticks c /\
  length (s_data s) = width (c_lines c) /\ summed c (seq 0 (clen c)) (s_data s) /\
  wf_dict (s_meta s) /\
  forall kv, In kv (s_meta s) <-> forall i, (i < clen c)%nat -> entry c i kv.
Proof.
  intros W. pose proof W as (Ne & Eq & Wt & Wl). destruct (iter_spec c W) as [Li Ii].
  assert (N0 : (0 < clen c)%nat) by (unfold clen; destruct (c_lines c); [congruence|cbn; lia]).
  set (ls := match line_data (c_meta c) with Some l => l | None => repeat [] (clen c) end).
  assert (Lls : length ls = clen c).
  { unfold ls. destruct (line_data (c_meta c)); [apply Wl|apply repeat_length]. }
  assert (Wls : forall d, In d ls -> wf_dict d /\ forall k, In k (map fst d) -> ~ In k (map fst (top (c_meta c)))).
  { unfold ls. destruct (line_data (c_meta c)) as [l|]; [apply Wl|]. intros d I. apply repeat_spec in I. subst d.
    split; [split; [constructor|intros []]|intros k []]. }
  assert (Ent : forall i, (i < clen c)%nat -> forall kv, In kv (nth i (iter_metadata c) []) <-> In kv (top (c_meta c)) \/ In kv (nth i ls [])).
  { intros i Hi kv. destruct (Ii i Hi) as [_ S]. unfold ls. destruct (line_data (c_meta c)) as [l|]; [apply S|].
    rewrite S. assert (nth i (repeat (@nil (string * value)) (clen c)) [] = []) as ->.
    { apply (repeat_spec (clen c)). apply nth_In. rewrite repeat_length. exact Hi. } cbn. tauto. }
  destruct (combine_ok ls) as (m & E & Wm & Cm & _); [destruct ls; [cbn in Lls; lia|discriminate]|intros d I; apply Wls; exact I|].
  assert (D : forall k, In k (map fst (top m)) -> ~ In k (map fst (top (c_meta c)))).
  { intros k I. apply in_map_iff in I. destruct I as (kv & <- & I).
    assert (I0 : In (nth 0 ls []) ls) by (apply nth_In; lia). apply (proj2 (Wls _ I0)).
    apply in_map. apply Cm; [exact I|exact I0]. }
  unfold csum, tidy_metadata. fold ls. rewrite E. cbn [bind]. eexists. split; [reflexivity|]. cbn [s_axes s_ticks s_data s_meta].
  split; [reflexivity|]. split; [reflexivity|].
  assert (Lc : length (column_sums (width (c_lines c)) (c_lines c)) = width (c_lines c)).
  { unfold column_sums. rewrite map_length, seq_length. reflexivity. }
  split; [exact Lc|]. split.
  - intros j. transitivity (Sum (c_lines c) (fun l => nth j l 0)).
    + destruct (lt_dec j (width (c_lines c))) as [Hj|Hj].
      * unfold column_sums. rewrite (map_nth_indep _ _ _ 0%nat 0) by (rewrite seq_length; exact Hj).
        rewrite seq_nth by exact Hj. reflexivity.
      * rewrite nth_overflow by lia. symmetry. apply Sum_zero_ext. intros l Il. apply nth_overflow.
        destruct (c_lines c) as [|l0 r] eqn:El; [destruct Il|]. cbn [width] in Hj.
        rewrite (Eq l l0); [lia|exact Il|left; reflexivity].
    + rewrite <- (map_nth_seq' (c_lines c) []) at 1. unfold clen, Sum. rewrite map_map. reflexivity.
  - rewrite union_app by (first [apply Wm|exact D]). split.
    + split; [rewrite map_app; apply NoDup_app_intro; [apply Wt|apply Wm|intros k A B; exact (D k B A)]|].
      rewrite map_app, in_app_iff. intros [I|I]; [exact (proj2 Wt I)|exact (proj2 Wm I)].
    + intros kv. rewrite in_app_iff, Cm. split.
      * intros H i Hi. apply entry_iff; [exact W|exact Hi|]. apply Ent; [exact Hi|].
        destruct H as [H|H]; [left; exact H|right; apply H; apply nth_In; lia].
      * intros H. assert (H' : forall i, (i < clen c)%nat -> In kv (top (c_meta c)) \/ In kv (nth i ls [])).
        { intros i Hi. apply Ent; [exact Hi|]. apply entry_iff; auto. }
        destruct (H' 0%nat N0) as [T|T]; [left; exact T|]. right. intros d Id.
        destruct (In_nth _ _ [] Id) as (i & Hi & <-). destruct (H' i ltac:(lia)) as [U|U]; [|exact U].
        exfalso. assert (I0 : In (nth 0 ls []) ls) by (apply nth_In; lia).
        apply (proj2 (Wls _ I0) (fst kv)); apply in_map; assumption.
Qed.
