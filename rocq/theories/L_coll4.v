(** Lemmas for C34: integer indices and slices. *)
From Coq Require Import String Sorted.
From Verif Require Import Base M_qpts M_path M_bins M_coll S_coll L_util L_struct L_qpts L_path2 L_dos2 L_bins2 L_coll L_coll2 L_coll3.
Open Scope R_scope.

Section Ext.
Variable R0 : nat -> nat -> Prop.
Hypothesis irr : forall a, ~ R0 a a.
Hypothesis tr : forall a b c, R0 a b -> R0 b c -> R0 a c.
Lemma strong_ext l m : StronglySorted R0 l -> StronglySorted R0 m -> (forall x, In x l <-> In x m) -> l = m.
Proof.
  intros Sl. revert m. induction Sl as [|a l Sl IH Fa]; intros m Sm H.
  - destruct m as [|b m]; [reflexivity|]. exfalso. apply (proj2 (H b)). left. reflexivity.
  - destruct Sm as [|b m Sm Fb]; [exfalso; apply (proj1 (H a)); left; reflexivity|].
    rewrite Forall_forall in Fa, Fb.
    assert (a = b).
    { destruct (proj1 (H a) (or_introl eq_refl)) as [E|E]; [congruence|].
      destruct (proj2 (H b) (or_introl eq_refl)) as [F|F]; [congruence|].
      exfalso. apply (irr a). apply (tr a b a); [apply Fa; exact F|apply Fb; exact E]. }
    subst b. f_equal. apply IH; [exact Sm|]. intros x. split; intros I.
    + destruct (proj1 (H x) (or_intror I)) as [E|E]; [|exact E]. subst x. exfalso. apply (irr a), Fa, I.
    + destruct (proj2 (H x) (or_intror I)) as [E|E]; [|exact E]. subst x. exfalso. apply (irr a), Fb, I.
Qed.
End Ext.

Lemma strong_snoc (R0 : nat -> nat -> Prop) l a : StronglySorted R0 l -> (forall x, In x l -> R0 x a) -> StronglySorted R0 (l ++ [a]).
Proof.
  induction 1 as [|b l S IH F]; intros H; cbn [app]; [repeat constructor|].
  constructor; [apply IH; intros x I; apply H; right; exact I|]. apply Forall_app. split; [exact F|]. constructor; [apply H; left; reflexivity|constructor].
Qed.
Lemma strong_rev l : StronglySorted lt l -> StronglySorted (fun a b => (b < a)%nat) (rev l).
Proof.
  induction 1 as [|a l S IH F]; cbn [rev]; [constructor|]. apply strong_snoc; [exact IH|].
  intros x I. apply in_rev in I. rewrite Forall_forall in F. apply F. exact I.
Qed.

Lemma walk_up fuel i stop step k : (0 < step)%Z -> (0 <= i)%Z -> (stop <= i + Z.of_nat fuel)%Z ->
  (In k (walk fuel i stop step) <-> (i <= Z.of_nat k < stop)%Z /\ ((Z.of_nat k - i) mod step = 0)%Z).
Proof.
  intros Hs. revert i. induction fuel as [|f IH]; intros i Hi Hf; cbn [walk].
  - split; [intros []|]. intros [A _]. lia.
  - destruct (step <? 0)%Z eqn:Q; [apply Z.ltb_lt in Q; lia|]. destruct (i <? stop)%Z eqn:Q2.
    + apply Z.ltb_lt in Q2. cbn [In]. rewrite IH by lia. split.
      * intros [E|[A B]].
        -- subst k. rewrite Z2Nat.id by lia. split; [lia|]. rewrite Z.sub_diag. apply Z.mod_0_l. lia.
        -- split; [lia|]. replace (Z.of_nat k - i)%Z with (Z.of_nat k - (i + step) + 1 * step)%Z by ring. rewrite Z.mod_add by lia. exact B.
      * intros [A B]. destruct (Z.eq_dec (Z.of_nat k) i) as [E|E]; [left; lia|]. right.
        apply Z.mod_divide in B; [|lia]. destruct B as [t Et].
        assert (1 <= t)%Z by nia. split; [nia|]. replace (Z.of_nat k - (i + step))%Z with ((t - 1) * step)%Z by lia. apply Z.mod_mul. lia.
    + apply Z.ltb_ge in Q2. split; [intros []|]. lia.
Qed.
Lemma walk_up_sorted fuel i stop step : (0 < step)%Z -> (0 <= i)%Z -> StronglySorted lt (walk fuel i stop step) /\
  forall k, In k (walk fuel i stop step) -> (i <= Z.of_nat k)%Z.
Proof.
  intros Hs. revert i. induction fuel as [|f IH]; intros i Hi; cbn [walk]; [split; [constructor|intros k []]|].
  destruct (if (step <? 0)%Z then (stop <? i)%Z else (i <? stop)%Z); [|split; [constructor|intros k []]].
  destruct (IH (i + step)%Z ltac:(lia)) as [A B]. split.
  - constructor; [exact A|]. apply Forall_forall. intros k I. specialize (B k I). lia.
  - intros k [<-|I]; [lia|]. specialize (B k I). lia.
Qed.

Lemma walk_down fuel i stop step k : (step < 0)%Z -> (-1 <= stop)%Z -> (i - Z.of_nat fuel <= stop)%Z ->
  (In k (walk fuel i stop step) <-> (stop < Z.of_nat k <= i)%Z /\ ((i - Z.of_nat k) mod (- step) = 0)%Z).
Proof.
  intros Hs Hst. revert i. induction fuel as [|f IH]; intros i Hf; cbn [walk].
  - split; [intros []|]. intros [A _]. lia.
  - destruct (step <? 0)%Z eqn:Q; [|apply Z.ltb_ge in Q; lia]. destruct (stop <? i)%Z eqn:Q2.
    + apply Z.ltb_lt in Q2. cbn [In]. rewrite IH by lia. split.
      * intros [E|[A B]].
        -- subst k. rewrite Z2Nat.id by lia. split; [lia|]. rewrite Z.sub_diag. apply Z.mod_0_l. lia.
        -- split; [lia|]. replace (i - Z.of_nat k)%Z with (i + step - Z.of_nat k + 1 * - step)%Z by ring. rewrite Z.mod_add by lia. exact B.
      * intros [A B]. destruct (Z.eq_dec (Z.of_nat k) i) as [E|E]; [left; lia|]. right.
        apply Z.mod_divide in B; [|lia]. destruct B as [t Et].
        assert (1 <= t)%Z by nia. split; [nia|]. replace (i + step - Z.of_nat k)%Z with ((t - 1) * - step)%Z by lia. apply Z.mod_mul. lia.
    + apply Z.ltb_ge in Q2. split; [intros []|]. lia.
Qed.
Lemma walk_down_sorted fuel i stop step : (step < 0)%Z -> (-1 <= stop)%Z ->
  StronglySorted (fun a b => (b < a)%nat) (walk fuel i stop step) /\
  forall k, In k (walk fuel i stop step) -> (Z.of_nat k <= i)%Z.
Proof.
  intros Hs Hst. revert i. induction fuel as [|f IH]; intros i; cbn [walk]; [split; [constructor|intros k []]|].
  destruct (step <? 0)%Z eqn:Q; [|apply Z.ltb_ge in Q; lia].
  destruct (stop <? i)%Z eqn:Q2; [|split; [constructor|intros k []]]. apply Z.ltb_lt in Q2.
  destruct (IH (i + step)%Z) as [A B]. split.
  - constructor; [exact A|]. apply Forall_forall. intros k I. specialize (B k I). lia.
  - intros k [<-|I]; [lia|]. specialize (B k I). lia.
Qed.

Lemma slice_is_python n start stop step : step <> 0%Z -> slice_positions n start stop step = python_positions n start stop step.
Proof.
  intros Hs. unfold slice_positions, slice_bounds, python_positions, from_end. destruct (0 <? step)%Z eqn:Q.
  - apply Z.ltb_lt in Q. replace (step <? 0)%Z with false by (symmetry; apply Z.ltb_ge; lia). cbn [fst snd].
    match goal with |- walk n ?x ?y step = _ => set (a := x); set (b := y) end.
    assert (Ha : (0 <= a)%Z) by (unfold a; destruct start as [v|]; [destruct (v <? 0)%Z eqn:V; [lia|apply Z.ltb_ge in V; lia]|lia]).
    assert (Hb : (b <= Z.of_nat n)%Z) by (unfold b; destruct stop as [v|]; [destruct (v <? 0)%Z eqn:V; [apply Z.ltb_lt in V; lia|lia]|lia]).
    apply (strong_ext lt); [intros x; lia|intros x y z; lia|apply walk_up_sorted; lia|apply filter_strong, seq_strong|].
    intros k. rewrite walk_up by lia. rewrite filter_In, in_seq, !andb_true_iff, Z.leb_le, Z.ltb_lt, Z.eqb_eq.
    unfold a, b in *. destruct start as [u|]; destruct stop as [v|];
      try (destruct (u <? 0)%Z eqn:U; [apply Z.ltb_lt in U|apply Z.ltb_ge in U]);
      try (destruct (v <? 0)%Z eqn:V; [apply Z.ltb_lt in V|apply Z.ltb_ge in V]);
      try rewrite (Z.max_comm (u + Z.of_nat n) 0);
      try (replace (Z.max 0 u) with u by lia);
      try (intuition lia);
      try (destruct (Z.le_gt_cases u (Z.of_nat n)); [replace (Z.min u (Z.of_nat n)) with u in * by lia; intuition lia|intuition lia]).
  - apply Z.ltb_ge in Q. replace (step <? 0)%Z with true by (symmetry; apply Z.ltb_lt; lia). cbn [fst snd].
    match goal with |- walk n ?x ?y step = _ => set (a := x); set (b := y) end.
    assert (Ha : (a <= Z.of_nat n - 1)%Z) by (unfold a; destruct start as [v|]; [destruct (v <? 0)%Z eqn:V; [apply Z.ltb_lt in V; lia|lia]|lia]).
    assert (Hb : (-1 <= b)%Z) by (unfold b; destruct stop as [v|]; [destruct (v <? 0)%Z eqn:V; [lia|apply Z.ltb_ge in V; lia]|lia]).
    apply (strong_ext (fun a b => (b < a)%nat)); [intros x; lia|intros x y z; lia|apply walk_down_sorted; lia|apply strong_rev, filter_strong, seq_strong|].
    intros k. rewrite walk_down by lia. rewrite <- in_rev, filter_In, in_seq, !andb_true_iff, Z.leb_le, Z.ltb_lt, Z.eqb_eq.
    unfold a, b in *. destruct start as [u|]; destruct stop as [v|];
      try (destruct (u <? 0)%Z eqn:U; [apply Z.ltb_lt in U|apply Z.ltb_ge in U]);
      try (destruct (v <? 0)%Z eqn:V; [apply Z.ltb_lt in V|apply Z.ltb_ge in V]);
      try rewrite (Z.min_comm u (Z.of_nat n - 1));
      try (replace (Z.min (Z.of_nat n - 1) (u + Z.of_nat n)) with (u + Z.of_nat n)%Z by lia);
      try (intuition lia);
      try (destruct (Z.le_gt_cases (-1) (u + Z.of_nat n)); [replace (Z.max (u + Z.of_nat n) (-1)) with (u + Z.of_nat n)%Z in * by lia; intuition lia|intuition lia]).
Qed.

Lemma python_in_range n start stop step k : In k (python_positions n start stop step) -> (k < n)%nat.
Proof.
  unfold python_positions. destruct (0 <? step)%Z; [|rewrite <- in_rev]; intros I; apply filter_In in I; destruct I as [I _]; apply in_seq in I; lia.
Qed.

(** ** Integers *)
Lemma index_ok c i : wf_coll c -> (- Z.of_nat (clen c) <= i < Z.of_nat (clen c))%Z ->
  exists s, get_int c i = Ok s /\ at_pos c (Z.to_nat (from_end (Z.of_nat (clen c)) i)) s.
Proof.
  intros W H. assert (E : get_int c i = get_int c (from_end (Z.of_nat (clen c)) i)).
  { unfold from_end. destruct (i <? 0)%Z eqn:Q; [|reflexivity]. apply Z.ltb_lt in Q.
    assert (T : py_index (clen c) i = py_index (clen c) (i + Z.of_nat (clen c))).
    { replace (i + Z.of_nat (clen c))%Z with (Z.of_nat (Z.to_nat (i + Z.of_nat (clen c)))) by lia. rewrite py_index_nat by lia.
      unfold py_index. rewrite (proj2 (Z.leb_le _ _)) by lia. rewrite (proj2 (Z.ltb_lt i (Z.of_nat (clen c)))) by lia.
      rewrite (proj2 (Z.ltb_lt _ _) Q). reflexivity. }
    destruct (iter_spec c W) as [Li _]. unfold get_int, take. rewrite Li. unfold clen in *. rewrite T. reflexivity. }
  assert (R0 : (0 <= from_end (Z.of_nat (clen c)) i < Z.of_nat (clen c))%Z).
  { unfold from_end. destruct (i <? 0)%Z eqn:Q; [apply Z.ltb_lt in Q|apply Z.ltb_ge in Q]; lia. }
  set (k := Z.to_nat (from_end (Z.of_nat (clen c)) i)).
  assert (Hk : (k < clen c)%nat) by (unfold k; lia).
  exists (mkS (c_axes c) (nth k (c_lines c) []) (c_ticks c) (nth k (iter_metadata c) [])). split.
  - rewrite E. replace (from_end (Z.of_nat (clen c)) i) with (Z.of_nat k) by (unfold k; lia). apply (at_pos_iff c k _ W Hk). reflexivity.
  - apply (at_pos_iff c k _ W Hk). reflexivity.
Qed.
Lemma index_out c i : (i < - Z.of_nat (clen c) \/ Z.of_nat (clen c) <= i)%Z -> get_int c i = Err IndexOut.
Proof.
  intros H. unfold get_int, take, py_index. fold (clen c).
  replace ((- Z.of_nat (clen c) <=? i) && (i <? Z.of_nat (clen c)))%Z%bool with false; [reflexivity|].
  symmetry. apply andb_false_iff. destruct H as [H|H]; [left; apply Z.leb_gt; lia|right; apply Z.ltb_ge; lia].
Qed.

(** ** Slices *)
Lemma pick_list c start stop step : wf_coll c -> step <> 0%Z -> match stop with Some b => (b < Z.of_nat (clen c))%Z | None => True end ->
  get_slice c start stop step = get_list c (map Z.of_nat (python_positions (clen c) start stop step)).
Proof.
  intros W Hs Hb. destruct (iter_spec c W) as [Li _]. unfold get_slice.
  replace (match stop with Some b => (Z.of_nat (clen c) <=? b)%Z | None => false end) with false
    by (symmetry; destruct stop; [apply Z.leb_gt; exact Hb|reflexivity]).
  unfold get_list. rewrite (mapE_take [] (c_lines c)) by (intros i I; apply python_in_range in I; exact I). cbn [bind].
  rewrite (mapE_take [] (iter_metadata c)) by (rewrite Li; intros i I; apply python_in_range in I; exact I). cbn [bind].
  rewrite !slice_is_python by exact Hs. rewrite Li. reflexivity.
Qed.
Lemma slice_ok c start stop step : wf_coll c -> step <> 0%Z -> match stop with Some b => (b < Z.of_nat (clen c))%Z | None => True end ->
  python_positions (clen c) start stop step <> [] ->
  exists r, get_slice c start stop step = Ok r /\ wf_coll r /\ picks c r (python_positions (clen c) start stop step).
Proof.
  intros W Hs Hb Ne. rewrite pick_list by assumption.
  destruct (get_list_ok c _ W Ne (fun i I => python_in_range _ _ _ _ _ I)) as (r & Er & Wr & Pk & _). exists r. auto.
Qed.
Lemma slice_empty c start stop step : wf_coll c -> step <> 0%Z -> match stop with Some b => (b < Z.of_nat (clen c))%Z | None => True end ->
  python_positions (clen c) start stop step = [] -> get_slice c start stop step = Err ReduceEmpty.
Proof. intros W Hs Hb E. rewrite pick_list by assumption. rewrite E. reflexivity. Qed.
Lemma slice_out c start stop step : (Z.of_nat (clen c) <= stop)%Z -> get_slice c start (Some stop) step = Err SliceOut.
Proof. intros H. unfold get_slice. rewrite (proj2 (Z.leb_le _ _) H). reflexivity. Qed.
Lemma whole_slice n : python_positions n (Some 0%Z) (Some (Z.of_nat n)) 1 = seq 0 n.
Proof.
  unfold python_positions, from_end. cbn [Z.ltb Z.compare]. replace (Z.of_nat n <? 0)%Z with false by (symmetry; apply Z.ltb_ge; lia).
  rewrite Z.min_id. erewrite filter_ext_in with (g := fun _ => true).
  - induction (seq 0 n); cbn; congruence.
  - intros i I. apply in_seq in I. rewrite !andb_true_iff, Z.leb_le, Z.ltb_lt, Z.eqb_eq, Z.mod_1_r. lia.
Qed.
