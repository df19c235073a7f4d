(** Lemmas for C42, C43. *)
From Coq Require Import String Sorting.
From Verif Require Import Base Vec3 M_grid M_cell M_qpts M_dynmat M_dipole M_struct S_struct L_cell L_qpts.
Open Scope R_scope.

(** ** unique elements *)
Section Uniq.
Context {A : Type} (eqb : A -> A -> bool).
Hypothesis eqb_ok : forall x y, eqb x y = true <-> x = y.

Lemma existsb_in x l : existsb (eqb x) l = true <-> In x l.
Proof.
  rewrite existsb_exists. split.
  - intros [y [Hy E]]. apply eqb_ok in E. subst. exact Hy.
  - intros H. exists x. split; [exact H|apply eqb_ok; reflexivity].
Qed.

Definition kstep acc k := if existsb (eqb k) acc then acc else acc ++ [k].
Lemma dict_keys_gen l acc : NoDup acc ->
  let r := fold_left kstep l acc in
  NoDup r /\ (forall x, In x r <-> In x acc \/ In x l) /\ exists t, r = acc ++ t.
Proof.
  revert acc. induction l as [|k l IH]; intros acc Hnd; cbn [fold_left].
  - split; [exact Hnd|]. split; [intros x; cbn; tauto|]. exists []. rewrite app_nil_r. reflexivity.
  - assert (Hnd' : NoDup (kstep acc k)).
    { unfold kstep. destruct (existsb (eqb k) acc) eqn:E; [exact Hnd|].
      apply NoDup_app_intro; [exact Hnd|constructor; [intros []|constructor]|].
      intros x Hx [<-|[]]. apply existsb_in in Hx. congruence. }
    destruct (IH _ Hnd') as [H1 [H2 [t H3]]]. cbv zeta. split; [exact H1|]. split.
    + intros x. rewrite H2. unfold kstep. destruct (existsb (eqb k) acc) eqn:E.
      * apply existsb_in in E. cbn. split; [tauto|]. intros [|[->|]]; auto.
      * rewrite in_app_iff. cbn. tauto.
    + rewrite H3. unfold kstep. destruct (existsb (eqb k) acc); [exists t; reflexivity|].
      exists (k :: t). rewrite <- app_assoc. reflexivity.
Qed.
Lemma dict_keys_spec l : NoDup (dict_keys eqb l) /\ forall x, In x (dict_keys eqb l) <-> In x l.
Proof.
  destruct (dict_keys_gen l [] ltac:(constructor)) as [H1 [H2 _]]. split; [exact H1|].
  intros x. rewrite (H2 x). cbn. tauto.
Qed.

(** position of the first occurrence *)
Fixpoint first_pos (x : A) (l : list A) : nat :=
  match l with [] => 0%nat | y :: l' => if eqb x y then 0%nat else S (first_pos x l') end.
Lemma first_pos_spec x l : In x l -> nth_error l (first_pos x l) = Some x /\
  forall j, (j < first_pos x l)%nat -> nth_error l j <> Some x.
Proof.
  induction l as [|y l IH]; intros H; [contradiction|]. cbn [first_pos].
  destruct (eqb x y) eqn:E.
  - apply eqb_ok in E. subst. split; [reflexivity|]. intros; lia.
  - assert (x <> y) by (intros ->; rewrite (proj2 (eqb_ok y y) eq_refl) in E; discriminate).
    destruct H as [->|H]; [congruence|]. destruct (IH H) as [H1 H2]. split; [exact H1|].
    intros [|j] Hj; cbn; [congruence|]. apply H2. lia.
Qed.
Lemma first_pos_app x l l' : In x l -> first_pos x (l ++ l') = first_pos x l.
Proof.
  induction l as [|y l IH]; intros H; [contradiction|]. cbn. destruct (eqb x y) eqn:E; [reflexivity|].
  f_equal. apply IH. destruct H as [->|H]; [|exact H]. rewrite (proj2 (eqb_ok x x) eq_refl) in E. discriminate.
Qed.
Lemma first_pos_le x l : (first_pos x l <= length l)%nat.
Proof. induction l as [|y l IH]; cbn; [lia|]. destruct (eqb x y); lia. Qed.
Lemma first_pos_new x l l' : ~ In x l -> In x l' -> (first_pos x (l ++ l') >= length l)%nat.
Proof.
  induction l as [|y l IH]; intros H H'; [cbn; lia|]. cbn.
  destruct (eqb x y) eqn:E; [apply eqb_ok in E; subst; exfalso; apply H; left; reflexivity|].
  cbn in IH. specialize (IH ltac:(intros K; apply H; right; exact K) H'). lia.
Qed.
Lemma first_pos_lt x l : In x l -> (first_pos x l < length l)%nat.
Proof.
  intros H. destruct (first_pos_spec x l H) as [E _]. apply nth_error_Some. congruence.
Qed.

(** keys come in order of first appearance *)
Lemma sorted_app_le (f : A -> nat) l x :
  StronglySorted lt (map f l) -> (forall y, In y l -> (f y < f x)%nat) -> StronglySorted lt (map f (l ++ [x])).
Proof.
  induction l as [|a l IH]; intros Hs Hx; cbn.
  - constructor; [constructor|constructor].
  - inversion Hs as [|? ? Hs' Hf]; subst. constructor.
    + apply IH; [exact Hs'|]. intros y Hy. apply Hx. right. exact Hy.
    + rewrite map_app. apply Forall_app. split; [exact Hf|]. constructor; [apply Hx; left; reflexivity|constructor].
Qed.
Lemma dict_keys_order l : StronglySorted lt (map (fun x => first_pos x l) (dict_keys eqb l)).
Proof.
  assert (G : forall done rest, let keys := fold_left kstep done [] in
     StronglySorted lt (map (fun x => first_pos x (done ++ rest)) keys)).
  { induction done as [|x done IH] using rev_ind; intros rest; [constructor|].
    cbv zeta. rewrite fold_left_app. cbn [fold_left].
    destruct (dict_keys_gen done [] ltac:(constructor)) as [_ [Hin _]]. cbv zeta in Hin.
    rewrite <- app_assoc. cbn [app]. unfold kstep at 1.
    destruct (existsb (eqb x) (fold_left kstep done [])) eqn:E; [apply IH|].
    apply sorted_app_le; [apply IH|]. intros y Hy. apply Hin in Hy. destruct Hy as [[]|Hy].
    rewrite (first_pos_app y done) by exact Hy.
    assert (~ In x done). { intros K. assert (In x (fold_left kstep done [])) by (apply Hin; right; exact K).
      apply existsb_in in H. congruence. }
    pose proof (first_pos_lt y done Hy). pose proof (first_pos_new x done (x :: rest) H ltac:(left; reflexivity)). lia. }
  specialize (G l []). cbv zeta in G. rewrite app_nil_r in G. exact G.
Qed.

Lemma elem_idx_filter (l : list A) e s : map fst (filter (fun p => eqb e (snd p)) (combine (seq s (length l)) l))
  = filter (fun i => match nth_error l (i - s) with Some x => eqb e x | None => false end) (seq s (length l)).
Proof.
  revert s. induction l as [|x l IH]; intros s; [reflexivity|]. cbn [length seq combine filter snd].
  rewrite Nat.sub_diag. cbn [nth_error].
  assert (E : filter (fun i => match nth_error (x :: l) (i - s) with Some x0 => eqb e x0 | None => false end) (seq (S s) (length l))
     = filter (fun i => match nth_error l (i - S s) with Some x0 => eqb e x0 | None => false end) (seq (S s) (length l))).
  { apply filter_ext_in. intros i Hi. apply in_seq in Hi. replace (i - s)%nat with (S (i - S s)) by lia. reflexivity. }
  rewrite E, <- IH. destruct (eqb e x); reflexivity.
Qed.
Lemma in_elem_idx l e i : In i (elem_idx eqb l e) <-> nth_error l i = Some e.
Proof.
  unfold elem_idx. rewrite elem_idx_filter, filter_In, in_seq, Nat.sub_0_r. split.
  - intros [_ H]. destruct (nth_error l i) as [x|]; [|discriminate]. apply eqb_ok in H. subst. reflexivity.
  - intros H. split; [|rewrite H; apply eqb_ok; reflexivity].
    assert (i < length l)%nat by (apply nth_error_Some; congruence). lia.
Qed.
Lemma seq_sorted n s : StronglySorted lt (seq s n).
Proof.
  revert s. induction n as [|n IH]; intros s; [constructor|]. cbn. constructor; [apply IH|].
  apply Forall_forall. intros x Hx. apply in_seq in Hx. lia.
Qed.
Lemma filter_sorted (p : nat -> bool) l : StronglySorted lt l -> StronglySorted lt (filter p l).
Proof.
  induction 1 as [|x l Hs IH Hf]; [constructor|]. cbn. destruct (p x); [|exact IH].
  constructor; [exact IH|]. apply Forall_forall. intros y Hy. apply filter_In in Hy.
  rewrite Forall_forall in Hf. apply Hf. tauto.
Qed.
Lemma elem_idx_sorted l e : StronglySorted lt (elem_idx eqb l e).
Proof. unfold elem_idx. rewrite elem_idx_filter. apply filter_sorted, seq_sorted. Qed.
End Uniq.

Lemma sorted_NoDup l : StronglySorted lt l -> NoDup l.
Proof.
  induction 1 as [|x l Hs IH Hf]; constructor; [|exact IH]. intros H.
  rewrite Forall_forall in Hf. specialize (Hf x H). lia.
Qed.

Lemma string_eqb_ok x y : String.eqb x y = true <-> x = y.
Proof. apply String.eqb_eq. Qed.

(** C42 *)
Theorem species_partition (types : list string) :
  let d := get_species_idx types in
  NoDup (map fst d) /\ (forall s, In s (map fst d) <-> In s types) /\
  (forall a b sa sb ia ib, nth_error d a = Some (sa, ia) -> nth_error d b = Some (sb, ib) -> (a < b)%nat ->
     exists k, nth_error types k = Some sa /\ forall k', (k' <= k)%nat -> nth_error types k' <> Some sb) /\
  (forall s idx, In (s, idx) d -> StronglySorted lt idx /\ forall i, In i idx <-> nth_error types i = Some s) /\
  Permutation (concat (map snd d)) (seq 0 (length types)).
Proof.
  intros d. unfold d, get_species_idx, unique_elems_idx. rewrite !map_map. cbn [fst snd]. rewrite map_id.
  destruct (dict_keys_spec _ string_eqb_ok types) as [H1 H2].
  split; [exact H1|]. split; [exact H2|]. split; [|split].
  - intros a b sa sb ia ib Ea Eb Hab.
    rewrite nth_error_map in Ea, Eb.
    destruct (nth_error (dict_keys String.eqb types) a) as [ka|] eqn:Ka; [|discriminate].
    destruct (nth_error (dict_keys String.eqb types) b) as [kb|] eqn:Kb; [|discriminate].
    cbn in Ea, Eb. injection Ea as -> _. injection Eb as -> _.
    pose proof (dict_keys_order _ string_eqb_ok types) as Hs.
    assert (Hlt : (first_pos String.eqb sa types < first_pos String.eqb sb types)%nat).
    { clear -Hs Hab Ka Kb. revert a b Hab Ka Kb Hs. generalize (dict_keys String.eqb types).
      induction l as [|x l IH]; intros a b Hab Ka Kb Hs; [destruct a; discriminate|].
      inversion Hs as [|? ? Hs' Hf]; subst. destruct b as [|b]; [lia|]. cbn in Kb.
      destruct a as [|a].
      - cbn in Ka. injection Ka as ->. rewrite Forall_forall in Hf. apply Hf.
        apply in_map_iff. exists sb. split; [reflexivity|]. eapply nth_error_In. exact Kb.
      - apply (IH a b); [lia|exact Ka|exact Kb|exact Hs']. }
    exists (first_pos String.eqb sa types).
    destruct (first_pos_spec _ string_eqb_ok sa types) as [F1 _]. { apply H2. eapply nth_error_In. exact Ka. }
    destruct (first_pos_spec _ string_eqb_ok sb types) as [_ F2]. { apply H2. eapply nth_error_In. exact Kb. }
    split; [exact F1|]. intros k' Hk'. apply F2. lia.
  - intros s idx H. apply in_map_iff in H. destruct H as [e [E _]]. injection E as -> <-.
    split; [apply (elem_idx_sorted String.eqb)|]. intros i. apply (in_elem_idx _ string_eqb_ok).
  - rewrite <- (map_map (fun x => elem_idx String.eqb types x) (fun x => x)), map_id.
    rewrite <- flat_map_concat_map. apply NoDup_Permutation.
    + apply NoDup_flat_map; [exact H1| |].
      * intros e _. apply sorted_NoDup. apply (elem_idx_sorted String.eqb).
      * intros x y i _ _ Hi Hj. apply (in_elem_idx _ string_eqb_ok) in Hi, Hj. congruence.
    + apply seq_NoDup.
    + intros i. rewrite in_flat_map, in_seq. split.
      * intros [e [_ Hi]]. apply (in_elem_idx _ string_eqb_ok) in Hi.
        assert (i < length types)%nat by (apply nth_error_Some; congruence). lia.
      * intros Hi. destruct (nth_error types i) as [e|] eqn:E; [|apply nth_error_None in E; lia].
        exists e. split; [apply H2; eapply nth_error_In; exact E|]. apply (in_elem_idx _ string_eqb_ok). exact E.
Qed.

(** ** C43 *)
Section Equiv.
Variables (n_ops : nat) (idx : list nat) (i : nat) (dist : nat -> nat -> R) (tol : R).
Let m := fun s => filter (fun p => Rltb (dist s p) tol) (seq 0 (length idx)).
Let prs l := flat_map (fun s => map (fun p => (s, p)) (m s)) l.

Lemma in_m s p : In p (m s) <-> (p < length idx)%nat /\ dist s p < tol.
Proof.
  unfold m. rewrite filter_In, in_seq. destruct (Rltb_spec (dist s p) tol); split; intros [H1 H2]; split;
    (lia || assumption || discriminate || contradiction || reflexivity).
Qed.
Lemma nodup_m s : NoDup (m s).
Proof. apply NoDup_filter, seq_NoDup. Qed.

Lemma prs_one l : (forall s, In s l -> length (m s) = 1%nat) -> prs l = map (fun s => (s, hd 0%nat (m s))) l.
Proof.
  induction l as [|s l IH]; intros H; [reflexivity|]. cbn.
  pose proof (H s ltac:(left; reflexivity)) as E. destruct (m s) as [|p [|? ?]]; try discriminate.
  cbn. f_equal. apply IH. intros s' Hs'. apply H. right. exact Hs'.
Qed.
Lemma prs_count l s : count_occ Nat.eq_dec (map fst (prs l)) s = (count_occ Nat.eq_dec l s * length (m s))%nat.
Proof.
  induction l as [|x l IH]; [reflexivity|]. unfold prs. cbn [flat_map]. rewrite map_app, count_occ_app.
  fold (prs l). rewrite IH. rewrite map_map. cbn [fst].
  assert (E : count_occ Nat.eq_dec (map (fun _ : nat => x) (m x)) s = if Nat.eq_dec x s then length (m x) else 0%nat).
  { generalize (m x). intros lx. destruct (Nat.eq_dec x s) as [e|Hne].
    - induction lx as [|y l0 IH0]; [reflexivity|]. cbn [map length]. rewrite count_occ_cons_eq, IH0 by exact e. reflexivity.
    - induction lx as [|y l0 IH0]; [reflexivity|]. cbn [map]. rewrite count_occ_cons_neq by exact Hne. exact IH0. }
  rewrite E. cbn [count_occ]. destruct (Nat.eq_dec x s) as [->|]; lia.
Qed.
Lemma prs_eq : map fst (prs (seq 0 n_ops)) = seq 0 n_ops <-> forall s, (s < n_ops)%nat -> length (m s) = 1%nat.
Proof.
  split.
  - intros E s Hs. pose proof (prs_count (seq 0 n_ops) s) as C. rewrite E in C.
    assert (C1 : count_occ Nat.eq_dec (seq 0 n_ops) s = 1%nat).
    { apply NoDup_count_occ'; [apply seq_NoDup|apply in_seq; lia]. }
    rewrite C1 in C. lia.
  - intros H. rewrite prs_one by (intros s Hs; apply H; apply in_seq in Hs; lia).
    rewrite map_map. cbn. apply map_id.
Qed.

Lemma equiv_of_atom_spec :
  match equiv_of_atom n_ops idx i dist tol with
  | Ok col => length col = n_ops /\ forall s, (s < n_ops)%nat -> exists p, (p < length idx)%nat /\
      nth s col 0%nat = nth p idx 0%nat /\ dist s p < tol /\
      forall p', (p' < length idx)%nat -> dist s p' < tol -> p' = p
  | Err (NoEquivalent i' s) => i' = i /\ (s < n_ops)%nat /\ forall p, (p < length idx)%nat -> ~ dist s p < tol
  | Err (MultipleEquivalent i' s) => i' = i /\ (s < n_ops)%nat /\ exists p p', (p < length idx)%nat /\ (p' < length idx)%nat /\
      p <> p' /\ dist s p < tol /\ dist s p' < tol
  | Err _ => False
  end.
Proof.
  unfold equiv_of_atom. cbv zeta.
  change (flat_map (fun s => map (fun p => (s, p)) (filter (fun p => Rltb (dist s p) tol) (seq 0 (length idx)))) (seq 0 n_ops))
    with (prs (seq 0 n_ops)).
  destruct (list_eq_dec Nat.eq_dec (map fst (prs (seq 0 n_ops))) (seq 0 n_ops)) as [E|E].
  - pose proof (proj1 prs_eq E) as H1.
    assert (L : length (prs (seq 0 n_ops)) = n_ops).
    { rewrite <- (map_length fst), E. apply seq_length. }
    rewrite L, Nat.eqb_refl. rewrite prs_one by (intros s Hs; apply H1; apply in_seq in Hs; lia).
    rewrite map_map. cbn [snd]. rewrite map_length, seq_length. split; [reflexivity|].
    intros s Hs. pose proof (H1 s Hs) as L1. destruct (m s) as [|p [|? ?]] eqn:Em; try discriminate.
    assert (Hp : In p (m s)) by (rewrite Em; left; reflexivity). apply in_m in Hp. exists p.
    split; [tauto|]. split; [|split; [tauto|]].
    + rewrite (nth_indep _ 0%nat (nth (hd 0%nat (m 0%nat)) idx 0%nat)) by (rewrite map_length, seq_length; exact Hs).
      rewrite (map_nth (fun s => nth (hd 0%nat (m s)) idx 0%nat)), seq_nth by exact Hs. cbn [Nat.add]. rewrite Em. reflexivity.
    + intros p' Hp' Hd. assert (In p' (m s)) by (apply in_m; split; assumption). rewrite Em in H. destruct H as [->|[]]. reflexivity.
  - assert (NE : ~ forall s, (s < n_ops)%nat -> length (m s) = 1%nat) by (intros H; apply E; apply prs_eq; exact H).
    match goal with |- context [check_ops ?i ?c ?f (seq 0 n_ops)] => set (chk := check_ops i c f) end.
    assert (G : forall l, (forall s, In s l -> (s < n_ops)%nat) -> (exists s, In s l /\ length (m s) <> 1%nat) ->
      match chk l with
      | Ok _ => False
      | Err (NoEquivalent i' s) => i' = i /\ (s < n_ops)%nat /\ forall p, (p < length idx)%nat -> ~ dist s p < tol
      | Err (MultipleEquivalent i' s) => i' = i /\ (s < n_ops)%nat /\ exists p p', (p < length idx)%nat /\ (p' < length idx)%nat /\
          p <> p' /\ dist s p < tol /\ dist s p' < tol
      | Err _ => False
      end).
    { induction l as [|s l IH]; intros Hl [s0 [Hs0 Hne]]; [contradiction|]. unfold chk. cbn [check_ops]. fold chk. fold (m s).
      destruct (length (m s)) as [|[|k]] eqn:Lm.
      - split; [reflexivity|]. split; [apply Hl; left; reflexivity|]. intros p Hp Hd.
        assert (In p (m s)) by (apply in_m; split; assumption). destruct (m s); [contradiction|discriminate].
      - apply IH; [intros s' Hs'; apply Hl; right; exact Hs'|]. exists s0. split; [|exact Hne].
        destruct Hs0 as [->|]; [congruence|assumption].
      - split; [reflexivity|]. split; [apply Hl; left; reflexivity|].
        pose proof (nodup_m s) as Hnd. destruct (m s) as [|p [|p' r]] eqn:Em; try discriminate.
        assert (H1 : In p (m s)) by (rewrite Em; left; reflexivity).
        assert (H2 : In p' (m s)) by (rewrite Em; right; left; reflexivity).
        apply in_m in H1, H2. exists p, p'. inversion Hnd as [|? ? Hni _]; subst.
        repeat split; try tauto. intros ->. apply Hni. left. reflexivity. }
    specialize (G (seq 0 n_ops)). 
    assert (Hex : exists s, In s (seq 0 n_ops) /\ length (m s) <> 1%nat).
    { destruct (forallb (fun s => Nat.eqb (length (m s)) 1) (seq 0 n_ops)) eqn:F.
      - exfalso. apply NE. intros s Hs. rewrite forallb_forall in F. apply Nat.eqb_eq, F, in_seq. lia.
      - clear -F. induction (seq 0 n_ops) as [|s l IH]; [discriminate|]. cbn in F.
        destruct (Nat.eqb_spec (length (m s)) 1) as [e|e].
        + destruct (IH F) as [s' [H1 H2]]. exists s'. split; [right; exact H1|exact H2].
        + exists s. split; [left; reflexivity|exact e]. }
    specialize (G ltac:(intros s Hs; apply in_seq in Hs; lia) Hex).
    destruct (chk (seq 0 n_ops)); [contradiction|exact G].
Qed.
End Equiv.

Definition pair_dec (a b : nat * nat) : {a = b} + {a <> b}.
Proof. repeat decide equality. Defined.
Lemma fill_columns_spec f : forall todo m0,
  match fill_columns f todo m0 with
  | Ok E => forall i, (forall sp, ~ In (sp, i) todo) -> E i = m0 i
  | Err e => exists sp i, In (sp, i) todo /\ f sp i = Err e
  end /\
  (forall E, fill_columns f todo m0 = Ok E -> (forall sp sp' i, In (sp, i) todo -> In (sp', i) todo -> sp = sp') ->
     forall sp i, In (sp, i) todo -> exists col, f sp i = Ok col /\ E i = Some col).
Proof.
  induction todo as [|[sp i] todo IH]; intros m0; cbn [fill_columns].
  - split; [reflexivity|]. intros E _ _ sp i [].
  - destruct (f sp i) as [col|e] eqn:Ef.
    2:{ split; [exists sp, i; split; [left; reflexivity|exact Ef]|discriminate]. }
    destruct (IH (fset m0 i (Some col))) as [I1 I2]. split.
    + destruct (fill_columns f todo (fset m0 i (Some col))) as [E|e].
      * intros j Hj. rewrite I1 by (intros sp' K; apply (Hj sp'); right; exact K).
        unfold fset. destruct (Nat.eqb_spec j i) as [->|]; [|reflexivity]. exfalso. apply (Hj sp). left. reflexivity.
      * destruct I1 as [sp' [i' [H1 H2]]]. exists sp', i'. split; [right; exact H1|exact H2].
    + intros E HE Huniq sp' i' [H|H].
      * injection H as -> ->. destruct (In_dec pair_dec (sp', i') todo) as [Hin|Hni].
        -- apply (I2 E HE); [|exact Hin]. intros; eapply Huniq; right; eassumption.
        -- exists col. split; [exact Ef|]. rewrite HE in I1. rewrite I1.
           ++ unfold fset. rewrite Nat.eqb_refl. reflexivity.
           ++ intros sp0 K. apply Hni. rewrite <- (Huniq sp0 sp' i'); [exact K|right; exact K|left; reflexivity].
      * apply (I2 E HE); [|exact H]. intros; eapply Huniq; right; eassumption.
Qed.

Definition op_at (ops : list (M3 * V3)) (s : nat) : M3 * V3 := nth s ops (((0,0,0),(0,0,0),(0,0,0)), vzero).

Lemma same_species types idx sp i j :
  nth_error (map snd (get_species_idx types)) sp = Some idx -> In i idx ->
  (In j idx <-> nth_error types j <> None /\ nth_error types j = nth_error types i).
Proof.
  intros Hn Hi. destruct (species_partition types) as [_ [_ [_ [H _]]]].
  rewrite nth_error_map in Hn. destruct (nth_error (get_species_idx types) sp) as [[s idx']|] eqn:E; [|discriminate].
  cbn in Hn. injection Hn as ->. apply nth_error_In in E. destruct (H s idx E) as [_ K].
  apply K in Hi. rewrite K, Hi. split; [intros ->; split; [discriminate|reflexivity]|intros [_ ->]; reflexivity].
Qed.

(** Everything get_symmetry_equivalent_atoms promises, with the distance the
    code computes. *)
Theorem symm_equiv_spec cell atom_r types ops tol :
  match symmetry_equivalent_atoms cell atom_r types (Some ops) tol with
  | Ok E => forall i, (i < length types)%nat -> exists col, E i = Some col /\ length col = length ops /\
      forall s, (s < length ops)%nat -> let j := nth s col 0%nat in
        (j < length types)%nat /\ nth_error types j = nth_error types i /\
        symm_dist cell atom_r (op_at ops s) i j < tol /\
        forall j', (j' < length types)%nat -> nth_error types j' = nth_error types i ->
          symm_dist cell atom_r (op_at ops s) i j' < tol -> j' = j
  | Err (NoEquivalent i s) => (i < length types)%nat /\ (s < length ops)%nat /\
      forall j, (j < length types)%nat -> nth_error types j = nth_error types i ->
        ~ symm_dist cell atom_r (op_at ops s) i j < tol
  | Err (MultipleEquivalent i s) => (i < length types)%nat /\ (s < length ops)%nat /\
      exists j j', j <> j' /\ nth_error types j = nth_error types i /\ nth_error types j' = nth_error types i /\
        symm_dist cell atom_r (op_at ops s) i j < tol /\ symm_dist cell atom_r (op_at ops s) i j' < tol
  | Err _ => False
  end.
Proof.
  unfold symmetry_equivalent_atoms.
  set (species := map snd (get_species_idx types)).
  set (todo := flat_map _ _). set (f := fun sp i : nat => _).
  assert (Htodo : forall sp i, In (sp, i) todo <-> exists idx, nth_error species sp = Some idx /\ In i idx).
  { intros sp i. unfold todo. rewrite in_flat_map. split.
    - intros [sp' [H1 H2]]. apply in_seq in H1. apply in_map_iff in H2. destruct H2 as [i' [E H2]].
      injection E as -> ->. exists (nth sp species []). split; [apply nth_error_nth'; lia|exact H2].
    - intros [idx [H1 H2]]. exists sp. assert (sp < length species)%nat by (apply nth_error_Some; congruence).
      split; [apply in_seq; lia|]. apply in_map_iff. exists i. split; [reflexivity|].
      rewrite (nth_error_nth _ _ [] H1). exact H2. }
  assert (Hlt : forall sp idx i, nth_error species sp = Some idx -> In i idx -> (i < length types)%nat).
  { intros sp idx i H1 H2. apply nth_error_Some. apply (same_species types idx sp i i H1 H2). exact H2. }
  assert (Hnd : forall sp idx, nth_error species sp = Some idx -> NoDup idx).
  { intros sp idx H1. unfold species in H1. rewrite nth_error_map in H1.
    destruct (nth_error (get_species_idx types) sp) as [[s idx']|] eqn:E; [|discriminate]. cbn in H1. injection H1 as ->.
    apply nth_error_In in E. destruct (species_partition types) as [_ [_ [_ [H _]]]]. apply sorted_NoDup. apply (H s idx E). }
  pose proof (fill_columns_spec f todo (fun _ => None)) as [F1 F2].
  assert (Hspec : forall sp i idx, nth_error species sp = Some idx -> In i idx ->
     f sp i = equiv_of_atom (length ops) idx i (fun s p => symm_dist cell atom_r (op_at ops s) i (nth p idx 0%nat)) tol).
  { intros sp i idx H1 H2. unfold f. rewrite (nth_error_nth _ _ [] H1). reflexivity. }
  destruct (fill_columns f todo (fun _ => None)) as [E|e].
  - intros i Hi.
    destruct (species_partition types) as [_ [_ [_ [_ HP]]]].
    assert (Hin : In i (concat (map snd (get_species_idx types)))).
    { apply (Permutation_in i (Permutation_sym HP)). apply in_seq. lia. }
    apply in_concat in Hin. destruct Hin as [idx [H1 H2]]. apply In_nth_error in H1. destruct H1 as [sp H1].
    assert (Huniq : forall sp sp' i, In (sp, i) todo -> In (sp', i) todo -> sp = sp').
    { intros sp1 sp2 i0 K1 K2. apply Htodo in K1, K2. destruct K1 as [x1 [K1 L1]]. destruct K2 as [x2 [K2 L2]].
      destruct (species_partition types) as [HN [_ [_ [HS _]]]].
      unfold species in K1, K2. rewrite nth_error_map in K1, K2.
      destruct (nth_error (get_species_idx types) sp1) as [[s1 y1]|] eqn:E1; [|discriminate].
      destruct (nth_error (get_species_idx types) sp2) as [[s2 y2]|] eqn:E2; [|discriminate].
      cbn in K1, K2. injection K1 as ->. injection K2 as ->.
      pose proof (nth_error_In _ _ E1) as I1. pose proof (nth_error_In _ _ E2) as I2.
      apply (HS s1 x1 I1) in L1. apply (HS s2 x2 I2) in L2. assert (s1 = s2) by congruence. subst s2.
      apply (proj1 (NoDup_nth_error (map fst (get_species_idx types))) HN).
      - apply nth_error_Some. rewrite nth_error_map, E1. discriminate.
      - rewrite !nth_error_map, E1, E2. reflexivity. }
    destruct (F2 E eq_refl Huniq sp i ltac:(apply Htodo; exists idx; split; assumption)) as [col [Ec EE]].
    exists col. split; [exact EE|]. rewrite (Hspec sp i idx H1 H2) in Ec.
    pose proof (equiv_of_atom_spec (length ops) idx i (fun s p => symm_dist cell atom_r (op_at ops s) i (nth p idx 0%nat)) tol) as S.
    rewrite Ec in S. destruct S as [S1 S2]. split; [exact S1|]. intros s Hs. cbv zeta. set (j := nth s col 0%nat).
    destruct (S2 s Hs) as [p [P1 [P2 [P3 P4]]]]. unfold j. rewrite P2.
    assert (Hj : In (nth p idx 0%nat) idx) by (apply nth_In; exact P1).
    split; [exact (Hlt sp idx _ H1 Hj)|]. split; [apply (same_species types idx sp i _ H1 H2); exact Hj|].
    split; [exact P3|]. intros j' Hj' Ht Hd.
    assert (Hj2 : In j' idx). { apply (same_species types idx sp i j' H1 H2). split; [apply nth_error_Some; exact Hj'|exact Ht]. }
    apply (In_nth _ _ 0%nat) in Hj2. destruct Hj2 as [p' [Q1 Q2]]. subst j'. f_equal. apply P4; assumption.
  - destruct F1 as [sp [i [H1 H2]]]. apply Htodo in H1. destruct H1 as [idx [H1 H3]].
    rewrite (Hspec sp i idx H1 H3) in H2.
    pose proof (equiv_of_atom_spec (length ops) idx i (fun s p => symm_dist cell atom_r (op_at ops s) i (nth p idx 0%nat)) tol) as S.
    rewrite H2 in S. destruct e as [|i' s|i' s|]; [contradiction| | |contradiction].
    + destruct S as [-> [S1 S2]]. split; [exact (Hlt sp idx i H1 H3)|]. split; [exact S1|].
      intros j Hj Ht Hd. assert (Hj2 : In j idx).
      { apply (same_species types idx sp i j H1 H3). split; [apply nth_error_Some; exact Hj|exact Ht]. }
      apply (In_nth _ _ 0%nat) in Hj2. destruct Hj2 as [p [Q1 Q2]]. subst j. exact (S2 p Q1 Hd).
    + destruct S as [-> [S1 [p [p' [Q1 [Q2 [Q3 [Q4 Q5]]]]]]]]. split; [exact (Hlt sp idx i H1 H3)|]. split; [exact S1|].
      exists (nth p idx 0%nat), (nth p' idx 0%nat). split.
      { intros E. apply Q3. apply (proj1 (NoDup_nth idx 0%nat) (Hnd sp idx H1)); assumption. }
      split; [apply (same_species types idx sp i _ H1 H3), nth_In; exact Q1|].
      split; [apply (same_species types idx sp i _ H1 H3), nth_In; exact Q2|]. split; assumption.
Qed.

(** ** computed distance and distance modulo lattice vectors *)
Lemma wrap1_int x : exists k : Z, wrap1 x = x - IZR k.
Proof. eexists. reflexivity. Qed.
Lemma wrap1_shift x (k : Z) : Rabs x < 1/2 -> wrap1 (x + IZR k) = x.
Proof.
  intros H. apply Rabs_def2 in H. unfold wrap1.
  rewrite (Int_part_unique (x + IZR k + 1/2) k) by lra. lra.
Qed.
Lemma vwrap_int v : exists n : Z3, vwrap v = vsub v (zvec n).
Proof.
  destruct v as [[x y] z]. destruct (wrap1_int x) as [a Ea], (wrap1_int y) as [b Eb], (wrap1_int z) as [c Ec].
  exists (a, b, c). unfold vwrap. rewrite Ea, Eb, Ec. reflexivity.
Qed.
Lemma cauchy (u v : V3) : Rabs (dot u v) <= norm u * norm v.
Proof.
  unfold norm. rewrite <- sqrt_mult by apply dot_self_nonneg. rewrite <- sqrt_Rsqr_abs. apply sqrt_le_1_alt.
  destruct u as [[a b] c], v as [[x y] z]. unfold Rsqr. simpl.
  pose proof (Rle_0_sqr (a * y - b * x)) as H1. pose proof (Rle_0_sqr (a * z - c * x)) as H2.
  pose proof (Rle_0_sqr (b * z - c * y)) as H3. unfold Rsqr in *.
  match goal with |- ?l <= ?r => assert (r - l = (a * y - b * x) * (a * y - b * x) + (a * z - c * x) * (a * z - c * x)
    + (b * z - c * y) * (b * z - c * y)) by ring; lra end.
Qed.
Lemma frac_comp cell w k : det3 cell <> 0 -> (k < 3)%nat ->
  comp w k * (2 * PI) = dot (vmul w cell) (row (reciprocal_cell cell) k).
Proof.
  intros Hd Hk.
  pose proof (reciprocal_dual cell Hd 0 k ltac:(lia) Hk) as H0.
  pose proof (reciprocal_dual cell Hd 1 k ltac:(lia) Hk) as H1.
  pose proof (reciprocal_dual cell Hd 2 k ltac:(lia) Hk) as H2.
  destruct cell as [[r0 r1] r2]. destruct w as [[x y] z]. cbn [row vmul] in *.
  generalize dependent (row (reciprocal_cell (r0, r1, r2)) k). intros b H0 H1 H2.
  assert (E : dot (vadd (vadd (vscal x r0) (vscal y r1)) (vscal z r2)) b = x * dot r0 b + y * dot r1 b + z * dot r2 b).
  { destruct r0 as [[? ?] ?], r1 as [[? ?] ?], r2 as [[? ?] ?], b as [[? ?] ?]. simpl. ring. }
  rewrite E, H0, H1, H2. destruct k as [|[|[|k]]]; [| | |lia]; cbn; ring.
Qed.
Lemma norm_recip_pos cell k : det3 cell <> 0 -> (k < 3)%nat -> 0 < norm (row (reciprocal_cell cell) k).
Proof.
  intros Hd Hk. destruct (Rle_lt_or_eq_dec _ _ (norm_nonneg (row (reciprocal_cell cell) k))) as [H|H]; [exact H|].
  exfalso. pose proof (reciprocal_dual cell Hd k k Hk Hk) as E. rewrite Nat.eqb_refl in E.
  pose proof (cauchy (row cell k) (row (reciprocal_cell cell) k)) as C. rewrite <- H, E in C.
  pose proof PI_RGT_0. rewrite Rabs_right in C by lra. lra.
Qed.

Lemma symm_dist_sound cell atom_r op i j tol : symm_dist cell atom_r op i j < tol ->
  near_mod_lattice cell tol (apply_op op (nth i atom_r vzero)) (nth j atom_r vzero).
Proof.
  unfold symm_dist. intros H. set (u := apply_op op _) in *. set (v := nth j _ _) in *.
  destruct (vwrap_int u) as [n1 E1]. rewrite E1 in H. destruct (vwrap_int (vsub (vsub u (zvec n1)) v)) as [n2 E2].
  rewrite E2 in H. exists (zadd3 n1 n2).
  replace (vsub (vsub u v) (zvec (zadd3 n1 n2))) with (vsub (vsub (vsub u (zvec n1)) v) (zvec n2)); [exact H|].
  destruct u as [[? ?] ?], v as [[? ?] ?], n1 as [[? ?] ?], n2 as [[? ?] ?]. simpl.
  rewrite !plus_IZR. apply V3_eq; ring.
Qed.
Lemma symm_dist_complete cell atom_r op i j tol : det3 cell <> 0 -> small_tolerance cell tol ->
  near_mod_lattice cell tol (apply_op op (nth i atom_r vzero)) (nth j atom_r vzero) ->
  symm_dist cell atom_r op i j < tol.
Proof.
  intros Hd Ht [n H]. unfold symm_dist. set (u := apply_op op _) in *. set (v := nth j _ _) in *.
  destruct (vwrap_int u) as [n1 E1]. rewrite E1.
  set (w := vsub (vsub u v) (zvec n)) in *.
  assert (Hw : forall k, (k < 3)%nat -> Rabs (comp w k) < 1/2).
  { intros k Hk. pose proof (frac_comp cell w k Hd Hk) as F. pose proof (cauchy (vmul w cell) (row (reciprocal_cell cell) k)) as C.
    rewrite <- F in C. pose proof PI_RGT_0. rewrite Rabs_mult, (Rabs_right (2 * PI)) in C by lra.
    specialize (Ht k Hk). pose proof (norm_recip_pos cell k Hd Hk).
    assert (norm (vmul w cell) * norm (row (reciprocal_cell cell) k) < tol * norm (row (reciprocal_cell cell) k))
      by (apply Rmult_lt_compat_r; assumption).
    apply (Rmult_lt_reg_r (2 * PI)); lra. }
  assert (E : vwrap (vsub (vsub u (zvec n1)) v) = w).
  { pose proof (Hw 0%nat ltac:(lia)) as W0. pose proof (Hw 1%nat ltac:(lia)) as W1. pose proof (Hw 2%nat ltac:(lia)) as W2.
    unfold w in *. destruct u as [[u1 u2] u3], v as [[v1 v2] v3], n as [[a b] c], n1 as [[a1 b1] c1].
    cbn [vsub zvec comp vwrap] in *.
    apply V3_eq.
    - etransitivity; [|apply (wrap1_shift _ (a - a1) W0)]. f_equal. rewrite minus_IZR. ring.
    - etransitivity; [|apply (wrap1_shift _ (b - b1) W1)]. f_equal. rewrite minus_IZR. ring.
    - etransitivity; [|apply (wrap1_shift _ (c - c1) W2)]. f_equal. rewrite minus_IZR. ring. }
  rewrite E. exact H.
Qed.

Theorem symm_equiv_sound cell atom_r types ops tol E :
  symmetry_equivalent_atoms cell atom_r types (Some ops) tol = Ok E ->
  forall i, (i < length types)%nat -> exists col, E i = Some col /\ length col = length ops /\
    forall s, (s < length ops)%nat -> let j := nth s col 0%nat in
      (j < length types)%nat /\ nth_error types j = nth_error types i /\
      near_mod_lattice cell tol (apply_op (op_at ops s) (nth i atom_r vzero)) (nth j atom_r vzero).
Proof.
  intros HE i Hi. pose proof (symm_equiv_spec cell atom_r types ops tol) as S. rewrite HE in S.
  destruct (S i Hi) as [col [H1 [H2 H3]]]. exists col. split; [exact H1|]. split; [exact H2|].
  intros s Hs. destruct (H3 s Hs) as [K1 [K2 [K3 _]]]. split; [exact K1|]. split; [exact K2|].
  apply symm_dist_sound. exact K3.
Qed.

(** With a small tolerance: a result if and only if every transformed atom has
    exactly one near atom of its species. *)
Definition near_atoms cell (atom_r : list V3) (types : list string) tol (op : M3 * V3) (i j : nat) : Prop :=
  (j < length types)%nat /\ nth_error types j = nth_error types i /\
  near_mod_lattice cell tol (apply_op op (nth i atom_r vzero)) (nth j atom_r vzero).

Theorem symm_equiv_exact cell atom_r types ops tol : det3 cell <> 0 -> small_tolerance cell tol ->
  (exists E, symmetry_equivalent_atoms cell atom_r types (Some ops) tol = Ok E) <->
  (forall i s, (i < length types)%nat -> (s < length ops)%nat ->
     exists! j, near_atoms cell atom_r types tol (op_at ops s) i j).
Proof.
  intros Hd Ht. pose proof (symm_equiv_spec cell atom_r types ops tol) as S. split.
  - intros [E HE] i s Hi Hs. rewrite HE in S. destruct (S i Hi) as [col [_ [_ H3]]].
    destruct (H3 s Hs) as [K1 [K2 [K3 K4]]]. exists (nth s col 0%nat). split.
    + split; [exact K1|]. split; [exact K2|]. apply symm_dist_sound. exact K3.
    + intros j' [L1 [L2 L3]]. symmetry. apply K4; [exact L1|exact L2|]. apply symm_dist_complete; assumption.
  - intros H. destruct (symmetry_equivalent_atoms cell atom_r types (Some ops) tol) as [E|e]; [exists E; reflexivity|].
    exfalso. destruct e as [|i s|i s|]; [contradiction| | |contradiction].
    + destruct S as [Hi [Hs K]]. destruct (H i s Hi Hs) as [j [[L1 [L2 L3]] _]].
      apply (K j L1 L2). apply symm_dist_complete; assumption.
    + destruct S as [Hi [Hs [j [j' [Hne [T1 [T2 [D1 D2]]]]]]]]. destruct (H i s Hi Hs) as [j0 [_ U]].
      apply symm_dist_sound in D1, D2.
      assert (L : forall k, nth_error types k = nth_error types i -> (k < length types)%nat).
      { intros k Hk. apply nth_error_Some. rewrite Hk. apply nth_error_Some. exact Hi. }
      apply Hne. transitivity j0; [symmetry|]; apply U; (split; [apply L; assumption|split; assumption]).
Qed.
