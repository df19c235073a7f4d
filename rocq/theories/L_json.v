(** Lemmas on JSON files (C18). *)
From Coq Require Import String.
From Verif Require Import Base Cpx M_json S_json.
Open Scope list_scope.

Section J.
Context {U : Type}.
Notation pyv := (pyv U).
Notation dict := (list (string * pyv)).

(** ** tolist and np.array *)
Definition gather := fix go (l : list (option (list nat * list sc))) : option (option (list nat) * list sc) :=
  match l with
  | [] => Some (None, [])
  | v :: r => match v, go r with
    | Some (d, x), Some (None, y) => Some (Some d, x ++ y)
    | Some (d, x), Some (Some d', y) => if dims_eqb d d' then Some (Some d, x ++ y) else None
    | _, _ => None end
  end.
Lemma np_array_list (l : list pyv) : np_array (PList l) = match gather (map np_array l) with Some (None, _) => Some ([0%nat], []) | Some (Some d, x) => Some (length l :: d, x) | None => None end.
Proof.
  cbn [np_array]. match goal with |- match ?f l with _ => _ end = _ => set (g := f) end.
  assert (E : forall l, g l = gather (map np_array l)).
  { induction l0 as [|v r IH]; [reflexivity|]. cbn [map gather]. rewrite <- IH. reflexivity. }
  rewrite E. reflexivity.
Qed.
Fixpoint cut (dims : list nat) : list nat := match dims with [] => [] | 0 :: _ => [0%nat] | n :: d => n :: cut d end.
Lemma dims_eqb_refl d : dims_eqb d d = true.
Proof. induction d; cbn; [reflexivity|]. rewrite Nat.eqb_refl. exact IHd. Qed.
Lemma size_prod d : prod_dims d = size d.
Proof. induction d as [|n d IH]; [reflexivity|]. cbn. unfold prod_dims in IH. rewrite IH. reflexivity. Qed.
Lemma chunks (x : list sc) p n : forall s, flat_map (fun i => firstn p (skipn (i * p) x)) (seq s n) = firstn (n * p) (skipn (s * p) x).
Proof.
  induction n as [|n IH]; intros s; [reflexivity|]. cbn [seq flat_map]. rewrite IH. replace (S s * p)%nat with (s * p + p)%nat by lia. rewrite <- skipn_skipn'.
  replace (S n * p)%nat with (p + n * p)%nat by lia. set (y := skipn (s * p) x). clearbody y. clear.
  transitivity (firstn (p + n * p) (firstn p y ++ skipn p y)); [|rewrite firstn_skipn; reflexivity]. rewrite firstn_app. rewrite firstn_firstn. rewrite (Nat.min_r (p + n * p) p) by lia.
  destruct (le_lt_dec p (length y)) as [H|H].
  - rewrite firstn_length_le by exact H. replace (p + n * p - p)%nat with (n * p)%nat by lia. reflexivity.
  - rewrite (skipn_all2 y) by lia. rewrite !firstn_nil. reflexivity.
Qed.
Lemma np_tolist dims : forall data, length data = size dims -> @np_array U (tolist dims data) = Some (cut dims, data).
Proof.
  induction dims as [|n d IH]; intros data L.
  - cbn in L. destruct data as [|x [|? ?]]; try discriminate L. reflexivity.
  - cbn [tolist]. rewrite np_array_list, map_map, map_length, seq_length. rewrite size_prod. cbn [size] in L.
    assert (E : map (fun i => @np_array U (tolist d (firstn (size d) (skipn (i * size d) data)))) (seq 0 n) = map (fun i => Some (cut d, firstn (size d) (skipn (i * size d) data))) (seq 0 n)).
    { apply map_ext_in. intros i I. apply in_seq in I. apply IH. rewrite firstn_length, skipn_length, L. nia. }
    rewrite E. assert (G : forall l : list nat, gather (map (fun i => Some (cut d, firstn (size d) (skipn (i * size d) data))) l) = Some (match l with [] => None | _ => Some (cut d) end, flat_map (fun i => firstn (size d) (skipn (i * size d) data)) l)).
    { induction l as [|i l IHl]; [reflexivity|]. cbn [map gather flat_map]. rewrite IHl. destruct l; [reflexivity|]. rewrite dims_eqb_refl. reflexivity. }
    rewrite G, chunks. cbn [Nat.mul skipn]. rewrite firstn_all2 by lia. destruct n as [|n]; cbn [seq cut]; [|reflexivity]. destruct data; [reflexivity|discriminate L].
Qed.
Lemma cut_id dims : no_inner_zero dims -> cut dims = dims.
Proof. induction dims as [|n [|m d] IH]; [reflexivity|intros _; cbn; destruct n; reflexivity|]. intros [H1 H2]. cbn [cut] in *. destruct n; [lia|]. f_equal. exact (IH H2). Qed.

(** ** Writing and reading back one value *)
Definition entry (types : string -> option hint) (p q : string * pyv) : Prop :=
  fst q = fst p /\ exists v' j, to_json_dict (fst p) (snd p) = Ok v' /\ dump v' = Ok j /\ from_json_dict types (fst p) (loads j) = Ok (snd q).

Definition dump_list := fix go (l : list pyv) : res (list json) jerr :=
  match l with [] => Ok [] | x :: r => match dump x with Err e => Err e | Ok j => match go r with Err e => Err e | Ok js => Ok (j :: js) end end end.
Lemma dump_PList l : dump (PList l : pyv) = match dump_list l with Ok js => Ok (JList js) | Err e => Err e end.
Proof. reflexivity. Qed.
Lemma dump_PTup l : dump (PTup l : pyv) = match dump_list l with Ok js => Ok (JList js) | Err e => Err e end.
Proof. reflexivity. Qed.
Lemma dump_list_ok (l : list pyv) (m : list pyv) : Forall2 (fun v w => exists j, dump v = Ok j /\ loads j = w) l m -> exists js, dump_list l = Ok js /\ map loads js = m.
Proof.
  induction 1 as [|v w l m (j & E1 & E2) F (js & E3 & E4)]; [exists []; split; reflexivity|]. exists (j :: js). cbn [dump_list]. rewrite E1. rewrite E3. split; [reflexivity|]. cbn [map]. rewrite E2, E4. reflexivity.
Qed.
Lemma dump_tolist dims : forall data, length data = size dims -> Forall not_complex data -> exists j, @dump U (tolist dims data) = Ok j /\ loads j = @tolist U dims data.
Proof.
  induction dims as [|n d IH]; intros data L F.
  - cbn in L. destruct data as [|x [|? ?]]; try discriminate L. inversion F; subst. cbn [tolist hd]. destruct x; try contradiction; (eexists; split; [reflexivity|reflexivity]).
  - cbn [tolist]. rewrite size_prod, dump_PList. cbn [size] in L.
    destruct (dump_list_ok (map (fun i => tolist d (firstn (size d) (skipn (i * size d) data))) (seq 0 n)) (map (fun i => tolist d (firstn (size d) (skipn (i * size d) data))) (seq 0 n))) as (js & E1 & E2).
    { assert (A : forall i, In i (seq 0 n) -> exists j, @dump U (tolist d (firstn (size d) (skipn (i * size d) data))) = Ok j /\ loads j = @tolist U d (firstn (size d) (skipn (i * size d) data))).
      { intros i I. apply in_seq in I. apply IH; [rewrite firstn_length, skipn_length, L; nia|]. apply Forall_forall. intros y Y. apply (proj1 (Forall_forall _ _) F). rewrite <- (firstn_skipn (i * size d) data). apply in_or_app. right. rewrite <- (firstn_skipn (size d) (skipn (i * size d) data)). apply in_or_app. left. exact Y. }
      induction (seq 0 n) as [|i l IHl]; cbn [map]; constructor; [apply A; left; reflexivity|apply IHl; intros k K; apply A; right; exact K]. }
    rewrite E1. eexists. split; [reflexivity|]. cbn [loads]. rewrite E2. reflexivity.
Qed.
Lemma tolist_list n d data : exists l, @tolist U (n :: d) data = PList l.
Proof. eexists. reflexivity. Qed.
(** An array, whatever its shape: the shape is cut at the first zero extent. *)
Lemma entry_array_cut types k dt c n d data : dt <> DComplex128 -> length data = size (n :: d) -> Forall not_complex data -> types k = None ->
  entry types (k, PArr dt c (n :: d) data) (k, PArr (dtype_of data) true (cut (n :: d)) data).
Proof.
  intros D L F T. split; [reflexivity|]. cbn [fst snd]. destruct (dump_tolist (n :: d) data L F) as (j & E1 & E2). exists (tolist (n :: d) data), j.
  split; [destruct dt; try contradiction (D eq_refl); reflexivity|]. split; [exact E1|]. rewrite E2. pose proof (np_tolist (n :: d) data L) as N. destruct (tolist_list n d data) as (l & El). rewrite El in *. cbn [from_json_dict]. rewrite T. unfold from_json_list. rewrite N. reflexivity.
Qed.
Lemma entry_array types k n d v : plain_array (n :: d) v -> no_inner_zero (n :: d) -> types k = None -> entry types (k, v) (k, again v).
Proof. intros (dt & c & data & -> & D & L & F) Z T. cbn [again]. rewrite <- (cut_id (n :: d) Z) at 2. apply entry_array_cut; assumption. Qed.
Lemma entry_scalar types k x : not_complex x -> entry types (k, PScal x) (k, PScal x).
Proof. intros H. split; [reflexivity|]. exists (PScal x), (JScal x). split; [reflexivity|]. destruct x; try contradiction; (split; reflexivity). Qed.
(** Complex arrays *)
Lemma split_length data : Forall complex data -> length (split_complex data) = (length data * 2)%nat.
Proof. induction 1 as [|x l H F IH]; [reflexivity|]. destruct x; try contradiction. cbn. unfold split_complex in IH. rewrite IH. reflexivity. Qed.
Lemma split_real data : Forall complex data -> Forall not_complex (split_complex data).
Proof. induction 1 as [|x l H F IH]; [constructor|]. destruct x; try contradiction. cbn. constructor; [exact I|constructor; [exact I|exact IH]]. Qed.
Lemma join_split data : Forall complex data -> join_complex (split_complex data) = Some data.
Proof. induction 1 as [|x l H F IH]; [reflexivity|]. destruct x as [| | |z]; try contradiction. cbn. unfold split_complex in IH. rewrite IH. destruct z. reflexivity. Qed.
Lemma size_app a b : size (a ++ b) = (size a * size b)%nat.
Proof. induction a as [|n a IH]; cbn; [lia|]. rewrite IH. lia. Qed.
Lemma all_pos_inner d : Forall (fun n => 0 < n)%nat d -> no_inner_zero (d ++ [2%nat]).
Proof. induction 1 as [|n d H F IH]; [exact I|]. cbn. destruct (d ++ [2%nat]) eqn:E; [destruct d; discriminate|]. split; assumption. Qed.
Lemma entry_complex types k n d data : Forall (fun n => 0 < n)%nat (n :: d) -> length data = size (n :: d) -> Forall complex data -> types k = Some Complex ->
  entry types (k, PArr DComplex128 true (n :: d) data) (k, PArr DComplex128 true (n :: d) data).
Proof.
  intros P L F T. split; [reflexivity|]. cbn [fst snd]. assert (L2 : length (split_complex data) = size ((n :: d) ++ [2%nat])) by (rewrite split_length by exact F; rewrite size_app, L; reflexivity).
  destruct (dump_tolist ((n :: d) ++ [2%nat]) _ L2 (split_real data F)) as (j & E1 & E2). exists (tolist ((n :: d) ++ [2%nat]) (split_complex data)), j. split; [reflexivity|]. split; [exact E1|]. rewrite E2.
  pose proof (np_tolist _ _ L2) as N. rewrite (cut_id _ (all_pos_inner _ P)) in N. destruct (tolist_list n (d ++ [2%nat]) (split_complex data)) as (l & El). change ((n :: d) ++ [2%nat]) with (n :: (d ++ [2%nat])) in *. rewrite El in *.
  cbn [from_json_dict]. rewrite T. unfold from_json_list. rewrite N. change (n :: d ++ [2%nat]) with ((n :: d) ++ [2%nat]). rewrite last_last, removelast_last. cbn [Nat.eqb]. rewrite (join_split data F). reflexivity.
Qed.
(** Tick labels *)
Lemma all_some_map {A B} (f : A -> B) l : all_some (map (fun x => Some (f x)) l) = Some (map f l).
Proof. induction l as [|a l IH]; [reflexivity|]. cbn. rewrite IH. reflexivity. Qed.
Lemma entry_ticks types k l : types k = Some Tuples -> entry types (k, tick_labels l) (k, tick_labels l).
Proof.
  intros T. split; [reflexivity|]. cbn [fst snd]. unfold tick_labels. set (f := fun p : Z * string => @PTup U [PScal (It (fst p)); PScal (St (snd p))]). set (g := fun p : Z * string => @PList U [PScal (It (fst p)); PScal (St (snd p))]).
  destruct (dump_list_ok (map f l) (map g l)) as (js & E1 & E2). { induction l as [|p l IH]; constructor; [|exact IH]. exists (JList [JScal (It (fst p)); JScal (St (snd p))]). split; reflexivity. }
  exists (PList (map f l)), (JList js). split; [reflexivity|]. split; [rewrite dump_PList, E1; reflexivity|]. cbn [loads]. rewrite E2. cbn [from_json_dict]. rewrite T. unfold from_json_list. rewrite map_map. unfold g. cbn [to_tuple]. rewrite (all_some_map (fun x => PTup [PScal (It (fst x)); PScal (St (snd x))])). reflexivity.
Qed.
(** Metadata *)
Definition dump_dict := fix go (l : dict) : res (list (string * json)) jerr :=
  match l with [] => Ok [] | (k, x) :: r => match dump x with Err e => Err e | Ok j => match go r with Err e => Err e | Ok js => Ok ((k, j) :: js) end end end.
Definition loads_dict := fix go (l : list (string * json)) : dict := match l with [] => [] | (k, x) :: r => (k, loads x) :: go r end.
Lemma dump_PDict l : dump (PDict l : pyv) = match dump_dict l with Ok js => Ok (JDict js) | Err e => Err e end.
Proof. reflexivity. Qed.
Lemma loads_JDict l : @loads U (JDict l) = PDict (loads_dict l).
Proof. reflexivity. Qed.
Fixpoint plain_dump (v : pyv) (H : plain v) {struct H} : exists j, dump v = Ok j /\ loads j = v.
Proof.
  destruct H as [x N| |l F|l F].
  - exists (JScal x). destruct x; try contradiction; split; reflexivity.
  - exists JNull. split; reflexivity.
  - assert (G : exists js, dump_list l = Ok js /\ map loads js = l).
    { induction F as [|v l P F (js & E1 & E2)]; [exists []; split; reflexivity|]. destruct (plain_dump v P) as (j & E3 & E4). exists (j :: js). cbn [dump_list]. rewrite E3. rewrite E1. split; [reflexivity|]. cbn [map]. rewrite E2, E4. reflexivity. }
    destruct G as (js & E1 & E2). exists (JList js). rewrite dump_PList, E1. split; [reflexivity|]. cbn [loads]. rewrite E2. reflexivity.
  - assert (G : exists js, dump_dict l = Ok js /\ loads_dict js = l).
    { induction F as [|[k v] l P F (js & E1 & E2)]; [exists []; split; reflexivity|]. cbn [snd] in P. destruct (plain_dump v P) as (j & E3 & E4). exists ((k, j) :: js). cbn [dump_dict]. rewrite E3. rewrite E1. split; [reflexivity|]. cbn [loads_dict]. rewrite E2, E4. reflexivity. }
    destruct G as (js & E1 & E2). exists (JDict js). rewrite dump_PDict, E1. split; [reflexivity|]. rewrite loads_JDict, E2. reflexivity.
Qed.
Lemma entry_metadata types l : plain (PDict l) -> entry types ("metadata"%string, PDict l) ("metadata"%string, PDict l).
Proof.
  intros P. split; [reflexivity|]. destruct (plain_dump _ P) as (j & E1 & E2). exists (PDict l), j. split; [reflexivity|]. split; [exact E1|]. cbn [fst snd]. rewrite E2. reflexivity.
Qed.
(** Dictionaries, entry by entry *)
Definition to_json_entries := fix go (l : dict) : res dict jerr :=
  match l with [] => Ok [] | (k, x) :: r => match to_json_dict k x with Err e => Err e | Ok x' => match go r with Err e => Err e | Ok r' => Ok ((k, x') :: r') end end end.
Definition from_json_entries types := fix go (l : dict) : res dict jerr :=
  match l with [] => Ok [] | (k, x) :: r => match from_json_dict types k x with Err e => Err e | Ok x' => match go r with Err e => Err e | Ok r' => Ok ((k, x') :: r') end end end.
Lemma to_json_PDict k l : to_json_dict k (PDict l : pyv) = if String.eqb k "metadata" then Ok (PDict l) else match to_json_entries l with Ok l' => Ok (PDict l') | Err e => Err e end.
Proof. reflexivity. Qed.
Lemma from_json_PDict types k l : from_json_dict types k (PDict l : pyv) = if String.eqb k "metadata" then Ok (PDict l) else match from_json_entries types l with Ok l' => Ok (PDict l') | Err e => Err e end.
Proof. reflexivity. Qed.
Lemma entries_back types l m : Forall2 (entry types) l m -> exists l' js, to_json_entries l = Ok l' /\ dump_dict l' = Ok js /\ from_json_entries types (loads_dict js) = Ok m.
Proof.
  induction 1 as [|[k v] [k' w] l m (Ek & v' & j & E1 & E2 & E3) F (l' & js & E4 & E5 & E6)]; [exists [], []; split; [reflexivity|split; reflexivity]|].
  cbn [fst snd] in *. subst k'. exists ((k, v') :: l'), ((k, j) :: js). cbn [to_json_entries dump_dict loads_dict from_json_entries]. rewrite E1. rewrite E4. split; [reflexivity|]. rewrite E2. rewrite E5. split; [reflexivity|]. rewrite E3. rewrite E6. reflexivity.
Qed.
Lemma entry_dict types k l m : k <> "metadata"%string -> Forall2 (entry types) l m -> entry types (k, PDict l) (k, PDict m).
Proof.
  intros N F. destruct (entries_back types l m F) as (l' & js & E1 & E2 & E3). split; [reflexivity|]. cbn [fst snd]. apply String.eqb_neq in N. exists (PDict l'), (JDict js).
  split; [rewrite to_json_PDict, N, E1; reflexivity|]. split; [rewrite dump_PDict, E2; reflexivity|]. rewrite loads_JDict, from_json_PDict, N, E3. reflexivity.
Qed.
Lemma dump_dict_app a b js : dump_dict (a ++ b) = Ok js <-> exists ja jb, dump_dict a = Ok ja /\ dump_dict b = Ok jb /\ js = ja ++ jb.
Proof.
  revert js. induction a as [|[k v] a IH]; intros js.
  - cbn. split; [intros H; exists [], js; split; [reflexivity|split; [exact H|reflexivity]]|intros (ja & jb & H1 & H2 & ->)]. assert (ja = []) by congruence. subst. exact H2.
  - cbn [app dump_dict]. destruct (dump v) as [j|e]; [|split; [discriminate|intros (ja & jb & H & _); discriminate]].
    destruct (dump_dict (a ++ b)) as [js0|e] eqn:E.
    + destruct (proj1 (IH js0) eq_refl) as (ja & jb & E1 & E2 & E3). rewrite E1. split.
      * intros H. exists ((k, j) :: ja), jb. split; [reflexivity|]. split; [exact E2|]. assert (js = (k, j) :: js0) by congruence. subst. reflexivity.
      * intros (ja' & jb' & H1 & H2 & ->). assert (ja' = (k, j) :: ja) by congruence. assert (jb' = jb) by congruence. subst. reflexivity.
    + split; [discriminate|]. intros (ja & jb & H1 & H2 & H3). destruct (dump_dict a) as [ja'|] eqn:Ea; [|discriminate].
      assert (X : @Err (list (string * json)) jerr e = Ok (ja' ++ jb)) by (apply IH; exists ja', jb; split; [reflexivity|split; [exact H2|reflexivity]]). discriminate X.
Qed.
Lemma loads_dict_app a b : loads_dict (a ++ b) = loads_dict a ++ loads_dict b.
Proof. induction a as [|[k v] a IH]; [reflexivity|]. cbn. f_equal. exact IH. Qed.
Lemma from_entries_app types a b a' b' : from_json_entries types a = Ok a' -> from_json_entries types b = Ok b' -> from_json_entries types (a ++ b) = Ok (a' ++ b').
Proof.
  revert a'. induction a as [|[k v] a IH]; intros a' H1 H2; cbn [app from_json_entries] in *; [assert (a' = []) by congruence; subst; exact H2|].
  destruct (from_json_dict types k v) as [w|]; [|discriminate]. destruct (from_json_entries types a) as [a0|]; [|discriminate]. rewrite (IH a0 eq_refl H2). assert (a' = (k, w) :: a0) by congruence. subst. reflexivity.
Qed.
(** A whole file *)
Lemma file_back (print : U -> string) types cls version o l m : to_dict print o = PDict l -> Forall2 (entry types) l m ->
  exists j, to_json_file print cls version o = Ok j /\
    from_json_dict types "" (loads j) = Ok (PDict (m ++ [("__euphonic_class__"%string, PScal (St cls)); ("__euphonic_version__"%string, PScal (St version))])).
Proof.
  intros E F. destruct (entries_back types l m F) as (l' & js & E1 & E2 & E3). unfold to_json_file. rewrite E, to_json_PDict. cbn [String.eqb]. rewrite E1. rewrite dump_PDict.
  assert (D : dump_dict (l' ++ [("__euphonic_class__"%string, PScal (St cls)); ("__euphonic_version__"%string, PScal (St version))]) = Ok (js ++ [("__euphonic_class__"%string, JScal (St cls)); ("__euphonic_version__"%string, JScal (St version))])).
  { apply dump_dict_app. eexists. eexists. split; [exact E2|]. split; reflexivity. }
  rewrite D. eexists. split; [reflexivity|]. rewrite loads_JDict, from_json_PDict. cbn [String.eqb]. rewrite loads_dict_app. erewrite from_entries_app; [reflexivity|exact E3|reflexivity].
Qed.
End J.
