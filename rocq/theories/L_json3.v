(** Objects that cannot be written, or cannot be read back (C18). *)
From Coq Require Import String.
From Verif Require Import Base Cpx M_json S_json L_json L_json2.
Open Scope list_scope.

Section Bad.
Context {U : Type}.
Variables (print : U -> string) (parse : string -> option U).
Hypothesis rt : forall u, parse (print u) = Some u.
Notation pyv := (pyv U).
Notation dict := (list (string * pyv)).

Lemma write_stops types (a m : dict) k v e b : Forall2 (entry types) a m -> to_json_dict k v = Err e -> to_json_entries (a ++ (k, v) :: b) = Err e.
Proof.
  intros F E. induction F as [|[k1 v1] [k2 w] a m (_ & v' & j & E1 & _) F IH]; cbn [app to_json_entries]; [rewrite E; reflexivity|]. cbn [fst snd] in E1. rewrite E1, IH. reflexivity.
Qed.
Lemma read_stops types (a m : dict) k (v v' : pyv) j e b mb : Forall2 (entry types) a m -> Forall2 (entry types) b mb -> to_json_dict k v = Ok v' -> dump v' = Ok j -> @from_json_dict U types k (loads j) = Err e ->
  exists l' js, to_json_entries (a ++ (k, v) :: b) = Ok l' /\ dump_dict l' = Ok js /\ @from_json_entries U types (loads_dict js) = Err e.
Proof.
  intros F G E1 E2 E3. induction F as [|[k1 v1] [k2 w] a m (Ek & v1' & j1 & X1 & X2 & X3) F (l' & js & Y1 & Y2 & Y3)].
  - destruct (entries_back types b mb G) as (l' & js & Z1 & Z2 & Z3). exists ((k, v') :: l'), ((k, j) :: js). cbn [app to_json_entries]. rewrite E1, Z1. split; [reflexivity|]. cbn [dump_dict]. rewrite E2, Z2. split; [reflexivity|]. cbn [loads_dict from_json_entries]. rewrite E3. reflexivity.
  - cbn [fst snd] in *. exists ((k1, v1') :: l'), ((k1, j1) :: js). cbn [app to_json_entries]. rewrite X1, Y1. split; [reflexivity|]. cbn [dump_dict]. rewrite X2, Y2. split; [reflexivity|]. cbn [loads_dict from_json_entries]. rewrite X3, Y3. reflexivity.
Qed.

Section Modes.
Variables (cls version : string) (cell : pyv) (cu : U) (n : nat) (r t m : pyv) (mu : U) (nq : nat) (q f : pyv) (fu : U) (ev w : pyv).
Hypothesis (P : crystal_parts n cell r t m) (Hq : (0 < nq)%nat) (Q : plain_array [nq; 3%nat] q) (F : plain_array [nq; (3 * n)%nat] f) (W : plain_array [nq] w).
Definition modes_object : pyv := PObj [("crystal"%string, crystal_obj cell cu n r t m mu); ("n_qpts"%string, PScal (It (Z.of_nat nq))); ("qpts"%string, q); ("frequencies"%string, PQty f fu); ("eigenvectors"%string, ev); ("weights"%string, w)].
Definition before : dict := [("crystal"%string, cr_dict print cell cu n r t m mu); ("n_qpts"%string, PScal (It (Z.of_nat nq))); ("qpts"%string, q); ("frequencies"%string, f); ("frequencies_unit"%string, PScal (St (print fu)))].
Lemma modes_dict dt c d data : ev = PArr dt c d data -> to_dict print modes_object = PDict (before ++ [("eigenvectors"%string, ev); ("weights"%string, w)]).
Proof.
  intros E. pose proof P as (_ & B & D & _). unfold modes_object. rewrite E. rewrite to_dict_obj. cbn [flat_map fst snd]. rewrite fields_crystal by assumption. rewrite (fields_array print _ _ q Q), (fields_array print _ _ w W). reflexivity.
Qed.
Lemma before_ok : exists mm, Forall2 (entry (k_types QpointPhononModes)) before mm.
Proof.
  eexists. unfold before. repeat match goal with |- Forall2 _ (_ :: _) _ => eapply Forall2_cons | |- Forall2 _ [] _ => apply Forall2_nil end.
  - apply cr_entry; [repeat split|exact P].
  - apply entry_scalar. exact I.
  - apply entry_mag; [apply (mag_array _ _ _ Q); exact (inner1 _ _ Hq)|reflexivity].
  - apply entry_mag; [apply (mag_array _ _ _ F); exact (inner1 _ _ Hq)|reflexivity].
  - apply entry_scalar. exact I.
Qed.
Lemma after_ok : exists mm, Forall2 (entry (k_types QpointPhononModes)) [("weights"%string, w)] mm.
Proof. eexists. constructor; [apply entry_mag; [apply (mag_array _ _ _ W); exact I|reflexivity]|constructor]. Qed.
(** Complex eigenvectors in an order whose last axis is not contiguous *)
Lemma fortran_order d data : ev = PArr DComplex128 false d data -> to_json_file print cls version modes_object = Err ViewError.
Proof.
  intros E. destruct before_ok as (mm & B). unfold to_json_file. rewrite (modes_dict _ _ _ _ E), to_json_PDict. cbn [String.eqb]. rewrite (write_stops _ _ _ _ _ ViewError _ B); [reflexivity|]. rewrite E. reflexivity.
Qed.
Lemma unreadable v' j : (exists dt c d data, ev = PArr dt c d data) -> to_json_dict "eigenvectors" ev = Ok v' -> dump v' = Ok j -> @from_json_dict U (k_types QpointPhononModes) "eigenvectors" (loads j) = Err BadArray ->
  exists j, to_json_file print cls version modes_object = Ok j /\ from_json_file parse QpointPhononModes j = Err BadArray.
Proof.
  intros (dt & c & d & data & E) E1 E2 E3. destruct before_ok as (mm & B). destruct after_ok as (ma & A). destruct (read_stops _ _ _ _ _ _ _ _ _ _ B A E1 E2 E3) as (l' & js & X1 & X2 & X3).
  unfold to_json_file. rewrite (modes_dict _ _ _ _ E), to_json_PDict. cbn [String.eqb]. rewrite X1, dump_PDict.
  assert (D : dump_dict (l' ++ [("__euphonic_class__"%string, PScal (St cls)); ("__euphonic_version__"%string, PScal (St version))]) = Ok (js ++ [("__euphonic_class__"%string, JScal (St cls)); ("__euphonic_version__"%string, JScal (St version))])).
  { apply dump_dict_app. eexists. eexists. split; [exact X2|]. split; reflexivity. }
  rewrite D. eexists. split; [reflexivity|]. unfold from_json_file. rewrite loads_JDict, from_json_PDict. cbn [String.eqb]. rewrite loads_dict_app.
  assert (S : forall a b e, from_json_entries (k_types QpointPhononModes) a = @Err dict _ e -> from_json_entries (k_types QpointPhononModes) (a ++ b) = Err e).
  { clear. induction a as [|[k v] a IH]; intros b e H; [discriminate H|]. cbn [app from_json_entries] in *. destruct (from_json_dict _ k v) as [x|]; [|congruence]. destruct (from_json_entries _ a) as [y|e'] eqn:Y; [discriminate|]. rewrite (IH b e'); [congruence|reflexivity]. }
  rewrite (S _ _ _ X3). reflexivity.
Qed.
(** Real eigenvectors, which the constructor accepts *)
Lemma real_modes : (0 < n)%nat -> plain_array [nq; 3 * n; n; 3]%nat ev -> exists j, to_json_file print cls version modes_object = Ok j /\ from_json_file parse QpointPhononModes j = Err BadArray.
Proof.
  intros Hn (dt & c & data & E & D & L & N). destruct (@dump_tolist U _ data L N) as (j & E1 & E2). apply (unreadable (tolist [nq; 3 * n; n; 3]%nat data) j); [exists dt, c, [nq; 3 * n; n; 3]%nat, data; exact E|rewrite E; destruct dt; try contradiction (D eq_refl); reflexivity|exact E1|].
  rewrite E2. pose proof (@np_tolist U _ data L) as A. rewrite cut_id in A by (cbn; lia). destruct (@tolist_list U nq [3 * n; n; 3]%nat data) as (l & El). rewrite El in *. cbn [from_json_dict k_types QpointPhononModes String.eqb Ascii.eqb Bool.eqb]. unfold from_json_list. rewrite A. reflexivity.
Qed.
(** No atoms *)
Lemma no_atoms : n = 0%nat -> ev = PArr DComplex128 true [nq; 0; 0; 3]%nat [] -> exists j, to_json_file print cls version modes_object = Ok j /\ from_json_file parse QpointPhononModes j = Err BadArray.
Proof.
  intros _ E. assert (L : length (@nil sc) = size [nq; 0; 0; 3; 2]%nat) by (cbn; lia). destruct (@dump_tolist U _ [] L (Forall_nil _)) as (j & E1 & E2).
  apply (unreadable (tolist [nq; 0; 0; 3; 2]%nat []) j); [eauto|rewrite E; reflexivity|exact E1|].
  rewrite E2. pose proof (@np_tolist U _ [] L) as A. destruct nq as [|k]; [lia|]. cbn [cut] in A. destruct (@tolist_list U (S k) [0; 0; 3; 2]%nat []) as (l & El). rewrite El in *. cbn [from_json_dict k_types QpointPhononModes String.eqb Ascii.eqb Bool.eqb]. unfold from_json_list. rewrite A. reflexivity.
Qed.
End Modes.

(** No q-points *)
Lemma no_qpoints cls version cell cu n r t m mu nm q f fu w : crystal_parts n cell r t m -> plain_array [0%nat; 3%nat] q -> plain_array [0%nat; nm] f -> plain_array [0%nat] w ->
  exists j c fr, to_json_file print cls version (PObj [("crystal"%string, crystal_obj cell cu n r t m mu); ("n_qpts"%string, PScal (It 0)); ("qpts"%string, q); ("frequencies"%string, PQty f fu); ("weights"%string, w)]) = Ok j /\
    from_json_file parse QpointFrequencies j = Ok [("crystal"%string, c); ("qpts"%string, PArr DFloat true [0%nat] []); ("frequencies"%string, fr); ("weights"%string, again w)].
Proof.
  intros P Q F W. pose proof P as (_ & B & D & _).
  destruct Q as (dq & cq & xq & -> & Q1 & Q2 & Q3). destruct F as (df & cf & xf & -> & F1 & F2 & F3). pose proof (mag_array 0 [] w W I) as MW. destruct W as (dw & cw & xw & -> & W1 & W2 & W3).
  cbn in Q2, F2, W2. destruct xq; [|discriminate Q2]. destruct xf; [|discriminate F2].
  assert (X : exists j, to_json_file print cls version (PObj [("crystal"%string, crystal_obj cell cu n r t m mu); ("n_qpts"%string, PScal (It 0)); ("qpts"%string, PArr dq cq [0%nat; 3%nat] []); ("frequencies"%string, PQty (PArr df cf [0%nat; nm] []) fu); ("weights"%string, PArr dw cw [0%nat] xw)]) = Ok j /\
    from_json_file parse QpointFrequencies j = Ok [("crystal"%string, crystal_obj (again cell) cu n (again r) (again t) (again m) mu); ("qpts"%string, PArr DFloat true [0%nat] []); ("frequencies"%string, PQty (PArr DFloat true [0%nat] []) fu); ("weights"%string, again (PArr dw cw [0%nat] xw))]).
  { eapply round_json.
    - rewrite to_dict_obj. cbn [flat_map fst snd]. rewrite fields_crystal by assumption. cbn [fields app]. reflexivity.
    - constructor; [apply cr_entry; [repeat split|exact P]|]. constructor; [apply entry_scalar; exact I|]. constructor; [apply (entry_array_cut _ _ dq cq 0 [3%nat] []); [exact Q1|reflexivity|constructor|reflexivity]|].
      constructor; [apply (entry_array_cut _ _ df cf 0 [nm] []); [exact F1|reflexivity|constructor|reflexivity]|]. constructor; [apply entry_scalar; exact I|]. constructor; [apply entry_mag; [exact MW|reflexivity]|constructor].
    - cbn [again]. unfold from_dict, process_dict, set_missing. cbv -[dtype_of crystal_from_dict cr_dict crystal_obj again positions Z.of_nat Nat.mul]. rewrite (cr_back print parse rt _ _ _ _ _ _ _ P). rewrite rt. reflexivity. }
  destruct X as (j & X1 & X2). exists j. eexists. eexists. split; [exact X1|exact X2].
Qed.
(** Metadata *)
Lemma tuple_metadata cls version x xu y yu k l : magnitude x -> magnitude y -> Forall plain l ->
  exists j, to_json_file print cls version (PObj [("x_data"%string, PQty x xu); ("y_data"%string, PQty y yu); ("x_tick_labels"%string, PNone); ("metadata"%string, PDict [(k, PTup l)])]) = Ok j /\
    from_json_file parse Spectrum1D j = Ok [("x_data"%string, PQty (again x) xu); ("y_data"%string, PQty (again y) yu); ("x_tick_labels"%string, PNone); ("metadata"%string, PDict [(k, PList l)])].
Proof.
  intros X Y L. eapply round_json.
  - reflexivity.
  - constructor; [apply entry_mag; [exact X|reflexivity]|]. constructor; [apply entry_scalar; exact I|]. constructor; [apply entry_mag; [exact Y|reflexivity]|]. constructor; [apply entry_scalar; exact I|]. constructor; [|constructor].
    instantiate (1 := ("metadata"%string, PDict [(k, PList l)])). split; [reflexivity|]. destruct (plain_dump (PList l) (plain_list l L)) as (j & E1 & E2). exists (PDict [(k, PTup l)]), (JDict [(k, j)]). split; [reflexivity|]. rewrite dump_PList in E1. split; [rewrite dump_PDict; cbn [dump_dict]; rewrite dump_PTup, E1; reflexivity|]. cbn [fst snd]. rewrite loads_JDict. cbn [loads_dict]. rewrite E2. reflexivity.
  - destruct X as [(? & ? & _ & (? & ? & ? & -> & _))|(? & -> & _)]; destruct Y as [(? & ? & _ & (? & ? & ? & -> & _))|(? & -> & _)]; cbn [again]; unfold from_dict, process_dict, set_missing; cbv -[dtype_of again]; rewrite !rt; reflexivity.
Qed.
Lemma array_metadata cls version x xu y yu k dt c d data : magnitude x -> magnitude y ->
  to_json_file print cls version (PObj [("x_data"%string, PQty x xu); ("y_data"%string, PQty y yu); ("x_tick_labels"%string, PNone); ("metadata"%string, PDict [(k, PArr dt c d data)])]) = Err NotSerialisable.
Proof.
  intros X Y. unfold to_json_file. rewrite to_dict_obj. cbn [flat_map fst snd fields app].
  destruct (entry_mag no_types "x_data" x X eq_refl) as (_ & x' & jx & A1 & A2 & _). destruct (entry_mag no_types "y_data" y Y eq_refl) as (_ & y' & jy & B1 & B2 & _). cbn [fst snd] in *.
  rewrite to_json_PDict. cbn [String.eqb to_json_entries]. change ("x_data" ++ "_unit")%string with "x_data_unit"%string. rewrite A1, B1. cbn [to_json_dict String.eqb Ascii.eqb Bool.eqb]. cbn [app]. rewrite dump_PDict. cbn [dump_dict]. rewrite A2, B2. reflexivity.
Qed.
End Bad.
