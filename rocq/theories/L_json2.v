(** Round trips class by class (C18). *)
From Coq Require Import String.
From Verif Require Import Base Cpx M_json S_json L_json.
Open Scope list_scope.

Section Classes.
Context {U : Type}.
Variables (print : U -> string) (parse : string -> option U).
Hypothesis rt : forall u, parse (print u) = Some u.
Notation pyv := (pyv U).
Notation dict := (list (string * pyv)).

Definition cr_dict (cell : pyv) (cu : U) (n : nat) (r t m : pyv) (mu : U) : pyv :=
  PDict [("cell_vectors"%string, cell); ("cell_vectors_unit"%string, PScal (St (print cu))); ("n_atoms"%string, PScal (It (Z.of_nat n)));
         ("atom_r"%string, r); ("atom_type"%string, t); ("atom_mass"%string, m); ("atom_mass_unit"%string, PScal (St (print mu)))].
Definition positions (n : nat) (r : pyv) : pyv := match r with PArr _ _ _ data => PArr (dtype_of data) true (cut [n; 3%nat]) data | _ => r end.

Lemma cr_to_dict cell cu n r t m mu : plain_array [n; 3%nat] r -> plain_array [n] t -> to_dict print (crystal_obj cell cu n r t m mu) = cr_dict cell cu n r t m mu.
Proof. intros (? & ? & ? & -> & _) (? & ? & ? & -> & _). reflexivity. Qed.
Definition crystal_free (types : string -> option hint) : Prop := types "cell_vectors"%string = None /\ types "atom_r"%string = None /\ types "atom_type"%string = None /\ types "atom_mass"%string = None.
Lemma cr_entries types cell n r t m cu mu : crystal_free types -> crystal_parts n cell r t m ->
  Forall2 (entry types)
    [("cell_vectors"%string, cell); ("cell_vectors_unit"%string, PScal (St (print cu))); ("n_atoms"%string, PScal (It (Z.of_nat n)));
         ("atom_r"%string, r); ("atom_type"%string, t); ("atom_mass"%string, m); ("atom_mass_unit"%string, PScal (St (print mu)))]
    [("cell_vectors"%string, again cell); ("cell_vectors_unit"%string, PScal (St (print cu))); ("n_atoms"%string, PScal (It (Z.of_nat n)));
         ("atom_r"%string, positions n r); ("atom_type"%string, again t); ("atom_mass"%string, again m); ("atom_mass_unit"%string, PScal (St (print mu)))].
Proof.
  intros (T1 & T2 & T3 & T4) (A & B & D & E).
  constructor; [apply (entry_array types _ 3 [3%nat]); [exact A|cbn; lia|exact T1]|]. constructor; [apply entry_scalar; exact I|]. constructor; [apply entry_scalar; exact I|].
  constructor; [destruct B as (dt & c & data & -> & X1 & X2 & X3); apply entry_array_cut; assumption|].
  constructor; [apply (entry_array types _ n []); [exact D|exact I|exact T3]|]. constructor; [apply (entry_array types _ n []); [exact E|exact I|exact T4]|]. constructor; [apply entry_scalar; exact I|constructor].
Qed.
Lemma cr_back cell cu n r t m mu : crystal_parts n cell r t m -> crystal_from_dict parse (cr_dict (again cell) cu n (positions n r) (again t) (again m) mu) = Ok (crystal_obj (again cell) cu n (again r) (again t) (again m) mu).
Proof.
  intros ((? & ? & ? & -> & _) & (? & ? & data & -> & _ & L & _) & (? & ? & ? & -> & _) & (? & ? & ? & -> & _)).
  unfold crystal_from_dict, cr_dict, process_dict. cbn -[dtype_of cut]. rewrite rt. cbn -[dtype_of cut]. rewrite rt. cbn -[dtype_of cut].
  unfold crystal_obj. destruct n as [|n]; [|reflexivity]. cbn in L. destruct data; [|discriminate L]. reflexivity.
Qed.
Lemma cr_entry types cell n r t m cu mu : crystal_free types -> crystal_parts n cell r t m ->
  entry types ("crystal"%string, cr_dict cell cu n r t m mu) ("crystal"%string, cr_dict (again cell) cu n (positions n r) (again t) (again m) mu).
Proof. intros T P. apply entry_dict; [discriminate|]. apply cr_entries; assumption. Qed.

(** The Crystal itself *)
Lemma crystal_json cls version cell cu n r t m mu : crystal_parts n cell r t m ->
  exists j, to_json_file print cls version (crystal_obj cell cu n r t m mu) = Ok j /\ crystal_from_json_file parse j = Ok (crystal_obj (again cell) cu n (again r) (again t) (again m) mu).
Proof.
  intros P. pose proof P as (_ & B & D & _). destruct (file_back print no_types cls version (crystal_obj cell cu n r t m mu) _ _ (cr_to_dict cell cu n r t m mu B D) (cr_entries no_types cell n r t m cu mu (conj eq_refl (conj eq_refl (conj eq_refl eq_refl))) P)) as (j & E1 & E2).
  exists j. split; [exact E1|]. unfold crystal_from_json_file. rewrite E2. pose proof (cr_back cell cu n r t m mu P) as Q. revert Q. unfold cr_dict, crystal_from_dict, process_dict. 
  destruct P as ((? & ? & ? & -> & _) & (? & ? & ? & -> & _) & (? & ? & ? & -> & _) & (? & ? & ? & -> & _)).
  cbn -[dtype_of cut]. rewrite !rt. cbn -[dtype_of cut]. rewrite ?rt. cbn -[dtype_of cut]. exact (fun H => H).
Qed.

Ltac entries := repeat match goal with
  | |- Forall2 _ [] [] => constructor
  | |- Forall2 _ (_ :: _) (_ :: _) => constructor
  | |- Forall2 _ (_ :: _) _ => econstructor
  | |- Forall2 _ [] _ => econstructor
  end.
Ltac open_arrays := repeat match goal with
  | H : plain_array _ ?v |- _ => is_var v; let H' := fresh in pose proof H as H'; revert H'; destruct H as (? & ? & ? & -> & _)
  end.

Lemma mag_cases (v : pyv) : magnitude v -> v <> PNone /\ again v <> PNone.
Proof. intros [(n & d & _ & (dt & c & data & -> & _))|(x & -> & _)]; split; discriminate. Qed.
Lemma entry_mag types k (v : pyv) : magnitude v -> types k = None -> entry types (k, v) (k, again v).
Proof. intros [(n & d & Z & P)|(x & -> & N)] T; [exact (entry_array types k n d v P Z T)|exact (entry_scalar types k x N)]. Qed.
Lemma inner1 n m : (0 < n)%nat -> no_inner_zero [n; m].
Proof. intros H. split; [exact H|exact I]. Qed.
Lemma mag_array n d (v : pyv) : plain_array (n :: d) v -> no_inner_zero (n :: d) -> magnitude v.
Proof. intros P Z. left. exists n, d. split; assumption. Qed.

(** to_dict of an attribute *)
Definition fields (k : string) (v : pyv) : dict :=
  match v with
  | PNone => [] | PDict [] => if String.eqb k "metadata" then [] else [(k, v)]
  | PQty m u => [(k, m); ((k ++ "_unit")%string, PScal (St (print u)))]
  | PObj _ => [(k, to_dict print v)] | _ => [(k, v)] end.
Lemma to_dict_obj l : to_dict print (PObj l) = PDict (flat_map (fun p => fields (fst p) (snd p)) l).
Proof. cbn [to_dict]. f_equal. induction l as [|[k v] l IH]; [reflexivity|]. cbn [flat_map fst snd]. rewrite <- IH. reflexivity. Qed.
Lemma fields_array k d (v : pyv) : plain_array d v -> fields k v = [(k, v)].
Proof. intros (? & ? & ? & -> & _). reflexivity. Qed.
Lemma fields_crystal cell cu n r t m mu : plain_array [n; 3%nat] r -> plain_array [n] t -> fields "crystal" (crystal_obj cell cu n r t m mu) = [("crystal"%string, cr_dict cell cu n r t m mu)].
Proof. intros B D. rewrite <- (cr_to_dict cell cu n r t m mu B D). reflexivity. Qed.

Ltac reduce := cbv -[dtype_of crystal_from_dict cr_dict crystal_obj again positions Z.of_nat Nat.mul tick_labels]; rewrite ?rt.
Ltac finish E := cbn [again fst snd or_none]; unfold from_dict, process_dict, set_missing; reduce; rewrite ?E; repeat (progress reduce); reflexivity.
Ltac shape H := destruct H as (? & ? & ? & -> & _).
Ltac shape_mag H := destruct H as [(? & ? & _ & (? & ? & ? & -> & _))|(? & -> & _)].
Lemma cr_same cell cu n r t m mu : crystal_parts n cell r t m -> crystal_from_dict parse (cr_dict cell cu n r t m mu) = Ok (crystal_obj cell cu n r t m mu).
Proof.
  intros ((? & ? & ? & -> & _) & (? & ? & data & -> & _ & L & _) & (? & ? & ? & -> & _) & (? & ? & ? & -> & _)).
  unfold crystal_from_dict, cr_dict, process_dict. cbn -[dtype_of cut]. rewrite rt. cbn -[dtype_of cut]. rewrite rt. destruct n; reflexivity.
Qed.
Lemma fields_metadata l : fields "metadata" (PDict l) = match l with [] => [] | _ => [("metadata"%string, PDict l)] end.
Proof. destruct l; reflexivity. Qed.

Lemma qf_json cls version cell cu n r t m mu nq nm q f fu w : crystal_parts n cell r t m -> (0 < nq)%nat -> plain_array [nq; 3%nat] q -> plain_array [nq; nm] f -> plain_array [nq] w ->
  exists j, to_json_file print cls version (PObj [("crystal"%string, crystal_obj cell cu n r t m mu); ("n_qpts"%string, PScal (It (Z.of_nat nq))); ("qpts"%string, q); ("frequencies"%string, PQty f fu); ("weights"%string, w)]) = Ok j /\ from_json_file parse QpointFrequencies j = Ok [("crystal"%string, crystal_obj (again cell) cu n (again r) (again t) (again m) mu); ("qpts"%string, again q); ("frequencies"%string, PQty (again f) fu); ("weights"%string, again w)].
Proof.
  intros P Hq Q F W. pose proof P as (_ & B & D & _). 
  edestruct (file_back print (k_types QpointFrequencies) cls version) as (j & E1 & E2); [| |exists j; split; [exact E1|]].
  - rewrite to_dict_obj. cbn [flat_map fst snd]. rewrite fields_crystal by assumption. rewrite (fields_array _ _ q Q), (fields_array _ _ w W). cbn [fields app or_none fst snd]. reflexivity.
  - entries; [apply cr_entry; [repeat split|exact P]|apply entry_scalar; exact I|apply entry_mag; [apply (mag_array _ _ _ Q); apply inner1; exact Hq|reflexivity]|apply entry_mag; [apply (mag_array _ _ _ F); apply inner1; exact Hq|reflexivity]|apply entry_scalar; exact I|apply entry_mag; [apply (mag_array _ _ _ W); exact I|reflexivity]].
  - unfold from_json_file. rewrite E2. shape Q. shape F. shape W. finish (cr_back _ cu _ _ _ _ mu P).
Qed.
Lemma qf_dict cell cu n r t m mu nq nm q f fu w : crystal_parts n cell r t m -> (0 < nq)%nat -> plain_array [nq; 3%nat] q -> plain_array [nq; nm] f -> plain_array [nq] w ->
  from_dict parse QpointFrequencies (to_dict print (PObj [("crystal"%string, crystal_obj cell cu n r t m mu); ("n_qpts"%string, PScal (It (Z.of_nat nq))); ("qpts"%string, q); ("frequencies"%string, PQty f fu); ("weights"%string, w)])) = Ok [("crystal"%string, crystal_obj cell cu n r t m mu); ("qpts"%string, q); ("frequencies"%string, PQty (f) fu); ("weights"%string, w)].
Proof.
  intros P Hq Q F W. pose proof P as (_ & B & D & _). 
  rewrite to_dict_obj. cbn [flat_map fst snd]. rewrite fields_crystal by assumption. rewrite (fields_array _ _ q Q), (fields_array _ _ w W). cbn [fields app or_none fst snd]. shape Q. shape F. shape W. finish (cr_same _ cu _ _ _ _ mu P).
Qed.

Lemma qpm_json cls version cell cu n r t m mu nq q f fu ev w : crystal_parts n cell r t m -> (0 < nq)%nat -> (0 < n)%nat -> plain_array [nq; 3%nat] q -> plain_array [nq; (3 * n)%nat] f -> Forall complex ev -> length ev = size [nq; 3 * n; n; 3]%nat -> plain_array [nq] w ->
  exists j, to_json_file print cls version (PObj [("crystal"%string, crystal_obj cell cu n r t m mu); ("n_qpts"%string, PScal (It (Z.of_nat nq))); ("qpts"%string, q); ("frequencies"%string, PQty f fu); ("eigenvectors"%string, PArr DComplex128 true [nq; 3 * n; n; 3]%nat ev); ("weights"%string, w)]) = Ok j /\ from_json_file parse QpointPhononModes j = Ok [("crystal"%string, crystal_obj (again cell) cu n (again r) (again t) (again m) mu); ("qpts"%string, again q); ("frequencies"%string, PQty (again f) fu); ("eigenvectors"%string, PArr DComplex128 true [nq; 3 * n; n; 3]%nat ev); ("weights"%string, again w)].
Proof.
  intros P Hq Hn Q F X1 X2 W. pose proof P as (_ & B & D & _). 
  edestruct (file_back print (k_types QpointPhononModes) cls version) as (j & E1 & E2); [| |exists j; split; [exact E1|]].
  - rewrite to_dict_obj. cbn [flat_map fst snd]. rewrite fields_crystal by assumption. rewrite (fields_array _ _ q Q), (fields_array _ _ w W). cbn [fields app or_none fst snd]. reflexivity.
  - entries; [apply cr_entry; [repeat split|exact P]|apply entry_scalar; exact I|apply entry_mag; [apply (mag_array _ _ _ Q); apply inner1; exact Hq|reflexivity]|apply entry_mag; [apply (mag_array _ _ _ F); apply inner1; exact Hq|reflexivity]|apply entry_scalar; exact I|apply entry_complex; [repeat constructor; lia|exact X2|exact X1|reflexivity]|apply entry_mag; [apply (mag_array _ _ _ W); exact I|reflexivity]].
  - unfold from_json_file. rewrite E2. shape Q. shape F. shape W. finish (cr_back _ cu _ _ _ _ mu P).
Qed.
Lemma qpm_dict cell cu n r t m mu nq q f fu ev w : crystal_parts n cell r t m -> (0 < nq)%nat -> (0 < n)%nat -> plain_array [nq; 3%nat] q -> plain_array [nq; (3 * n)%nat] f -> Forall complex ev -> length ev = size [nq; 3 * n; n; 3]%nat -> plain_array [nq] w ->
  from_dict parse QpointPhononModes (to_dict print (PObj [("crystal"%string, crystal_obj cell cu n r t m mu); ("n_qpts"%string, PScal (It (Z.of_nat nq))); ("qpts"%string, q); ("frequencies"%string, PQty f fu); ("eigenvectors"%string, PArr DComplex128 true [nq; 3 * n; n; 3]%nat ev); ("weights"%string, w)])) = Ok [("crystal"%string, crystal_obj cell cu n r t m mu); ("qpts"%string, q); ("frequencies"%string, PQty (f) fu); ("eigenvectors"%string, PArr DComplex128 true [nq; 3 * n; n; 3]%nat ev); ("weights"%string, w)].
Proof.
  intros P Hq Hn Q F X1 X2 W. pose proof P as (_ & B & D & _). 
  rewrite to_dict_obj. cbn [flat_map fst snd]. rewrite fields_crystal by assumption. rewrite (fields_array _ _ q Q), (fields_array _ _ w W). cbn [fields app or_none fst snd]. shape Q. shape F. shape W. finish (cr_same _ cu _ _ _ _ mu P).
Qed.

Lemma fields_ticks l : fields "x_tick_labels" (tick_labels l) = [("x_tick_labels"%string, tick_labels l)].
Proof. reflexivity. Qed.
Ltac ent := first [apply entry_scalar; exact I|apply entry_mag; [assumption|reflexivity]|apply cr_entry; [repeat split|assumption]|apply entry_ticks; reflexivity|apply entry_metadata; assumption].
Ltac open_fields := rewrite to_dict_obj; cbn [flat_map fst snd]; rewrite ?fields_crystal by assumption; repeat match goal with H : plain_array _ ?v |- context [fields ?k ?v] => rewrite (fields_array k _ v H) end; cbn [or_none]; rewrite ?fields_ticks, ?fields_metadata; cbn [fields app or_none fst snd]; reflexivity.
Ltac shapes := repeat match goal with B : plain_array [?n; 3%nat] ?r, D : plain_array [?n] ?t, P : crystal_parts ?n _ ?r ?t _ |- _ => clear B D end; repeat match goal with H : magnitude ?v, H' : plain_array _ ?v |- _ => clear H end; repeat match goal with H : plain_array _ ?v |- _ => is_var v; destruct H as (? & ? & ? & -> & _) | H : magnitude ?v |- _ => is_var v; destruct H as [(? & ? & _ & (? & ? & ? & -> & _))|(? & -> & _)] end.
Lemma round_json klass cls version o l mm args : to_dict print o = PDict l -> Forall2 (entry (k_types klass)) l mm ->
  from_dict parse klass (PDict (mm ++ [("__euphonic_class__"%string, PScal (St cls)); ("__euphonic_version__"%string, PScal (St version))])) = Ok args ->
  exists j, to_json_file print cls version o = Ok j /\ from_json_file parse klass j = Ok args.
Proof. intros E1 E2 E3. destruct (file_back print (k_types klass) cls version o l mm E1 E2) as (j & F1 & F2). exists j. split; [exact F1|]. unfold from_json_file. rewrite F2. exact E3. Qed.
Ltac json_round E := eapply round_json; [open_fields|entries; ent|shapes; finish E].
Ltac dict_round E := rewrite to_dict_obj; cbn [flat_map fst snd]; rewrite ?fields_crystal by assumption; repeat match goal with H : plain_array _ ?v |- context [fields ?k ?v] => rewrite (fields_array k _ v H) end; cbn [or_none]; rewrite ?fields_ticks, ?fields_metadata; cbn [fields app or_none fst snd]; shapes; finish E.

Lemma sf_json cls version cell cu n r t m mu nq nm q f fu s su w temp : crystal_parts n cell r t m -> (0 < nq)%nat -> plain_array [nq; 3%nat] q -> plain_array [nq; nm] f -> plain_array [nq; nm] s -> plain_array [nq] w -> match temp with Some x => magnitude (fst x) | None => True end ->
  exists j, to_json_file print cls version (PObj [("crystal"%string, crystal_obj cell cu n r t m mu); ("n_qpts"%string, PScal (It (Z.of_nat nq))); ("qpts"%string, q); ("frequencies"%string, PQty f fu); ("structure_factors"%string, PQty s su); ("weights"%string, w); ("temperature"%string, or_none (fun x => PQty (fst x) (snd x)) temp)]) = Ok j /\ from_json_file parse StructureFactor j = Ok [("crystal"%string, crystal_obj (again cell) cu n (again r) (again t) (again m) mu); ("qpts"%string, again q); ("frequencies"%string, PQty (again f) fu); ("structure_factors"%string, PQty (again s) su); ("weights"%string, again w); ("temperature"%string, or_none (fun x => PQty (again (fst x)) (snd x)) temp)].
Proof. intros P Hq Q F S W T. pose proof P as (_ & B & D & _). pose proof (mag_array _ _ _ Q (inner1 _ _ Hq)). pose proof (mag_array _ _ _ F (inner1 _ _ Hq)). pose proof (mag_array _ _ _ S (inner1 _ _ Hq)). pose proof (mag_array _ _ _ W (I)). destruct temp as [[tm tu]|]; cbn [fst] in T; json_round (cr_back cell cu n r t m mu P). Qed.
Lemma sf_dict cell cu n r t m mu nq nm q f fu s su w temp : crystal_parts n cell r t m -> (0 < nq)%nat -> plain_array [nq; 3%nat] q -> plain_array [nq; nm] f -> plain_array [nq; nm] s -> plain_array [nq] w -> match temp with Some x => magnitude (fst x) | None => True end -> from_dict parse StructureFactor (to_dict print (PObj [("crystal"%string, crystal_obj cell cu n r t m mu); ("n_qpts"%string, PScal (It (Z.of_nat nq))); ("qpts"%string, q); ("frequencies"%string, PQty f fu); ("structure_factors"%string, PQty s su); ("weights"%string, w); ("temperature"%string, or_none (fun x => PQty (fst x) (snd x)) temp)])) = Ok [("crystal"%string, crystal_obj cell cu n r t m mu); ("qpts"%string, q); ("frequencies"%string, PQty (f) fu); ("structure_factors"%string, PQty (s) su); ("weights"%string, w); ("temperature"%string, or_none (fun x => PQty (fst x) (snd x)) temp)].
Proof. intros P Hq Q F S W T. pose proof P as (_ & B & D & _). pose proof (mag_array _ _ _ Q (inner1 _ _ Hq)). pose proof (mag_array _ _ _ F (inner1 _ _ Hq)). pose proof (mag_array _ _ _ S (inner1 _ _ Hq)). pose proof (mag_array _ _ _ W (I)). destruct temp as [[tm tu]|]; cbn [fst] in T; dict_round (cr_same cell cu n r t m mu P). Qed.

Lemma dw_json cls version cell cu n r t m mu d du tm tu : crystal_parts n cell r t m -> (0 < n)%nat -> plain_array [n; 3%nat; 3%nat] d -> magnitude tm ->
  exists j, to_json_file print cls version (PObj [("crystal"%string, crystal_obj cell cu n r t m mu); ("debye_waller"%string, PQty d du); ("temperature"%string, PQty tm tu)]) = Ok j /\ from_json_file parse DebyeWaller j = Ok [("crystal"%string, crystal_obj (again cell) cu n (again r) (again t) (again m) mu); ("debye_waller"%string, PQty (again d) du); ("temperature"%string, PQty (again tm) tu)].
Proof. intros P Hn Q T. pose proof P as (_ & B & D & _). pose proof (mag_array _ _ _ Q (conj Hn (inner1 3 3 (Nat.lt_0_succ 2)))). json_round (cr_back cell cu n r t m mu P). Qed.
Lemma dw_dict cell cu n r t m mu d du tm tu : crystal_parts n cell r t m -> (0 < n)%nat -> plain_array [n; 3%nat; 3%nat] d -> magnitude tm -> from_dict parse DebyeWaller (to_dict print (PObj [("crystal"%string, crystal_obj cell cu n r t m mu); ("debye_waller"%string, PQty d du); ("temperature"%string, PQty tm tu)])) = Ok [("crystal"%string, crystal_obj cell cu n r t m mu); ("debye_waller"%string, PQty (d) du); ("temperature"%string, PQty (tm) tu)].
Proof. intros P Hn Q T. pose proof P as (_ & B & D & _). pose proof (mag_array _ _ _ Q (conj Hn (inner1 3 3 (Nat.lt_0_succ 2)))). dict_round (cr_same cell cu n r t m mu P). Qed.

Lemma fc_json cls version cell cu n r t m mu nc f fu sc co born diel : crystal_parts n cell r t m -> (0 < nc)%nat -> (0 < n)%nat -> plain_array [nc; (3 * n)%nat; (3 * n)%nat] f -> plain_array [3%nat; 3%nat] sc -> plain_array [nc; 3%nat] co -> match born with Some x => plain_array [n; 3%nat; 3%nat] (fst x) | None => True end -> match diel with Some x => plain_array [3%nat; 3%nat] (fst x) | None => True end ->
  exists j, to_json_file print cls version (PObj [("crystal"%string, crystal_obj cell cu n r t m mu); ("force_constants"%string, PQty f fu); ("n_cells_in_sc"%string, PScal (It (Z.of_nat nc))); ("sc_matrix"%string, sc); ("cell_origins"%string, co); ("born"%string, or_none (fun x => PQty (fst x) (snd x)) born); ("dielectric"%string, or_none (fun x => PQty (fst x) (snd x)) diel)]) = Ok j /\ from_json_file parse ForceConstants j = Ok [("crystal"%string, crystal_obj (again cell) cu n (again r) (again t) (again m) mu); ("force_constants"%string, PQty (again f) fu); ("sc_matrix"%string, again sc); ("cell_origins"%string, again co); ("born"%string, or_none (fun x => PQty (again (fst x)) (snd x)) born); ("dielectric"%string, or_none (fun x => PQty (again (fst x)) (snd x)) diel)].
Proof. intros P Hc Hn F S O X Y. pose proof P as (_ & B & D & _). pose proof (mag_array _ _ _ F (conj Hc (inner1 (3 * n) (3 * n) (Nat.mul_pos_pos 3 n (Nat.lt_0_succ 2) Hn)))). pose proof (mag_array _ _ _ S (inner1 3 3 (Nat.lt_0_succ 2))). pose proof (mag_array _ _ _ O (inner1 _ _ Hc)). destruct born as [[bm bu]|]; destruct diel as [[em eu]|]; cbn [fst] in X, Y; try pose proof (mag_array _ _ _ X (conj Hn (inner1 3 3 (Nat.lt_0_succ 2)))); try pose proof (mag_array _ _ _ Y (inner1 3 3 (Nat.lt_0_succ 2))); json_round (cr_back cell cu n r t m mu P). Qed.
Lemma fc_dict cell cu n r t m mu nc f fu sc co born diel : crystal_parts n cell r t m -> (0 < nc)%nat -> (0 < n)%nat -> plain_array [nc; (3 * n)%nat; (3 * n)%nat] f -> plain_array [3%nat; 3%nat] sc -> plain_array [nc; 3%nat] co -> match born with Some x => plain_array [n; 3%nat; 3%nat] (fst x) | None => True end -> match diel with Some x => plain_array [3%nat; 3%nat] (fst x) | None => True end -> from_dict parse ForceConstants (to_dict print (PObj [("crystal"%string, crystal_obj cell cu n r t m mu); ("force_constants"%string, PQty f fu); ("n_cells_in_sc"%string, PScal (It (Z.of_nat nc))); ("sc_matrix"%string, sc); ("cell_origins"%string, co); ("born"%string, or_none (fun x => PQty (fst x) (snd x)) born); ("dielectric"%string, or_none (fun x => PQty (fst x) (snd x)) diel)])) = Ok [("crystal"%string, crystal_obj cell cu n r t m mu); ("force_constants"%string, PQty (f) fu); ("sc_matrix"%string, sc); ("cell_origins"%string, co); ("born"%string, or_none (fun x => PQty (fst x) (snd x)) born); ("dielectric"%string, or_none (fun x => PQty (fst x) (snd x)) diel)].
Proof. intros P Hc Hn F S O X Y. pose proof P as (_ & B & D & _). pose proof (mag_array _ _ _ F (conj Hc (inner1 (3 * n) (3 * n) (Nat.mul_pos_pos 3 n (Nat.lt_0_succ 2) Hn)))). pose proof (mag_array _ _ _ S (inner1 3 3 (Nat.lt_0_succ 2))). pose proof (mag_array _ _ _ O (inner1 _ _ Hc)). destruct born as [[bm bu]|]; destruct diel as [[em eu]|]; cbn [fst] in X, Y; try pose proof (mag_array _ _ _ X (conj Hn (inner1 3 3 (Nat.lt_0_succ 2)))); try pose proof (mag_array _ _ _ Y (inner1 3 3 (Nat.lt_0_succ 2))); dict_round (cr_same cell cu n r t m mu P). Qed.

Lemma s1_json cls version x xu y yu ticks md : magnitude x -> magnitude y -> plain (PDict md) ->
  exists j, to_json_file print cls version (PObj [("x_data"%string, PQty x xu); ("y_data"%string, PQty y yu); ("x_tick_labels"%string, or_none tick_labels ticks); ("metadata"%string, PDict md)]) = Ok j /\ from_json_file parse Spectrum1D j = Ok [("x_data"%string, PQty (again x) xu); ("y_data"%string, PQty (again y) yu); ("x_tick_labels"%string, or_none tick_labels ticks); ("metadata"%string, match md with [] => PNone | _ => PDict md end)].
Proof. intros X Y M. destruct ticks as [ticks|]; destruct md as [|e0 md]; json_round rt. Qed.
Lemma s1_dict x xu y yu ticks md : magnitude x -> magnitude y -> plain (PDict md) -> from_dict parse Spectrum1D (to_dict print (PObj [("x_data"%string, PQty x xu); ("y_data"%string, PQty y yu); ("x_tick_labels"%string, or_none tick_labels ticks); ("metadata"%string, PDict md)])) = Ok [("x_data"%string, PQty (x) xu); ("y_data"%string, PQty (y) yu); ("x_tick_labels"%string, or_none tick_labels ticks); ("metadata"%string, match md with [] => PNone | _ => PDict md end)].
Proof. intros X Y M. destruct ticks as [ticks|]; destruct md as [|e0 md]; dict_round rt. Qed.

Lemma s2_json cls version x xu y yu z zu ticks md : magnitude x -> magnitude y -> magnitude z -> plain (PDict md) ->
  exists j, to_json_file print cls version (PObj [("x_data"%string, PQty x xu); ("y_data"%string, PQty y yu); ("z_data"%string, PQty z zu); ("x_tick_labels"%string, or_none tick_labels ticks); ("metadata"%string, PDict md)]) = Ok j /\ from_json_file parse Spectrum2D j = Ok [("x_data"%string, PQty (again x) xu); ("y_data"%string, PQty (again y) yu); ("z_data"%string, PQty (again z) zu); ("x_tick_labels"%string, or_none tick_labels ticks); ("metadata"%string, match md with [] => PNone | _ => PDict md end)].
Proof. intros X Y Z M. destruct ticks as [ticks|]; destruct md as [|e0 md]; json_round rt. Qed.
Lemma s2_dict x xu y yu z zu ticks md : magnitude x -> magnitude y -> magnitude z -> plain (PDict md) -> from_dict parse Spectrum2D (to_dict print (PObj [("x_data"%string, PQty x xu); ("y_data"%string, PQty y yu); ("z_data"%string, PQty z zu); ("x_tick_labels"%string, or_none tick_labels ticks); ("metadata"%string, PDict md)])) = Ok [("x_data"%string, PQty (x) xu); ("y_data"%string, PQty (y) yu); ("z_data"%string, PQty (z) zu); ("x_tick_labels"%string, or_none tick_labels ticks); ("metadata"%string, match md with [] => PNone | _ => PDict md end)].
Proof. intros X Y Z M. destruct ticks as [ticks|]; destruct md as [|e0 md]; dict_round rt. Qed.
End Classes.
