(** Property C81: what the command line tools load from a file. *)
From Coq Require Import String Ascii.
From Verif Require Import Base Cpx Vec3 M_phonopy M_phmodes M_json S_json M_load S_load L_load L_load2.
Open Scope string_scope.

(** C81, CASTEP files: .phonon gives modes, or frequencies if only those are asked for;
    .castep_bin and .check give force constants. *)
Theorem C81_castep : forall U A parse N tol kf km s path fo cm cf jf dir, stem s ->
  let load := @load_data_from_file U A parse N tol kf km path fo cm cf jf dir in
  (forall a, located path (s ++ ".phonon") -> fo = false -> cm true = Ok a -> load = Ok (CModes, FromCastep a)) /\
  (forall a, located path (s ++ ".phonon") -> fo = true -> cm false = Ok a -> load = Ok (CFrequencies, FromCastep a)) /\
  (forall a ext, In ext [".castep_bin"; ".check"] -> located path (s ++ ext) -> cf = Ok a -> load = Ok (CForce, FromCastep a)).
Proof.
  intros U A parse N tol kf km s path fo cm cf jf dir S load. split; [|split].
  - intros a L -> E. destruct (located_base s path ".phonon" S ltac:(cbn; intuition discriminate) L) as (b & Eb & F & _). unfold load. rewrite Eb, load_phonon by exact F. cbn [negb]. rewrite E. reflexivity.
  - intros a L -> E. destruct (located_base s path ".phonon" S ltac:(cbn; intuition discriminate) L) as (b & Eb & F & _). unfold load. rewrite Eb, load_phonon by exact F. cbn [negb]. rewrite E. reflexivity.
  - intros a ext I L E. destruct (located_base s path ext S) as (b & Eb & F & _); [destruct I as [<- | [<- | []]]; cbn; intuition discriminate|exact L|].
    unfold load. rewrite Eb, (load_castep_bin _ _ _ _ _ b ext) by assumption. rewrite E. reflexivity.
Qed.
Print Assumptions C81_castep.

(** C81: a file whose name has none of the extensions is refused. *)
Theorem C81_unknown : forall U A parse N tol kf km path fo cm cf jf dir, (forall ext base, In ext known_extensions -> path <> base ++ ext) ->
  @load_data_from_file U A parse N tol kf km path fo cm cf jf dir = Err NotRecognised.
Proof. intros U A parse N tol kf km path fo cm cf jf dir. exact (load_other parse N tol kf km path fo cm cf jf dir). Qed.
Print Assumptions C81_unknown.

(** C81, JSON files written by Euphonic: read as an object of the class that was written and
    with the same data (C18); if only frequencies are asked for, the eigenvectors are left out. *)
Section Json.
Context {U A : Type} (print : U -> string) (parse : string -> option U).
Hypothesis pint : forall u, parse (print u) = Some u.
Variables (N : nat) (tol : R) (kf : factors) (km : mfactors) (s path : string) (cm : bool -> res A lerr) (cf : res A lerr) (dir : directory).
Hypothesis named : stem s /\ located path (s ++ ".json").
Variables (cell : pyv U) (cu : U) (n : nat) (r t mass : pyv U) (mu : U).
Hypothesis C : crystal_parts n cell r t mass.
Notation crystal := (crystal_obj cell cu n r t mass mu).
Notation crystal' := (crystal_obj (again cell) cu n (again r) (again t) (again mass) mu).
Notation load fo j := (@load_data_from_file U A parse N tol kf km path fo cm cf (Ok j) dir).
Theorem C81_json_modes : forall cls version nq q f fu ev w, (0 < nq)%nat -> (0 < n)%nat -> plain_array [nq; 3%nat] q -> plain_array [nq; (3 * n)%nat] f ->
  Forall complex ev -> length ev = size [nq; 3 * n; n; 3]%nat -> plain_array [nq] w ->
  let e := PArr DComplex128 true [nq; 3 * n; n; 3]%nat ev in
  exists j, to_json_file print cls version (modes_obj crystal nq q (PQty f fu) e w) = Ok j /\
  load false j = Ok (CModes, FromJson [("crystal", crystal'); ("qpts", again q); ("frequencies", PQty (again f) fu); ("eigenvectors", e); ("weights", again w)]) /\
  load true j = Ok (CFrequencies, FromJson [("crystal", crystal'); ("qpts", again q); ("frequencies", PQty (again f) fu); ("weights", again w)]).
Proof.
  intros cls version nq q f fu ev w H1 H2 H3 H4 H5 H6 H7 e. destruct named as [S L]. destruct (located_base s path ".json" S ltac:(cbn; intuition discriminate) L) as (b & Eb & F & _).
  destruct (json_modes (A := A) print parse pint cell cu n r t mass mu C cls version nq q f fu ev w H1 H2 H3 H4 H5 H6 H7) as (j & E). exists j. rewrite Eb, !load_json by exact F. exact E.
Qed.
Theorem C81_json_frequencies : forall cls version nq nm q f fu w fo, (0 < nq)%nat -> plain_array [nq; 3%nat] q -> plain_array [nq; nm] f -> plain_array [nq] w ->
  exists j, to_json_file print cls version (frequencies_obj crystal nq q (PQty f fu) w) = Ok j /\
  load fo j = Ok (CFrequencies, FromJson [("crystal", crystal'); ("qpts", again q); ("frequencies", PQty (again f) fu); ("weights", again w)]).
Proof.
  intros cls version nq nm q f fu w fo H1 H2 H3 H4. destruct named as [S L]. destruct (located_base s path ".json" S ltac:(cbn; intuition discriminate) L) as (b & Eb & F & _).
  destruct (json_frequencies (A := A) print parse pint cell cu n r t mass mu C cls version nq nm q f fu w fo H1 H2 H3 H4) as (j & E). exists j. rewrite Eb, !load_json by exact F. exact E.
Qed.
Theorem C81_json_force_constants : forall cls version nc f fu sc co born diel fo, (0 < nc)%nat -> (0 < n)%nat ->
  plain_array [nc; (3 * n)%nat; (3 * n)%nat] f -> plain_array [3%nat; 3%nat] sc -> plain_array [nc; 3%nat] co ->
  match born with Some x => plain_array [n; 3%nat; 3%nat] (fst x) | None => True end -> match diel with Some x => plain_array [3%nat; 3%nat] (fst x) | None => True end ->
  exists j, to_json_file print cls version (force_constants_obj crystal (PQty f fu) nc sc co (optional_quantity born) (optional_quantity diel)) = Ok j /\
  load fo j = Ok (CForce, FromJson [("crystal", crystal'); ("force_constants", PQty (again f) fu); ("sc_matrix", again sc); ("cell_origins", again co); ("born", again_optional born); ("dielectric", again_optional diel)]).
Proof.
  intros cls version nc f fu sc co born diel fo H1 H2 H3 H4 H5 H6 H7. destruct named as [S L]. destruct (located_base s path ".json" S ltac:(cbn; intuition discriminate) L) as (b & Eb & F & _).
  destruct (json_force (A := A) print parse pint cell cu n r t mass mu C cls version nc f fu sc co born diel fo H1 H2 H3 H4 H5 H6 H7) as (j & E). exists j. rewrite Eb, !load_json by exact F. exact E.
Qed.
(** Objects without frequencies or force constants (DebyeWaller, spectra) are refused. *)
Theorem C81_json_refused : forall cls version o l j fo, to_dict print o = PDict l -> ~ In "force_constants" (map fst l) -> ~ In "frequencies" (map fst l) ->
  to_json_file print cls version o = Ok j -> load fo j = Err NotEuphonicData.
Proof.
  intros cls version o l j fo H1 H2 H3 H4. destruct named as [S L]. destruct (located_base s path ".json" S ltac:(cbn; intuition discriminate) L) as (b & Eb & F & _).
  rewrite Eb, load_json by exact F. exact (json_refused print parse cls version o l j fo H1 H2 H3 H4).
Qed.
(** C81 is false of a StructureFactor: it is loaded without complaint as QpointFrequencies, the
    structure factors left out. *)
Theorem C81_structure_factor_refuted : forall cls version nq nm q f fu sf su w fo, (0 < nq)%nat -> plain_array [nq; 3%nat] q -> plain_array [nq; nm] f -> plain_array [nq; nm] sf -> plain_array [nq] w ->
  exists j, to_json_file print cls version (structure_factor_obj crystal nq q (PQty f fu) (PQty sf su) w PNone) = Ok j /\
  load fo j = Ok (CFrequencies, FromJson [("crystal", crystal'); ("qpts", again q); ("frequencies", PQty (again f) fu); ("weights", again w)]).
Proof.
  intros cls version nq nm q f fu sf su w fo H1 H2 H3 H4 H5. destruct named as [S L]. destruct (located_base s path ".json" S ltac:(cbn; intuition discriminate) L) as (b & Eb & F & _).
  destruct (json_structure_factor (A := A) print parse pint cell cu n r t mass mu C cls version nq nm q f fu sf su w fo H1 H2 H3 H4 H5) as (j & E). exists j. rewrite Eb, !load_json by exact F. exact E.
Qed.
End Json.
Print Assumptions C81_json_modes.
Print Assumptions C81_json_frequencies.
Print Assumptions C81_json_force_constants.
Print Assumptions C81_json_refused.
Print Assumptions C81_structure_factor_refuted.

(** C81, Phonopy.  A file of modes gives what the reader of modes returns (C74), with
    eigenvectors if it has them and they are asked for, otherwise without. *)
Theorem C81_phonopy_modes : forall U A parse N tol kf km s path ext fo cm cf jf dir c y m, stem s -> In ext [".hdf5"; ".yaml"] -> located path (s ++ ext) ->
  d_file dir (s ++ ext) = Some (ModesFile c) -> d_file dir "phonopy.yaml" = Some (SummaryFile y) ->
  let load := @load_data_from_file U A parse N tol kf km path fo cm cf jf dir in
  let read := fun evecs => read_modes km None (s ++ ext) c y evecs in
  (fo = false -> read true = Ok m -> load = Ok (CModes, FromPhonopyModes m)) /\
  (fo = true \/ read true = Err NoEvec -> read false = Ok m -> load = Ok (CFrequencies, FromPhonopyModes m)).
Proof.
  intros U A parse N tol kf km s path ext fo cm cf jf dir c y m S I L E1 E2 load read.
  destruct (located_base s path ext S) as (b & Eb & F & La); [destruct I as [<- | [<- | []]]; cbn; intuition discriminate|exact L|].
  unfold load. rewrite Eb in La |- *. rewrite (load_phonopy parse N tol kf km b ext fo cm cf jf dir (s ++ ext) F I La). split.
  - intros ->. exact (ph_modes N tol kf km dir (s ++ ext) c y m E1 E2).
  - exact (ph_frequencies N tol kf km dir (s ++ ext) c y fo m E1 E2).
Qed.
Print Assumptions C81_phonopy_modes.

(** C81, Phonopy.  A summary file gives force constants: its own, or else those of
    force_constants.hdf5 beside it, or else those of FORCE_CONSTANTS.  An HDF5 file of force
    constants gives these, with the crystal of phonopy.yaml, if phonopy.yaml has none of its
    own.  A BORN file beside them is always used. *)
Theorem C81_phonopy_force : forall U A parse N tol kf km s path fo cm cf jf dir y, stem s ->
  let load := @load_data_from_file U A parse N tol kf km path fo cm cf jf dir in
  let result := fun name t f => match read_interpolation_data N tol kf y None name t f (d_born dir) with Ok r => Ok (CForce, FromPhonopyForce r) | Err e => Err (ForceErr e) end in
  (located path (s ++ ".yaml") -> d_file dir (s ++ ".yaml") = Some (SummaryFile y) ->
     (forall fc t f, s_fc y = Some fc -> load = result (s ++ ".yaml") t f) /\
     (forall f t, s_fc y = None -> d_file dir "force_constants.hdf5" = Some (ForceFile f) -> load = result "force_constants.hdf5" t f) /\
     (forall f t, s_fc y = None -> d_file dir "force_constants.hdf5" = None -> d_text dir = Some t -> load = result "FORCE_CONSTANTS" t f)) /\
  (forall f t, located path (s ++ ".hdf5") -> d_file dir (s ++ ".hdf5") = Some (ForceFile f) -> d_file dir "phonopy.yaml" = Some (SummaryFile y) -> s_fc y = None ->
     load = result (s ++ ".hdf5") t f).
Proof.
  intros U A parse N tol kf km s path fo cm cf jf dir y S load result. split.
  - intros L E1. destruct (located_base s path ".yaml" S ltac:(cbn; intuition discriminate) L) as (b & Eb & F & La).
    unfold load. rewrite Eb in La |- *. rewrite (load_phonopy parse N tol kf km b ".yaml" fo cm cf jf dir (s ++ ".yaml") F ltac:(cbn; tauto) La).
    apply ph_summary; [exact E1|apply suffix_stem; [exact S|discriminate|cbn; intuition discriminate|cbn; intuition discriminate]].
  - intros f t L E1 E2 E3. destruct (located_base s path ".hdf5" S ltac:(cbn; intuition discriminate) L) as (b & Eb & F & La).
    unfold load. rewrite Eb in La |- *. rewrite (load_phonopy parse N tol kf km b ".hdf5" fo cm cf jf dir (s ++ ".hdf5") F ltac:(cbn; tauto) La).
    apply ph_force_file; try assumption; [apply suffix_stem|apply extension_stem]; try exact S; try discriminate; cbn; intuition discriminate.
Qed.
Print Assumptions C81_phonopy_force.
(** C81: without phonopy.yaml an HDF5 file of force constants is refused. *)
Theorem C81_phonopy_needs_summary : forall U A parse N tol kf km s path fo cm cf jf dir f, stem s -> located path (s ++ ".hdf5") ->
  d_file dir (s ++ ".hdf5") = Some (ForceFile f) -> d_file dir "phonopy.yaml" = None ->
  @load_data_from_file U A parse N tol kf km path fo cm cf jf dir = Err NeedsSummary.
Proof.
  intros U A parse N tol kf km s path fo cm cf jf dir f S L E1 E2. destruct (located_base s path ".hdf5" S ltac:(cbn; intuition discriminate) L) as (b & Eb & F & La).
  rewrite Eb in La |- *. rewrite (load_phonopy parse N tol kf km b ".hdf5" fo cm cf jf dir (s ++ ".hdf5") F ltac:(cbn; tauto) La).
  apply (ph_needs_summary N tol kf km dir _ f fo E1 E2). apply suffix_stem; [exact S|discriminate|cbn; intuition discriminate|cbn; intuition discriminate].
Qed.
Print Assumptions C81_phonopy_needs_summary.
(** C81 is false of an HDF5 file of force constants beside a phonopy.yaml that has force
    constants of its own: the named file is not read, whatever it holds. *)
Theorem C81_named_file_refuted : forall U A parse N tol kf km s path fo cm cf jf dir dir' y f f' fc, stem s -> located path (s ++ ".hdf5") ->
  d_file dir (s ++ ".hdf5") = Some (ForceFile f) -> d_file dir' (s ++ ".hdf5") = Some (ForceFile f') ->
  d_file dir "phonopy.yaml" = Some (SummaryFile y) -> d_file dir' "phonopy.yaml" = Some (SummaryFile y) -> d_born dir' = d_born dir -> s_fc y = Some fc ->
  let load := fun d => @load_data_from_file U A parse N tol kf km path fo cm cf jf d in load dir = load dir' /\
  load dir = match read_interpolation_data N tol kf y None "phonopy.yaml" ([], []) fc (d_born dir) with Ok r => Ok (CForce, FromPhonopyForce r) | Err e => Err (ForceErr e) end.
Proof.
  intros U A parse N tol kf km s path fo cm cf jf dir dir' y f f' fc S L E1 E2 E3 E4 E5 E6 load.
  destruct (located_base s path ".hdf5" S ltac:(cbn; intuition discriminate) L) as (b & Eb & F & La).
  unfold load. rewrite Eb in La |- *. rewrite !(load_phonopy parse N tol kf km b ".hdf5" fo cm cf jf _ (s ++ ".hdf5") F ltac:(cbn; tauto) La).
  apply (ph_ignored N tol kf km dir dir' (s ++ ".hdf5") y f f' fo fc); try assumption. apply suffix_stem; [exact S|discriminate|cbn; intuition discriminate|cbn; intuition discriminate].
Qed.
Print Assumptions C81_named_file_refuted.

(** Non-vacuity *)
Example C81_stem : stem "quartz" /\ located "data/quartz.json" ("quartz" ++ ".json") /\ (forall ext base, In ext known_extensions -> "quartz.JSON" <> base ++ ext).
Proof. exact stem_meets. Qed.
Example C81_directory : exists dir y fc, d_file dir ("force_constants" ++ ".hdf5") = Some (ForceFile (mkFA 1 1 (fun _ _ _ _ => 0%R))) /\
  d_file dir "phonopy.yaml" = Some (SummaryFile y) /\ s_fc y = Some fc.
Proof.
  exists {| d_file := fun n => if String.eqb n "phonopy.yaml" then Some (SummaryFile (mkSum (s_lattice no_summary) [] [] (s_supercell_matrix no_summary) None (Some (mkFA 2 2 (fun _ _ _ _ => 1%R))) None None None))
    else Some (ForceFile (mkFA 1 1 (fun _ _ _ _ => 0%R))); d_text := None; d_born := None |}.
  eexists. eexists. split; [reflexivity|]. split; reflexivity.
Qed.
