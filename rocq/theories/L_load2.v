(** Lemmas for C81: JSON files class by class, Phonopy files. *)
From Coq Require Import String Ascii.
From Verif Require Import Base Cpx Vec3 M_phonopy M_phmodes M_json S_json L_json L_json2 M_load S_load L_load.
Open Scope string_scope.

Section J.
Context {U A : Type}.
Variables (print : U -> string) (parse : string -> option U).
Hypothesis rt : forall u, parse (print u) = Some u.
Notation pyv := (pyv U).
Notation load := (@load_euphonic_json U A parse).

(** A complex array read without being told so *)
Lemma entry_complex_plain types k n d (data : list sc) : (0 < n)%nat -> length data = size (n :: d) -> Forall complex data -> types k = None ->
  exists v, entry (U := U) types (k, PArr DComplex128 true (n :: d) data) (k, v).
Proof.
  intros P L F T. exists (PArr (dtype_of (split_complex data)) true (cut (n :: d ++ [2%nat])%list) (split_complex data)). split; [reflexivity|]. cbn [fst snd].
  assert (L2 : length (split_complex data) = size ((n :: d) ++ [2%nat])%list) by (rewrite split_length by exact F; rewrite size_app, L; reflexivity).
  destruct (dump_tolist (U := U) ((n :: d) ++ [2%nat])%list _ L2 (split_real data F)) as (j & E1 & E2). exists (tolist ((n :: d) ++ [2%nat])%list (split_complex data)), j.
  split; [reflexivity|]. split; [exact E1|]. rewrite E2.
  pose proof (np_tolist (U := U) _ _ L2) as N. destruct (tolist_list (U := U) n (d ++ [2%nat])%list (split_complex data)) as (l & El). change ((n :: d) ++ [2%nat])%list with (n :: (d ++ [2%nat]))%list in *. rewrite El in *.
  cbn [from_json_dict]. rewrite T. unfold from_json_list. rewrite N. reflexivity.
Qed.

Variables (cell : pyv) (cu : U) (n : nat) (r t m : pyv) (mu : U).
Hypothesis P : crystal_parts n cell r t m.
Notation crystal := (crystal_obj cell cu n r t m mu).
Notation crystal' := (crystal_obj (again cell) cu n (again r) (again t) (again m) mu).

Ltac shape H := destruct H as (? & ? & ? & -> & _).
Ltac entries := repeat match goal with
  | |- Forall2 _ [] [] => constructor
  | |- Forall2 _ (_ :: _) (_ :: _) => constructor
  | |- Forall2 _ (_ :: _) _ => econstructor
  | |- Forall2 _ [] _ => econstructor
  end.
Ltac reduce := cbv -[dtype_of crystal_from_dict cr_dict crystal_obj again positions Z.of_nat Nat.mul tick_labels]; rewrite ?rt.
Ltac finish E := cbn [again fst snd or_none]; unfold from_dict, process_dict, set_missing; reduce; rewrite ?E; repeat (progress reduce); reflexivity.

Lemma modes_as_frequencies cls version nq q f fu ev w : (0 < nq)%nat -> plain_array [nq; 3%nat] q -> plain_array [nq; (3 * n)%nat] f -> Forall complex ev -> length ev = size [nq; 3 * n; n; 3]%nat -> plain_array [nq] w ->
  exists j, to_json_file print cls version (modes_obj crystal nq q (PQty f fu) (PArr DComplex128 true [nq; 3 * n; n; 3]%nat ev) w) = Ok j /\
  from_json_file parse QpointFrequencies j = Ok [("crystal", crystal'); ("qpts", again q); ("frequencies", PQty (again f) fu); ("weights", again w)].
Proof.
  intros Hq Q F X1 X2 W. pose proof P as (_ & B & D & _). destruct (entry_complex_plain (k_types QpointFrequencies) "eigenvectors" nq [3 * n; n; 3]%nat ev Hq X2 X1 eq_refl) as (v & Ev).
  edestruct (file_back print (k_types QpointFrequencies) cls version) as (j & E1 & E2); [| |exists j; split; [exact E1|]].
  - unfold modes_obj. rewrite to_dict_obj. cbn [flat_map fst snd]. rewrite fields_crystal by assumption. rewrite (fields_array print _ _ q Q), (fields_array print _ _ w W). cbn [fields app or_none fst snd]. reflexivity.
  - entries; [apply cr_entry; [repeat split|exact P]|apply entry_scalar; exact I|apply entry_mag; [apply (mag_array _ _ _ Q); apply inner1; exact Hq|reflexivity]|apply entry_mag; [apply (mag_array _ _ _ F); apply inner1; exact Hq|reflexivity]|apply entry_scalar; exact I|exact Ev|apply entry_mag; [apply (mag_array _ _ _ W); exact I|reflexivity]].
  - unfold from_json_file. rewrite E2. clear Ev E1 E2. shape Q. shape F. shape W. finish (cr_back print parse rt _ cu _ _ _ _ mu P).
Qed.
Lemma structure_factor_as_frequencies cls version nq nm q f fu s su w : (0 < nq)%nat -> plain_array [nq; 3%nat] q -> plain_array [nq; nm] f -> plain_array [nq; nm] s -> plain_array [nq] w ->
  exists j, to_json_file print cls version (structure_factor_obj crystal nq q (PQty f fu) (PQty s su) w PNone) = Ok j /\
  from_json_file parse QpointFrequencies j = Ok [("crystal", crystal'); ("qpts", again q); ("frequencies", PQty (again f) fu); ("weights", again w)].
Proof.
  intros Hq Q F S W. pose proof P as (_ & B & D & _).
  edestruct (file_back print (k_types QpointFrequencies) cls version) as (j & E1 & E2); [| |exists j; split; [exact E1|]].
  - unfold structure_factor_obj. rewrite to_dict_obj. cbn [flat_map fst snd]. rewrite fields_crystal by assumption. rewrite (fields_array print _ _ q Q), (fields_array print _ _ w W). cbn [fields app or_none fst snd]. reflexivity.
  - entries; [apply cr_entry; [repeat split|exact P]|apply entry_scalar; exact I|apply entry_mag; [apply (mag_array _ _ _ Q); apply inner1; exact Hq|reflexivity]|apply entry_mag; [apply (mag_array _ _ _ F); apply inner1; exact Hq|reflexivity]|apply entry_scalar; exact I|apply entry_mag; [apply (mag_array _ _ _ S); apply inner1; exact Hq|reflexivity]|apply entry_scalar; exact I|apply entry_mag; [apply (mag_array _ _ _ W); exact I|reflexivity]].
  - unfold from_json_file. rewrite E2. shape Q. shape F. shape S. shape W. finish (cr_back print parse rt _ cu _ _ _ _ mu P).
Qed.

Ltac keys Q W := pose proof P as (_ & B & D & _); rewrite to_dict_obj; cbn [flat_map fst snd]; rewrite fields_crystal by assumption; rewrite ?(fields_array print _ _ _ Q), ?(fields_array print _ _ _ W); cbn [fields app or_none fst snd]; reflexivity.

Lemma json_frequencies cls version nq nm q f fu w fo : (0 < nq)%nat -> plain_array [nq; 3%nat] q -> plain_array [nq; nm] f -> plain_array [nq] w ->
  exists j, to_json_file print cls version (frequencies_obj crystal nq q (PQty f fu) w) = Ok j /\
  load fo j = Ok (CFrequencies, FromJson [("crystal", crystal'); ("qpts", again q); ("frequencies", PQty (again f) fu); ("weights", again w)]).
Proof.
  intros Hq Q F W. destruct (qf_json print parse rt cls version cell cu n r t m mu nq nm q f fu w P Hq Q F W) as (j & E1 & E2). exists j. split; [exact E1|].
  pose proof (fun l K => json_dispatch (A := A) print parse cls version _ l j fo K E1) as T; erewrite T; [|keys Q W]. cbn -[from_json_file]. rewrite E2. reflexivity.
Qed.
Lemma json_modes cls version nq q f fu ev w : (0 < nq)%nat -> (0 < n)%nat -> plain_array [nq; 3%nat] q -> plain_array [nq; (3 * n)%nat] f -> Forall complex ev -> length ev = size [nq; 3 * n; n; 3]%nat -> plain_array [nq] w ->
  let e := PArr DComplex128 true [nq; 3 * n; n; 3]%nat ev in
  exists j, to_json_file print cls version (modes_obj crystal nq q (PQty f fu) e w) = Ok j /\
  load false j = Ok (CModes, FromJson [("crystal", crystal'); ("qpts", again q); ("frequencies", PQty (again f) fu); ("eigenvectors", e); ("weights", again w)]) /\
  load true j = Ok (CFrequencies, FromJson [("crystal", crystal'); ("qpts", again q); ("frequencies", PQty (again f) fu); ("weights", again w)]).
Proof.
  intros Hq Hn Q F X1 X2 W e. destruct (qpm_json print parse rt cls version cell cu n r t m mu nq q f fu ev w P Hq Hn Q F X1 X2 W) as (j & E1 & E2). exists j. split; [exact E1|].
  destruct (modes_as_frequencies cls version nq q f fu ev w Hq Q F X1 X2 W) as (j' & E3 & E4).
  assert (j' = j) by (unfold modes_obj in E3; congruence). subst j'.
  pose proof (fun fo l K => json_dispatch (A := A) print parse cls version _ l j fo K E1) as T. split; (erewrite T; [|keys Q W]).
  - cbn -[from_json_file Nat.mul]. rewrite E2. reflexivity.
  - cbn -[from_json_file Nat.mul]. rewrite E4. reflexivity.
Qed.
Lemma json_structure_factor cls version nq nm q f fu s su w fo : (0 < nq)%nat -> plain_array [nq; 3%nat] q -> plain_array [nq; nm] f -> plain_array [nq; nm] s -> plain_array [nq] w ->
  exists j, to_json_file print cls version (structure_factor_obj crystal nq q (PQty f fu) (PQty s su) w PNone) = Ok j /\
  load fo j = Ok (CFrequencies, FromJson [("crystal", crystal'); ("qpts", again q); ("frequencies", PQty (again f) fu); ("weights", again w)]).
Proof.
  intros Hq Q F S W. destruct (structure_factor_as_frequencies cls version nq nm q f fu s su w Hq Q F S W) as (j & E1 & E2). exists j. split; [exact E1|].
  pose proof (fun l K => json_dispatch (A := A) print parse cls version _ l j fo K E1) as T; erewrite T; [|unfold structure_factor_obj; keys Q W]. cbn -[from_json_file]. rewrite E2. reflexivity.
Qed.
Lemma json_force cls version nc f fu sc co born diel fo : (0 < nc)%nat -> (0 < n)%nat -> plain_array [nc; (3 * n)%nat; (3 * n)%nat] f -> plain_array [3%nat; 3%nat] sc -> plain_array [nc; 3%nat] co ->
  match born with Some x => plain_array [n; 3%nat; 3%nat] (fst x) | None => True end -> match diel with Some x => plain_array [3%nat; 3%nat] (fst x) | None => True end ->
  exists j, to_json_file print cls version (force_constants_obj crystal (PQty f fu) nc sc co (optional_quantity born) (optional_quantity diel)) = Ok j /\
  load fo j = Ok (CForce, FromJson [("crystal", crystal'); ("force_constants", PQty (again f) fu); ("sc_matrix", again sc); ("cell_origins", again co); ("born", again_optional born); ("dielectric", again_optional diel)]).
Proof.
  intros Hc Hn F S O Bo Di. destruct (fc_json print parse rt cls version cell cu n r t m mu nc f fu sc co born diel P Hc Hn F S O Bo Di) as (j & E1 & E2). exists j. split; [exact E1|].
  destruct born as [[? ?]|]; destruct diel as [[? ?]|]; (pose proof (fun l K => json_dispatch (A := A) print parse cls version _ l j fo K E1) as T; erewrite T; [|keys S O]); (cbn -[from_json_file]; rewrite E2; reflexivity).
Qed.
(** Anything else *)
Lemma json_refused cls version o l j fo : to_dict print o = PDict l -> ~ In "force_constants" (map fst l) -> ~ In "frequencies" (map fst l) ->
  to_json_file print cls version o = Ok j -> load fo j = Err NotEuphonicData.
Proof.
  intros E N1 N2 F. rewrite (json_dispatch print parse cls version o l j fo E F). cbv zeta.
  assert (G : forall k, ~ In k (map fst l) -> existsb (String.eqb k) (map fst l) = false).
  { intros k H. destruct (existsb (String.eqb k) (map fst l)) eqn:X; [|reflexivity]. apply existsb_exists in X. destruct X as (x & I & Ex). apply String.eqb_eq in Ex. subst x. contradiction. }
  rewrite !G by assumption. reflexivity.
Qed.
End J.

Section Ph.
Context {U A : Type}.
Variables (N : nat) (tol : R) (kf : factors) (km : mfactors).
Notation loadp := (@load_phonopy_file U A N tol kf km).

Lemma ph_modes dir name c s m : d_file dir name = Some (ModesFile c) -> d_file dir "phonopy.yaml" = Some (SummaryFile s) ->
  read_modes km None name c s true = Ok m -> loadp dir name false = Ok (CModes, FromPhonopyModes m).
Proof. intros E1 E2 E3. unfold load_phonopy_file, from_phonopy_modes. rewrite E1, E2, E3. reflexivity. Qed.
Lemma ph_frequencies dir name c s fo m : d_file dir name = Some (ModesFile c) -> d_file dir "phonopy.yaml" = Some (SummaryFile s) ->
  fo = true \/ read_modes km None name c s true = Err NoEvec ->
  read_modes km None name c s false = Ok m -> loadp dir name fo = Ok (CFrequencies, FromPhonopyModes m).
Proof.
  intros E1 E2 D E3. unfold load_phonopy_file, from_phonopy_modes. rewrite E1, E2, E3. destruct fo; [reflexivity|]. destruct D as [D | ->]; [discriminate|reflexivity].
Qed.
Lemma ph_not_modes dir name : (forall c, d_file dir name <> Some (ModesFile c)) -> d_file dir name <> None ->
  forall e, from_phonopy_modes km dir name e = Err MissingKey.
Proof. intros H1 H2 e. unfold from_phonopy_modes. destruct (d_file dir name) as [[c|s|f]|]; [contradiction (H1 c); reflexivity|reflexivity|reflexivity|congruence]. Qed.

Lemma ph_force_file dir name s f fo : d_file dir name = Some (ForceFile f) -> suffix name = ".hdf5" -> extension name = "hdf5" ->
  d_file dir "phonopy.yaml" = Some (SummaryFile s) -> s_fc s = None -> forall t,
  loadp dir name fo = match read_interpolation_data N tol kf s None name t f (d_born dir) with Ok r => Ok (CForce, FromPhonopyForce r) | Err e => Err (ForceErr e) end.
Proof.
  intros E1 E2 E3 E4 E5 t. unfold load_phonopy_file, from_phonopy_modes. rewrite E1, E2. cbv iota.
  assert (F : from_phonopy_force N tol kf dir "phonopy.yaml" name (d_born dir) = match read_interpolation_data N tol kf s None name t f (d_born dir) with Ok r => Ok r | Err e => Err (ForceErr e) end).
  { unfold from_phonopy_force. rewrite E4, E5. unfold fc_file_kind. rewrite E3. cbn [mem hdf5_exts existsb String.eqb]. rewrite E1.
    change (substring_of "hdf5" "hdf5") with true. cbv beta iota zeta.
    unfold read_interpolation_data, the_force_constants. rewrite E5. unfold fc_file_kind. rewrite E3. reflexivity. }
  unfold is_file. rewrite E4, F. change (String.eqb ".hdf5" ".hdf5") with true. destruct fo; destruct (read_interpolation_data _ _ _ _ _ _ _ _ _); reflexivity.
Qed.
Lemma ph_summary dir name s fo : d_file dir name = Some (SummaryFile s) -> suffix name = ".yaml" ->
  (forall fc t f, s_fc s = Some fc -> loadp dir name fo = match read_interpolation_data N tol kf s None name t f (d_born dir) with Ok r => Ok (CForce, FromPhonopyForce r) | Err e => Err (ForceErr e) end) /\
  (forall f t, s_fc s = None -> d_file dir "force_constants.hdf5" = Some (ForceFile f) ->
    loadp dir name fo = match read_interpolation_data N tol kf s None "force_constants.hdf5" t f (d_born dir) with Ok r => Ok (CForce, FromPhonopyForce r) | Err e => Err (ForceErr e) end) /\
  (forall f t, s_fc s = None -> d_file dir "force_constants.hdf5" = None -> d_text dir = Some t ->
    loadp dir name fo = match read_interpolation_data N tol kf s None "FORCE_CONSTANTS" t f (d_born dir) with Ok r => Ok (CForce, FromPhonopyForce r) | Err e => Err (ForceErr e) end).
Proof.
  intros E1 E2. unfold load_phonopy_file, from_phonopy_modes. rewrite E1, E2. change (String.eqb ".yaml" ".hdf5") with false. cbv beta iota.
  assert (X : forall (r : res (class * data U A) lerr), match (if fo then Ok None else Ok None) with Ok (Some x) => Ok x | Ok None => r | Err e => Err e end = r) by (destruct fo; reflexivity).
  split; [|split].
  - intros fc t f E3. rewrite X. unfold from_phonopy_force. rewrite E1, E3.
    assert (Y : forall nm t' f', read_interpolation_data N tol kf s None nm t' f' (d_born dir) = read_interpolation_data N tol kf s None name t f (d_born dir)).
    { intros. unfold read_interpolation_data, the_force_constants. rewrite E3. reflexivity. }
    rewrite (Y (if is_file dir "force_constants.hdf5" then "force_constants.hdf5" else "FORCE_CONSTANTS")). destruct (read_interpolation_data _ _ _ _ _ _ _ _ _); reflexivity.
  - intros f t E3 E4. rewrite X. unfold is_file. rewrite E4. unfold from_phonopy_force. rewrite E1, E3, E4. change (fc_file_kind None "force_constants.hdf5") with (@Ok fc_kind M_phonopy.perr Hdf5). cbv beta iota zeta.
    assert (Y : read_interpolation_data N tol kf s None "force_constants.hdf5" ([], []) f (d_born dir) = read_interpolation_data N tol kf s None "force_constants.hdf5" t f (d_born dir)).
    { unfold read_interpolation_data, the_force_constants. rewrite E3. reflexivity. }
    rewrite Y. destruct (read_interpolation_data _ _ _ _ _ _ _ _ _); reflexivity.
  - intros f t E3 E4 E5. rewrite X. unfold is_file. rewrite E4. unfold from_phonopy_force. rewrite E1, E3, E5. change (fc_file_kind None "FORCE_CONSTANTS") with (@Ok fc_kind M_phonopy.perr Text). cbv beta iota zeta.
    assert (Y : forall f', read_interpolation_data N tol kf s None "FORCE_CONSTANTS" t f' (d_born dir) = read_interpolation_data N tol kf s None "FORCE_CONSTANTS" t f (d_born dir)).
    { intros. unfold read_interpolation_data, the_force_constants. rewrite E3. reflexivity. }
    rewrite Y. destruct (read_interpolation_data _ _ _ _ _ _ _ _ _); reflexivity.
Qed.
(** The named file is not read if the summary has force constants of its own. *)
Lemma ph_ignored dir dir' name s f f' fo fc : suffix name = ".hdf5" ->
  d_file dir name = Some (ForceFile f) -> d_file dir' name = Some (ForceFile f') ->
  d_file dir "phonopy.yaml" = Some (SummaryFile s) -> d_file dir' "phonopy.yaml" = Some (SummaryFile s) -> d_born dir' = d_born dir -> s_fc s = Some fc ->
  loadp dir name fo = loadp dir' name fo /\
  loadp dir name fo = match read_interpolation_data N tol kf s None "phonopy.yaml" ([], []) fc (d_born dir) with Ok r => Ok (CForce, FromPhonopyForce r) | Err e => Err (ForceErr e) end.
Proof.
  intros E0 E1 E2 E3 E4 E5 E6.
  assert (G : forall dir f, d_file dir name = Some (ForceFile f) -> d_file dir "phonopy.yaml" = Some (SummaryFile s) ->
    loadp dir name fo = match read_interpolation_data N tol kf s None "phonopy.yaml" ([], []) fc (d_born dir) with Ok r => Ok (CForce, FromPhonopyForce r) | Err e => Err (ForceErr e) end).
  { intros d g F1 F2. unfold load_phonopy_file, from_phonopy_modes. rewrite F1, E0. change (String.eqb ".hdf5" ".hdf5") with true. unfold is_file. rewrite F2. unfold from_phonopy_force. rewrite F2, E6.
    assert (Y : read_interpolation_data N tol kf s None name ([], []) (mkFA 0 0 (fun _ _ _ _ => 0%R)) (d_born d) = read_interpolation_data N tol kf s None "phonopy.yaml" ([], []) fc (d_born d)).
    { unfold read_interpolation_data, the_force_constants. rewrite E6. reflexivity. }
    destruct fo; cbv beta iota zeta; rewrite Y; destruct (read_interpolation_data N tol kf s None "phonopy.yaml" ([], []) fc (d_born d)); reflexivity. }
  rewrite (G dir f E1 E3), (G dir' f' E2 E4), E5. split; reflexivity.
Qed.
Lemma ph_needs_summary dir name f fo : d_file dir name = Some (ForceFile f) -> d_file dir "phonopy.yaml" = None -> suffix name = ".hdf5" -> loadp dir name fo = Err NeedsSummary.
Proof. intros E1 E2 E3. unfold load_phonopy_file, from_phonopy_modes, is_file. rewrite E1, E2, E3. destruct fo; reflexivity. Qed.
End Ph.

Lemma stem_meets : stem "quartz" /\ located "data/quartz.json" ("quartz" ++ ".json") /\ (forall ext base, In ext known_extensions -> "quartz.JSON" <> base ++ ext).
Proof.
  split; [|split].
  - split; [rewrite has_char_in; cbn; intuition discriminate|]. exists "q"%char, "uartz". split; [reflexivity|discriminate].
  - right. exists "data". reflexivity.
  - intros ext base I E. assert (L : last (chars "quartz.JSON") " "%char = last (chars ext) " "%char).
    { rewrite E, chars_app. destruct (chars ext) as [|c l] eqn:X; [cbn in I; destruct I as [<- | [<- | [<- | [<- | [<- | [<- | []]]]]]]; discriminate|].
      clear. induction (chars base) as [|y b IH]; [reflexivity|]. cbn [app]. rewrite <- IH. destruct b; reflexivity. }
    cbn in I. destruct I as [<- | [<- | [<- | [<- | [<- | [<- | []]]]]]]; discriminate L.
Qed.
