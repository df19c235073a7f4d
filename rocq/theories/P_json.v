(** C18: dictionaries and JSON files.  [print] and [parse] are str(unit) and ureg(text); the
    contract is that a printed unit parses to itself (pint refuses offset units such as
    degree_Celsius here).  [again v] is v in fresh memory: same shape, same elements. *)
From Coq Require Import String.
From Verif Require Import M_valid Base Cpx M_json S_json L_json L_json2 L_json3.
Open Scope list_scope.

Section C18.
Context {U : Type}.
Variables (print : U -> string) (parse : string -> option U).
Hypothesis pint : forall u, parse (print u) = Some u.
Notation pyv := (pyv U).
Variables (n : nat) (cell r t mass : pyv) (cu mu : U).
(** A Crystal, with any number of atoms including none *)
Hypothesis C : crystal_parts n cell r t mass.
Notation crystal := (crystal_obj cell cu n r t mass mu).
Notation crystal' := (crystal_obj (again cell) cu n (again r) (again t) (again mass) mu).

Theorem C18_crystal : crystal_from_dict parse (to_dict print crystal) = Ok crystal /\
  forall cls version, exists j, to_json_file print cls version crystal = Ok j /\ crystal_from_json_file parse j = Ok crystal'.
Proof.
  split; [|intros cls version; exact (crystal_json print parse pint cls version cell cu n r t mass mu C)].
  rewrite (cr_to_dict print cell cu n r t mass mu (proj1 (proj2 C)) (proj1 (proj2 (proj2 C)))). exact (cr_same print parse pint cell cu n r t mass mu C).
Qed.
Theorem C18_qpoint_frequencies : forall nq nm q f fu w, (0 < nq)%nat -> plain_array [nq; 3%nat] q -> plain_array [nq; nm] f -> plain_array [nq] w ->
  round_trips print parse QpointFrequencies (frequencies_obj crystal nq q (PQty f fu) w)
    [("crystal", crystal); ("qpts", q); ("frequencies", PQty f fu); ("weights", w)]%string
    [("crystal", crystal'); ("qpts", again q); ("frequencies", PQty (again f) fu); ("weights", again w)]%string.
Proof. intros nq nm q f fu w H1 H2 H3 H4. split; [exact (qf_dict print parse pint _ _ _ _ _ _ _ nq nm q f fu w C H1 H2 H3 H4)|]. intros cls v. exact (qf_json print parse pint cls v _ _ _ _ _ _ _ nq nm q f fu w C H1 H2 H3 H4). Qed.
Theorem C18_phonon_modes : forall nq q f fu ev w, (0 < nq)%nat -> (0 < n)%nat -> plain_array [nq; 3%nat] q -> plain_array [nq; (3 * n)%nat] f -> Forall complex ev -> length ev = size [nq; 3 * n; n; 3]%nat -> plain_array [nq] w ->
  let e := PArr DComplex128 true [nq; 3 * n; n; 3]%nat ev in
  round_trips print parse QpointPhononModes (modes_obj crystal nq q (PQty f fu) e w)
    [("crystal", crystal); ("qpts", q); ("frequencies", PQty f fu); ("eigenvectors", e); ("weights", w)]%string
    [("crystal", crystal'); ("qpts", again q); ("frequencies", PQty (again f) fu); ("eigenvectors", e); ("weights", again w)]%string.
Proof. intros nq q f fu ev w H1 H2 H3 H4 H5 H6 H7. split; [exact (qpm_dict print parse pint _ _ _ _ _ _ _ nq q f fu ev w C H1 H2 H3 H4 H5 H6 H7)|]. intros cls v. exact (qpm_json print parse pint cls v _ _ _ _ _ _ _ nq q f fu ev w C H1 H2 H3 H4 H5 H6 H7). Qed.
Theorem C18_structure_factor : forall nq nm q f fu s su w temp, (0 < nq)%nat -> plain_array [nq; 3%nat] q -> plain_array [nq; nm] f -> plain_array [nq; nm] s -> plain_array [nq] w ->
  match temp with Some x => magnitude (fst x) | None => True end ->
  round_trips print parse StructureFactor (structure_factor_obj crystal nq q (PQty f fu) (PQty s su) w (optional_quantity temp))
    [("crystal", crystal); ("qpts", q); ("frequencies", PQty f fu); ("structure_factors", PQty s su); ("weights", w); ("temperature", optional_quantity temp)]%string
    [("crystal", crystal'); ("qpts", again q); ("frequencies", PQty (again f) fu); ("structure_factors", PQty (again s) su); ("weights", again w); ("temperature", again_optional temp)]%string.
Proof. intros nq nm q f fu s su w temp H1 H2 H3 H4 H5 H6. split; [exact (sf_dict print parse pint _ _ _ _ _ _ _ nq nm q f fu s su w temp C H1 H2 H3 H4 H5 H6)|]. intros cls v. exact (sf_json print parse pint cls v _ _ _ _ _ _ _ nq nm q f fu s su w temp C H1 H2 H3 H4 H5 H6). Qed.
Theorem C18_debye_waller : forall d du tm tu, (0 < n)%nat -> plain_array [n; 3%nat; 3%nat] d -> magnitude tm ->
  round_trips print parse DebyeWaller (debye_waller_obj crystal (PQty d du) (PQty tm tu))
    [("crystal", crystal); ("debye_waller", PQty d du); ("temperature", PQty tm tu)]%string
    [("crystal", crystal'); ("debye_waller", PQty (again d) du); ("temperature", PQty (again tm) tu)]%string.
Proof. intros d du tm tu H1 H2 H3. split; [exact (dw_dict print parse pint _ _ _ _ _ _ _ d du tm tu C H1 H2 H3)|]. intros cls v. exact (dw_json print parse pint cls v _ _ _ _ _ _ _ d du tm tu C H1 H2 H3). Qed.
Theorem C18_force_constants : forall nc f fu sc co born diel, (0 < nc)%nat -> (0 < n)%nat -> plain_array [nc; (3 * n)%nat; (3 * n)%nat] f -> plain_array [3%nat; 3%nat] sc -> plain_array [nc; 3%nat] co ->
  match born with Some x => plain_array [n; 3%nat; 3%nat] (fst x) | None => True end -> match diel with Some x => plain_array [3%nat; 3%nat] (fst x) | None => True end ->
  round_trips print parse ForceConstants (force_constants_obj crystal (PQty f fu) nc sc co (optional_quantity born) (optional_quantity diel))
    [("crystal", crystal); ("force_constants", PQty f fu); ("sc_matrix", sc); ("cell_origins", co); ("born", optional_quantity born); ("dielectric", optional_quantity diel)]%string
    [("crystal", crystal'); ("force_constants", PQty (again f) fu); ("sc_matrix", again sc); ("cell_origins", again co); ("born", again_optional born); ("dielectric", again_optional diel)]%string.
Proof. intros nc f fu sc co born diel H1 H2 H3 H4 H5 H6 H7. split; [exact (fc_dict print parse pint _ _ _ _ _ _ _ nc f fu sc co born diel C H1 H2 H3 H4 H5 H6 H7)|]. intros cls v. exact (fc_json print parse pint cls v _ _ _ _ _ _ _ nc f fu sc co born diel C H1 H2 H3 H4 H5 H6 H7). Qed.
End C18.
Print Assumptions C18_crystal.
Print Assumptions C18_qpoint_frequencies.
Print Assumptions C18_phonon_modes.
Print Assumptions C18_structure_factor.
Print Assumptions C18_debye_waller.
Print Assumptions C18_force_constants.
(** Spectra (1D collections read and write like Spectrum1D, 2D collections like Spectrum2D) *)
Theorem C18_spectrum1d : forall U print parse, (forall u : U, parse (print u) = Some u) -> forall x xu y yu ticks md, magnitude x -> magnitude y -> plain (PDict md) ->
  round_trips print parse Spectrum1D (spectrum1d_obj (PQty x xu) (PQty y yu) (or_none tick_labels ticks) (PDict md))
    [("x_data", PQty x xu); ("y_data", PQty y yu); ("x_tick_labels", or_none tick_labels ticks); ("metadata", metadata_read md)]%string
    [("x_data", PQty (again x) xu); ("y_data", PQty (again y) yu); ("x_tick_labels", or_none tick_labels ticks); ("metadata", metadata_read md)]%string.
Proof. intros U print parse rt x xu y yu ticks md X Y M. split; [exact (s1_dict print parse rt x xu y yu ticks md X Y M)|]. intros cls v. exact (s1_json print parse rt cls v x xu y yu ticks md X Y M). Qed.
Print Assumptions C18_spectrum1d.
Theorem C18_spectrum2d : forall U print parse, (forall u : U, parse (print u) = Some u) -> forall x xu y yu z zu ticks md, magnitude x -> magnitude y -> magnitude z -> plain (PDict md) ->
  round_trips print parse Spectrum2D (spectrum2d_obj (PQty x xu) (PQty y yu) (PQty z zu) (or_none tick_labels ticks) (PDict md))
    [("x_data", PQty x xu); ("y_data", PQty y yu); ("z_data", PQty z zu); ("x_tick_labels", or_none tick_labels ticks); ("metadata", metadata_read md)]%string
    [("x_data", PQty (again x) xu); ("y_data", PQty (again y) yu); ("z_data", PQty (again z) zu); ("x_tick_labels", or_none tick_labels ticks); ("metadata", metadata_read md)]%string.
Proof. intros U print parse rt x xu y yu z zu ticks md X Y Z M. split; [exact (s2_dict print parse rt x xu y yu z zu ticks md X Y Z M)|]. intros cls v. exact (s2_json print parse rt cls v x xu y yu z zu ticks md X Y Z M). Qed.
Print Assumptions C18_spectrum2d.

(** C18 is false of these objects, all of which the constructors accept (C19). *)
(** Complex eigenvectors whose last axis is not contiguous (Fortran order) cannot be written. *)
Theorem C18_fortran_order_refuted : forall U (print : U -> string) cls version cell cu n r t m mu nq q f fu w d data,
  crystal_parts n cell r t m -> (0 < nq)%nat -> plain_array [nq; 3%nat] q -> plain_array [nq; (3 * n)%nat] f -> plain_array [nq] w ->
  to_json_file print cls version (modes_obj (crystal_obj cell cu n r t m mu) nq q (PQty f fu) (PArr DComplex128 false d data) w) = Err ViewError.
Proof. intros U print cls version cell cu n r t m mu nq q f fu w d data P Hq Q F W. exact (fortran_order print cls version cell cu n r t m mu nq q f fu (PArr DComplex128 false d data) w P Hq Q F W d data eq_refl). Qed.
Print Assumptions C18_fortran_order_refuted.
(** Real eigenvectors are written, and the file cannot be read. *)
Theorem C18_real_eigenvectors_refuted : forall U (print : U -> string) (parse : string -> option U) cls version cell cu n r t m mu nq q f fu ev w,
  crystal_parts n cell r t m -> (0 < nq)%nat -> plain_array [nq; 3%nat] q -> plain_array [nq; (3 * n)%nat] f -> plain_array [nq] w -> (0 < n)%nat -> plain_array [nq; 3 * n; n; 3]%nat ev ->
  exists j, to_json_file print cls version (modes_obj (crystal_obj cell cu n r t m mu) nq q (PQty f fu) ev w) = Ok j /\ from_json_file parse QpointPhononModes j = Err BadArray.
Proof. intros U print parse cls version cell cu n r t m mu nq q f fu ev w P Hq Q F W. exact (real_modes print parse cls version cell cu n r t m mu nq q f fu ev w P Hq Q F W). Qed.
Print Assumptions C18_real_eigenvectors_refuted.
(** Modes of an empty crystal likewise *)
Theorem C18_empty_crystal_refuted : forall U (print : U -> string) (parse : string -> option U) cls version cell cu r t m mu nq q f fu w,
  crystal_parts 0 cell r t m -> (0 < nq)%nat -> plain_array [nq; 3%nat] q -> plain_array [nq; 0%nat] f -> plain_array [nq] w ->
  exists j, to_json_file print cls version (modes_obj (crystal_obj cell cu 0 r t m mu) nq q (PQty f fu) (PArr DComplex128 true [nq; 0; 0; 3]%nat []) w) = Ok j /\ from_json_file parse QpointPhononModes j = Err BadArray.
Proof. intros U print parse cls version cell cu r t m mu nq q f fu w P Hq Q F W. exact (no_atoms print parse cls version cell cu 0 r t m mu nq q f fu _ w P Hq Q F W eq_refl eq_refl). Qed.
Print Assumptions C18_empty_crystal_refuted.
(** Without q-points the file is read as q-points of shape (0,), which the constructor refuses. *)
Theorem C18_no_qpoints_refuted : forall U (print : U -> string) (parse : string -> option U), (forall u, parse (print u) = Some u) -> forall cls version cell cu n r t m mu nm q f fu w,
  crystal_parts n cell r t m -> plain_array [0%nat; 3%nat] q -> plain_array [0%nat; nm] f -> plain_array [0%nat] w ->
  (exists j c fr, to_json_file print cls version (frequencies_obj (crystal_obj cell cu n r t m mu) 0 q (PQty f fu) w) = Ok j /\
    from_json_file parse QpointFrequencies j = Ok [("crystal", c); ("qpts", PArr DFloat true [0%nat] []); ("frequencies", fr); ("weights", again w)]%string) /\
  forall conv (hartree : U) a fr w', new_qpoint_frequencies conv hartree (Cry a) (Arr [0%Z]) fr w' = Err (BadShape "qpts").
Proof. intros U print parse rt cls version cell cu n r t m mu nm q f fu w P Q F W. split; [exact (no_qpoints print parse rt cls version cell cu n r t m mu nm q f fu w P Q F W)|reflexivity]. Qed.
Print Assumptions C18_no_qpoints_refuted.
(** A tuple in the metadata comes back as a list; an array in the metadata cannot be written. *)
Theorem C18_tuple_metadata_refuted : forall U (print : U -> string) (parse : string -> option U), (forall u, parse (print u) = Some u) -> forall cls version x xu y yu k l, magnitude x -> magnitude y -> Forall plain l ->
  exists j, to_json_file print cls version (spectrum1d_obj (PQty x xu) (PQty y yu) PNone (PDict [(k, PTup l)])) = Ok j /\
    from_json_file parse Spectrum1D j = Ok [("x_data", PQty (again x) xu); ("y_data", PQty (again y) yu); ("x_tick_labels", PNone); ("metadata", PDict [(k, PList l)])]%string.
Proof. exact @tuple_metadata. Qed.
Print Assumptions C18_tuple_metadata_refuted.
Theorem C18_array_metadata_refuted : forall U (print : U -> string) cls version x xu y yu k dt c d data, magnitude x -> magnitude y ->
  to_json_file print cls version (spectrum1d_obj (PQty x xu) (PQty y yu) PNone (PDict [(k, PArr dt c d data)])) = Err NotSerialisable.
Proof. exact @array_metadata. Qed.
Print Assumptions C18_array_metadata_refuted.

(** One atom, one q-point, three modes with complex eigenvectors; units are their names. *)
Example C18_case :
  let arr := fun d l => @PArr string DFloat true d (map Fl l) in
  let c := crystal_obj (arr [3; 3]%nat [1; 0; 0; 0; 1; 0; 0; 0; 1]%R) "angstrom"%string 1 (arr [1; 3]%nat [0; 0; 0]%R) (PArr DStr true [1%nat] [St "Al"]) (arr [1%nat] [27%R]) "amu"%string in
  let e := PArr DComplex128 true [1; 3; 1; 3]%nat (map Cx [mkC 0 1; Czero; Czero; Czero; Cone; Czero; Czero; Czero; Cone]) in
  exists j, to_json_file (fun u => u) "QpointPhononModes" "1" (modes_obj c 1 (arr [1; 3]%nat [0; 0; / 2]%R) (PQty (arr [1; 3]%nat [1; 2; 3]%R) "meV"%string) e (arr [1%nat] [1%R])) = Ok j /\
    from_json_file Some QpointPhononModes j = Ok [("crystal", c); ("qpts", arr [1; 3]%nat [0; 0; / 2]%R); ("frequencies", PQty (arr [1; 3]%nat [1; 2; 3]%R) "meV"%string); ("eigenvectors", e); ("weights", arr [1%nat] [1%R])]%string.
Proof.
  intros arr c e.
  assert (A : forall d l, length l = size d -> plain_array d (arr d l)). { intros d l E. exists DFloat, true, (map Fl l). split; [reflexivity|]. split; [discriminate|]. split; [rewrite map_length; exact E|]. apply Forall_forall. intros x X. apply in_map_iff in X. destruct X as (y & <- & _). exact I. }
  assert (P : crystal_parts 1 (arr [3; 3]%nat [1; 0; 0; 0; 1; 0; 0; 0; 1]%R) (arr [1; 3]%nat [0; 0; 0]%R) (PArr DStr true [1%nat] [St "Al"]) (arr [1%nat] [27%R])).
  { split; [apply A; reflexivity|]. split; [apply A; reflexivity|]. split; [|apply A; reflexivity]. exists DStr, true, [St "Al"]. repeat split; try discriminate. repeat constructor. }
  exact (proj2 (C18_phonon_modes (fun u => u) Some (fun _ => eq_refl) 1 _ _ _ _ "angstrom"%string "amu"%string P 1 (arr [1; 3]%nat [0; 0; / 2]%R) (arr [1; 3]%nat [1; 2; 3]%R) "meV"%string
    (map Cx [mkC 0 1; Czero; Czero; Czero; Cone; Czero; Czero; Czero; Cone]) (arr [1%nat] [1%R]) (le_n 1) (le_n 1) (A [1; 3]%nat [0; 0; / 2]%R eq_refl) (A [1; 3]%nat [1; 2; 3]%R eq_refl)
    ltac:(repeat constructor) eq_refl (A [1%nat] [1%R] eq_refl)) "QpointPhononModes"%string "1"%string).
Qed.
(** A spectrum with tick labels and metadata *)
Example C18_spectrum_case : plain (@PDict string [("weighting", PScal (St "coherent")); ("line_data", PList [PDict [("species", PScal (St "Si"))]])]%string) /\ magnitude (@PArr string DFloat true [2%nat] [Fl 0; Fl 1]).
Proof.
  split; [repeat constructor|]. left. exists 2%nat, []. split; [exact I|]. exists DFloat, true, [Fl 0; Fl 1]. repeat split; try discriminate. repeat constructor.
Qed.
