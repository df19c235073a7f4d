(** C74, C75: modes read from Phonopy files. *)
From Coq Require Import String.
From Verif Require Import Base Cpx Vec3 M_phonon M_phonopy M_phmodes S_phmodes L_phmodes L_phmodes2.
Open Scope R_scope.

(** YAML files without a crystal: mesh, band and qpoints alike. *)
Theorem C74_yaml : forall d k fmt name s w, modes_kind fmt name = Ok KYaml -> (0 < nq d)%nat -> List.length (s_points s) = na d ->
  exists m ev, read_modes k fmt name (Yaml (yaml_of d w None None)) s true = Ok m /\ same_data d k (crystal_of_summary k s) m /\ m_ev m = Some ev /\ right_modes d (site (crystal_of_summary k s)) ev.
Proof. exact yaml_main. Qed.
Print Assumptions C74_yaml.

(** YAML files with a crystal. *)
Theorem C74_yaml_crystal : forall d k fmt name s w l ps, modes_kind fmt name = Ok KYaml -> List.length ps = na d ->
  exists m ev, read_modes k fmt name (Yaml (yaml_of d w (Some l) (Some (map full ps)))) s true = Ok m /\ same_data d k (crystal_inside k l ps) m /\
    (forall f, w = Some f -> m_w m = Some (convert_weights (map f (idx (nq d))))) /\ m_ev m = Some ev /\ right_modes d (site (crystal_inside k l ps)) ev.
Proof. exact inside_main. Qed.
Print Assumptions C74_yaml_crystal.

(** band.hdf5 *)
Theorem C74_band_hdf5 : forall d k fmt name s segments, modes_kind fmt name = Ok KHdf5 -> (0 < nq d)%nat -> List.length (s_points s) = na d -> List.concat segments = idx (nq d) ->
  exists m ev, read_modes k fmt name (HDF5 (band_h5_of d segments)) s true = Ok m /\ same_data d k (crystal_of_summary k s) m /\ m_w m = None /\ m_ev m = Some ev /\ right_modes d (site (crystal_of_summary k s)) ev.
Proof. exact band_main. Qed.
Print Assumptions C74_band_hdf5.

(** mesh.hdf5 and qpoints.hdf5: q-points, frequencies and weights are right, and component x
    of atom a of mode b is taken from component b mod 3 of atom b / 3 of mode 3a+x. *)
Theorem C74_points_hdf5_refuted : forall d k fmt name s w, modes_kind fmt name = Ok KHdf5 -> (0 < nq d)%nat -> List.length (s_points s) = na d ->
  exists m ev, read_modes k fmt name (HDF5 (points_h5_of d w)) s true = Ok m /\ same_data d k (crystal_of_summary k s) m /\ m_w m = option_map (fun w => convert_weights (map w (idx (nq d)))) w /\ m_ev m = Some ev /\
    forall i b a x, (i < nq d)%nat -> (b < 3 * na d)%nat -> (a < na d)%nat -> (x < 3)%nat ->
      ev i b a x = Cmul (cis (2 * PI * dot (q d i) (vsub (site (crystal_of_summary k s) a) (site (crystal_of_summary k s) (b / 3)%nat)))) (V d i (3 * a + x) (b / 3) (b mod 3)).
Proof. exact points_main. Qed.
Print Assumptions C74_points_hdf5_refuted.

(** So modes of a dynamical matrix come out as vectors that are not modes of it: one atom at
    gamma, whose first mode along (3,4,0)/5 is returned as (3,-4,0)/5. *)
Theorem C74_not_modes_refuted : exists d D m ev, (forall b, (b < 3)%nat -> is_mode 1 D (V d 0 b) (F d 0 b)) /\
  read_modes no_change None "mesh.hdf5" (HDF5 (points_h5_of d None)) (summary_with unit3 [one_point]) true = Ok m /\ m_ev m = Some ev /\ ~ is_mode 1 D (ev 0 0)%nat (F d 0 0).
Proof. destruct turned_row as (m & ev & A & B & N). exists turned, turned_matrix, m, ev. exact (conj turned_modes (conj A (conj B N))). Qed.
Print Assumptions C74_not_modes_refuted.

(** The same modes of one atom in the four kinds of files: all hypotheses hold. *)
Example C74_case : modes_kind None "band.yaml" = Ok KYaml /\ modes_kind None "band.hdf5" = Ok KHdf5 /\ modes_kind (Some "hdf5"%string) "qpoints.test" = Ok KHdf5 /\ (0 < nq turned)%nat /\
  List.length (s_points (summary_with unit3 [one_point])) = na turned /\ List.concat [[0%nat]] = idx (nq turned).
Proof. repeat split; cbn; lia. Qed.

(** The format is phonon_format or, without it, the extension. *)
Theorem C75_format : forall fmt name, modes_kind fmt name =
  let f := match fmt with Some f => f | None => extension name end in
  if in_dec string_dec f ["hdf5"; "hd5"; "h5"]%string then Ok KHdf5 else if in_dec string_dec f ["yaml"; "yml"; "yl"]%string then Ok KYaml else Err BadExt.
Proof. exact kind_main. Qed.
Print Assumptions C75_format.

(** A file without eigenvectors is refused, for that reason unless its frequencies are
    faulty, when modes are asked for. *)
Theorem C75_eigenvectors_needed : forall k fmt name y s, modes_kind fmt name = Ok KYaml -> (exists p b, In p (y_phonon y) /\ In b (yp_band p) /\ yb_evec b = None) ->
  exists e, read_modes k fmt name (Yaml y) s true = Err e /\ ((forall p p', In p (y_phonon y) -> In p' (y_phonon y) -> List.length (yp_band p) = List.length (yp_band p')) -> e = NoEvec).
Proof. exact no_evec_main. Qed.
Print Assumptions C75_eigenvectors_needed.
Theorem C75_eigenvectors_needed_hdf5 : forall k fmt name s, modes_kind fmt name = Ok KHdf5 ->
  (forall q f w, read_modes k fmt name (HDF5 (H5points q f None w)) s true = Err NoEvec) /\ (forall p f, read_modes k fmt name (HDF5 (H5band p f None)) s true = Err NoEvec).
Proof. exact no_evec_h5. Qed.
Print Assumptions C75_eigenvectors_needed_hdf5.

(** A summary file of another number of atoms is refused. *)
Theorem C75_commensurate : forall k fmt name y s ev f fs, modes_kind fmt name = Ok KYaml -> y_lattice y = None ->
  map (fun p => map yb_freq (yp_band p)) (y_phonon y) = f :: fs -> (3 * List.length (s_points s))%nat <> List.length f -> exists e, read_modes k fmt name (Yaml y) s ev = Err e.
Proof. exact commensurate_main. Qed.
Print Assumptions C75_commensurate.

(** The same cell, in a file of modes and in the summary file whose unit of length is not the
    angstrom, is read as two different cells: the summary's unit is only used for its own. *)
Theorem C75_units_refuted : forall k fmt name d w l ps s, modes_kind fmt name = Ok KYaml -> List.length ps = na d -> (0 < nq d)%nat ->
  s = summary_with l (map (fun p : V3 * R * string => let '(r, m, t) := p in mkPt r m t None) ps) -> k_angstrom k <> k_sum_len k -> l <> ((0, 0, 0), (0, 0, 0), (0, 0, 0)) ->
  exists m1 m2, read_modes k fmt name (Yaml (yaml_of d w (Some l) (Some (map full ps)))) s true = Ok m1 /\ read_modes k fmt name (Yaml (yaml_of d w None None)) s true = Ok m2 /\ c_cell (m_cry m1) <> c_cell (m_cry m2).
Proof. exact units_main. Qed.
Print Assumptions C75_units_refuted.
Example C75_case : modes_kind None "mesh.yaml" = Ok KYaml /\ (0 < nq turned)%nat /\ List.length [((0, 0, 0) : V3, 28, "Si"%string)] = na turned /\ (1 : R) <> 529 / 1000 /\ unit3 <> ((0, 0, 0), (0, 0, 0), (0, 0, 0)).
Proof. repeat split; try (cbn; lia); try lra. intros H. injection H. intros. lra. Qed.
