(** Property theorems C67-C71: reading Phonopy force constants. *)
From Coq Require Import String Ascii Sorted.
From Verif Require Import Base Vec3 M_grid M_dynmat M_struct M_phonopy S_phonopy L_conv L_phonopy L_phonopy2 L_phonopy3.
Open Scope R_scope.

(** C67.  Every force constant in the file is attached to the pair of atoms it belongs to.  Partial:
    the supercell matrix is symmetric, every supercell point has reduced_to and the coordinates of
    the primitive cell lie in [0, 1); see the three refutations. *)
Theorem C67_placed_partial : forall N tol k f fmt name text h5 born r fc U L K reps,
  (0 < N)%nat -> lattices f U L K -> symmetric_z (s_supercell_matrix f) -> zdet3 K <> 0%Z -> (Z.abs (zdet3 K) < 2 ^ 48)%Z ->
  well_numbered f -> representatives f reps -> separate f K (2 * tol) ->
  (forall p, In p (s_points f) -> in_unit_cell (pt_r p)) ->
  the_force_constants f fmt name text h5 = Ok fc ->
  read_interpolation_data N tol k f fmt name text h5 born = Ok r ->
  placed f fc (k_fc k) L reps tol r /\
  length (r_origins r) = Z.to_nat (Z.abs (zdet3 K)) /\
  (forall n n' (m : Z3), (n < length (r_origins r))%nat -> (n' < length (r_origins r))%nat ->
     nth n' (r_origins r) (0,0,0)%Z = zadd3 (nth n (r_origins r) (0,0,0)%Z) (zmul3 m K) -> n = n') /\
  r_sc r = K /\ r_cell r = mscal (k_len k) (s_lattice f) /\ r_types r = map pt_symbol (s_points f) /\ r_masses r = map (fun p => pt_mass p * k_mass k) (s_points f).
Proof.
  intros N tol k f fmt name text h5 born r fc U L K reps HN HG HS Hd Hb HW HR Hsep Hin Hfc Hread. pose proof (supercell_matrix_right f U L K HG HS) as HK.
  destruct HG as [_ [_ [HL _]]].
  destruct (placement N tol k f fmt name text h5 born r fc L K reps HN HK HL Hd Hb HW HR Hsep Hfc Hread Hin) as [P1 [P2 P3]].
  destruct (read_parts N tol k f fmt name text h5 born r fc K reps HK HW HR Hfc Hread) as [idx [out [_ [_ [E1 [_ [E2 [E3 [_ [E4 _]]]]]]]]]].
  repeat split; assumption.
Qed.
Print Assumptions C67_placed_partial.
(** Non-vacuity: two atoms, A at 0 and B at 1/4, in a supercell of two cells *)
Example C67_chain : let f := chain (1/4) (1/8) in let fc := count_fc 2 4 in
  lattices f identity3 (zrows pair_sc) pair_sc /\ symmetric_z (s_supercell_matrix f) /\ zdet3 pair_sc = 2%Z /\ well_numbered f /\ representatives f [0;2]%nat /\ separate f pair_sc (2 * tol5) /\
  (forall p, In p (s_points f) -> in_unit_cell (pt_r p)) /\
  exists r, read_plain f fc = Ok r /\ r_origins r = [(0,0,0); (1,0,0)]%Z /\ r_fc r 0%nat 0%nat 3%nat = 2 /\ r_fc r 1%nat 0%nat 3%nat = 3 /\ r_fc r 1%nat 3%nat 0%nat = 1.
Proof.
  cbv zeta. split; [apply one_lattices|]. split; [reflexivity|]. split; [reflexivity|]. split; [apply one_numbered|]. split; [apply one_reps|]. split; [apply one_separate|].
  split; [intros p [<-|[<-|[]]]; cbn; lra|]. exact good_read.
Qed.

(** C67, refuted for a coordinate of exactly 1 (0.99999... as printed): the returned position is 0,
    but the cell the force constants are attached to still counts from 1. *)
Theorem C67_coordinate_one_refuted : exists f U L K reps fc r,
  lattices f U L K /\ symmetric_z (s_supercell_matrix f) /\ well_numbered f /\ representatives f reps /\ separate f K (2 * tol5) /\ zdet3 K = 2%Z /\
  s_fc f = Some fc /\ read_plain f fc = Ok r /\ ~ placed f fc 1 L reps tol5 r /\
  (forall p, In p (s_points f) -> let '(x, y, z) := pt_r p in 0 <= x <= 1 /\ 0 <= y < 1 /\ 0 <= z < 1).
Proof. exact coordinate_one. Qed.
Print Assumptions C67_coordinate_one_refuted.

(** C67, refuted for a supercell matrix that is not symmetric: the primitive matrix is transposed
    by the reader, the supercell matrix is not. *)
Theorem C67_supercell_matrix_refuted : exists f U L K reps fc r,
  lattices f U L K /\ well_numbered f /\ representatives f reps /\ separate f K (2 * tol5) /\ zdet3 K = 4%Z /\ (forall p, In p (s_points f) -> in_unit_cell (pt_r p)) /\
  s_fc f = Some fc /\ read_plain f fc = Ok r /\ ~ placed f fc 1 L reps tol5 r.
Proof. exact skew_supercell. Qed.
Print Assumptions C67_supercell_matrix_refuted.

(** C67, refuted for a file without reduced_to (its supercell is the primitive cell): whatever the
    force constants v of two atoms, the rows of the two atoms are exchanged. *)
Theorem C67_no_reduced_to_refuted : forall v, let fc := mkFA 2 2 v in let f := plain identity3 same_pts same_pts unit_M fc in
  exists r, read_plain f fc = Ok r /\ r_origins r = [(0,0,0)]%Z /\
  forall j a b, (j < 2)%nat -> (a < 3)%nat -> (b < 3)%nat -> r_fc r 0%nat a (3 * j + b)%nat = v 1%nat j a b /\ r_fc r 0%nat (3 + a)%nat (3 * j + b)%nat = v 0%nat j a b.
Proof. exact no_reduced_to. Qed.
Print Assumptions C67_no_reduced_to_refuted.

(** C68.  In whatever units the file is and the result is asked for, Born charges and dielectric
    tensor of the result give the non-analytical term that Phonopy computes: factor times
    Z Z / (volume eps), in units of the force constants. *)
Theorem C68_nac_units : forall N tol k u f fmt name text h5 born r c eps zs, conversion u k -> c <> 0 -> det3 (s_lattice f) <> 0 ->
  read_interpolation_data N tol k f fmt name text h5 born = Ok r -> dipole_data f born = Ok (Some c, Some eps, Some zs) ->
  exists zs' eps', r_born r = Some zs' /\ r_diel r = Some eps' /\ length zs' = length zs /\
  forall q i j a b, let z l i := nth i l ((0,0,0),(0,0,0),(0,0,0)) in
    dot q (mulv eps q) <> 0 ->
    nac_term (det3 (r_cell r)) q (z zs' i) (z zs' j) eps' a b * (o_born u * o_born u / (o_len u * o_len u * o_len u * o_diel u))
    = c * nac_term (det3 (s_lattice f)) q (z zs i) (z zs j) eps a b * u_fc u.
Proof. exact nac_units. Qed.
Print Assumptions C68_nac_units.
Example C68_file : forall c eps zs, exists f,
  s_lattice f = identity3 /\ dipole_data f None = Ok (Some c, Some eps, Some zs) /\ exists r, read_plain f (count_fc 2 4) = Ok r.
Proof.
  intros c eps zs. exists (mkSum identity3 (one_pts (1/4)) (one_sc (1/8)) pair_sc None (Some (count_fc 2 4)) (Some c) (Some zs) (Some eps)).
  split; [reflexivity|]. split; [reflexivity|]. destruct good_read as [r [E _]]. revert E. unfold read_plain, read_interpolation_data, chain, plain, the_force_constants, dipole_data, p_to_sc_matrix, sc_atom_r, p_to_sc_matrix.
  cbn [s_lattice s_points s_sc_points s_supercell_matrix s_primitive_matrix s_fc s_nac s_born s_diel]. destruct (idx_in_pcell (one_pts (1/4))); [|discriminate]. destruct (idx_in_pcell _); [|discriminate]. destruct (negb _); [discriminate|].
  destruct (convert_fc_phases _ _ _ _ _ _ _ _ _) as [[out org]|]; [|discriminate]. intros _. eexists. reflexivity.
Qed.

(** C69.  Force constants in the summary are used; otherwise the format of the file follows from
    fc_format or the extension.  The three names of HDF5 files are recognised as such, *)
Theorem C69_summary_first : forall f fmt name text h5 fc, s_fc f = Some fc -> the_force_constants f fmt name text h5 = Ok fc.
Proof. intros f fmt name text h5 fc E. unfold the_force_constants. rewrite E. reflexivity. Qed.
Print Assumptions C69_summary_first.
Theorem C69_formats_partial : 
  (forall x base, x <> "."%char -> ~ In "/"%char (x :: chars base) -> fc_file_kind None (String x base ++ ".hdf5") = Ok Hdf5) /\
  (forall name, ~ In (extension name) ["hdf5"; "hd5"; "h5"]%string -> fc_file_kind None name = Ok Text) /\
  (forall name, fc_file_kind (Some "phonopy"%string) name = Ok Text /\ fc_file_kind (Some "hdf5"%string) name = Ok Hdf5).
Proof.
  split; [exact long_extension|]. split; [|intros name; split; reflexivity]. intros name H. rewrite hdf5_by_extension.
  destruct (mem (extension name) hdf5_exts) eqn:E; [|reflexivity]. exfalso. apply H. unfold mem in E. apply existsb_exists in E. destruct E as [x [Hx E]]. apply String.eqb_eq in E. rewrite E. exact Hx.
Qed.
Print Assumptions C69_formats_partial.
Example C69_names : extension "FORCE_CONSTANTS" = ""%string /\ extension "force_constants.hdf5" = "hdf5"%string /\ extension "run.3/fc.dat" = "dat"%string /\ extension "run.h5/FC" = ""%string /\ fc_file_kind None "FORCE_CONSTANTS" = Ok Text.
Proof. repeat split. Qed.
(** ... but files called *.h5 or *.hd5 are then refused, and fc_format='' reads HDF5. *)
Theorem C69_short_extensions_refuted : forall x base ext, x <> "."%char -> ~ In "/"%char (x :: chars base) -> In ext ["hd5"; "h5"]%string ->
  fc_file_kind None (String x base ++ "." ++ ext) = Err BadFormat.
Proof. exact short_extensions. Qed.
Print Assumptions C69_short_extensions_refuted.
Theorem C69_unknown_format_refuted : exists fmt, fmt <> "hdf5"%string /\ fmt <> "phonopy"%string /\ forall name, fc_file_kind (Some fmt) name = Ok Hdf5.
Proof. exists ""%string. repeat split; discriminate. Qed.
Print Assumptions C69_unknown_format_refuted.

(** C70.  Where factor, dielectric tensor and Born charges come from, in every case. *)
Theorem C70_sources_partial : forall f lines,
  (complete f -> dipole_data f (Some lines) = Ok (s_nac f, s_diel f, s_born f)) /\
  (~ complete f -> forall nac d b, extract_born lines = Ok (nac, d, b) -> nac <> None \/ s_nac f <> None ->
     dipole_data f (Some lines) = Ok (match nac with Some _ => nac | None => s_nac f end, Some d, Some b)) /\
  (~ complete f -> forall nac d b, extract_born lines = Ok (nac, d, b) -> nac = None -> s_nac f = None -> dipole_data f (Some lines) = Err NoFactor) /\
  (s_born f <> None -> s_nac f = None -> dipole_data f None = Err NoFactor) /\
  (s_born f = None \/ s_nac f <> None -> dipole_data f None = Ok (s_nac f, s_diel f, s_born f)).
Proof. exact born_sources. Qed.
Print Assumptions C70_sources_partial.
Example C70_born_file : extract_born [[14]; [1;0;0;0;2;0;0;0;3]; [4;0;0;0;5;0;0;0;6]; [7;0;0;0;8;0;0;0;9]]
  = Ok (Some 14, ((1,0,0),(0,2,0),(0,0,3)), [((4,0,0),(0,5,0),(0,0,6)); ((7,0,0),(0,8,0),(0,0,9))]).
Proof. reflexivity. Qed.
(** Born charges in the summary are replaced by those of the BORN file when the summary lacks the
    conversion factor, although the file is documented to be read only if they cannot be found. *)
Theorem C70_summary_priority_refuted : exists f lines d b, s_born f = Some b /\ s_diel f = Some d /\
  exists nac d' b', dipole_data f (Some lines) = Ok (nac, Some d', Some b') /\ b' <> b /\ d' <> d.
Proof.
  exists (mkSum identity3 [] [] unit_M None None None (Some [identity3]) (Some identity3)), [[14]; [2;0;0;0;2;0;0;0;2]; [2;0;0;0;2;0;0;0;2]], identity3, [identity3].
  split; [reflexivity|]. split; [reflexivity|]. eexists _, _, _. split; [reflexivity|]. split; intros E; injection E; lra.
Qed.
Print Assumptions C70_summary_priority_refuted.
(** Born charges without a dielectric tensor are passed on without one. *)
Theorem C70_no_dielectric_refuted : exists f r zs, read_plain f (count_fc 2 4) = Ok r /\ r_born r = Some zs /\ r_diel r = None.
Proof.
  exists (mkSum identity3 (one_pts (1/4)) (one_sc (1/8)) pair_sc None (Some (count_fc 2 4)) (Some 14) (Some [identity3; identity3]) None).
  destruct good_read as [r [E _]]. revert E. unfold read_plain, read_interpolation_data, chain, plain, the_force_constants, dipole_data, p_to_sc_matrix, sc_atom_r, p_to_sc_matrix.
  cbn [s_lattice s_points s_sc_points s_supercell_matrix s_primitive_matrix s_fc s_nac s_born s_diel]. destruct (idx_in_pcell (one_pts (1/4))); [|discriminate]. destruct (idx_in_pcell _); [|discriminate]. destruct (negb _); [discriminate|].
  destruct (convert_fc_phases _ _ _ _ _ _ _ _ _) as [[out org]|]; [|discriminate]. intros _. eexists _, _. split; [reflexivity|]. split; reflexivity.
Qed.
Print Assumptions C70_no_dielectric_refuted.

(** C71.  A FORCE_CONSTANTS file, full or compact, is read back number by number; a file cut after
    any line, or of a shape that does not fit the crystal, is an error. *)
Theorem C71_text_back : forall n_atoms n_cells r c header v, (r = n_atoms \/ r = n_cells * n_atoms)%nat -> c = (n_cells * n_atoms)%nat -> (0 < n_cells)%nat -> fc_header r c header ->
  exists fc, extract_force_constants n_atoms n_cells header (fc_text r c v) = Ok fc /\ fa_rows fc = r /\ fa_cols fc = c /\
  forall i j a b, (i < r)%nat -> (j < c)%nat -> (a < 3)%nat -> (b < 3)%nat -> fa_val fc i j a b = v i j a b.
Proof. exact text_back. Qed.
Print Assumptions C71_text_back.
Theorem C71_truncated : forall n_atoms n_cells r c header v k, fc_header r c header -> (k < length (fc_text r c v))%nat ->
  extract_force_constants n_atoms n_cells header (firstn k (fc_text r c v)) = Err (if shape_ok n_atoms n_cells r c then BadFile else ShapeMismatch).
Proof. exact truncated_text. Qed.
Print Assumptions C71_truncated.
Theorem C71_wrong_shape : forall n_atoms n_cells r c header lines, fc_header r c header -> ~ ((r = n_atoms \/ r = n_cells * n_atoms) /\ c = n_cells * n_atoms)%nat ->
  extract_force_constants n_atoms n_cells header lines = Err ShapeMismatch.
Proof. exact wrong_shape. Qed.
Print Assumptions C71_wrong_shape.
(** C71.  An array from an HDF5 file is taken as it is if its shape fits, and refused if not. *)
Theorem C71_hdf5 : forall s name text fc, s_fc s = None ->
  let n_atoms := length (s_points s) in let n_cells := (length (s_sc_points s) / n_atoms)%nat in
  let fits := ((fa_rows fc = n_atoms \/ fa_rows fc = n_cells * n_atoms) /\ fa_cols fc = n_cells * n_atoms)%nat in
  (fits -> the_force_constants s (Some "hdf5"%string) name text fc = Ok fc) /\ (~ fits -> the_force_constants s (Some "hdf5"%string) name text fc = Err ShapeMismatch).
Proof. exact hdf5_shape. Qed.
Print Assumptions C71_hdf5.
Example C71_small : fc_header 1 2 [1;2]%Z /\ fc_text 1 2 (fun _ j a b => INR (10 * j + a + b)) =
  [[INR 1; INR 1]; [INR 0; INR 1; INR 2]; [INR 1; INR 2; INR 3]; [INR 2; INR 3; INR 4]; [INR 1; INR 2]; [INR 10; INR 11; INR 12]; [INR 11; INR 12; INR 13]; [INR 12; INR 13; INR 14]].
Proof. split; [left; reflexivity|reflexivity]. Qed.
