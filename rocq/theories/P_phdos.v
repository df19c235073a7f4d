(** C72, C73: .phonon_dos files. *)
From Verif Require Import Base M_phonon S_phonon M_phdos S_phdos L_phdos L_phdos2.
Open Scope Z_scope.

(** A whole file: q-points, weights, frequencies and gradients in order, the table's first
    column as bins, the second as total, and column 2 + i as the DOS of species i. *)
Theorem C72_contents : forall (L : Type) (P : dparser L) (k : factors) (cu fu gu : unit_name) x na nb nbins cell ats ds rows,
  dfile_says P x na nb nbins cell ats ds rows -> (2 <= nbins)%nat -> length rows = nbins -> wide_table (map at_type ats) rows -> ~ In Total (map at_type ats) ->
  exists d, read_phonon_dos_data P k cu fu gu (dfile_lines x) = Ok d /\
    d_cell d = map (map (fun v => (v * k_len k)%R)) cell /\ d_atoms d = ats /\
    map g_qpt (d_blocks d) = map gpt ds /\ map g_weight (d_blocks d) = map gwt ds /\
    map g_freqs (d_blocks d) = map (fun b => map (fun v => (v * k_freq k)%R) (gfr b)) ds /\
    map g_grads (d_blocks d) = map (fun b => map (fun v => (v * k_len k * k_freq k)%R) (ggr b)) ds /\
    d_bins d = scaled_column 0 (k_freq k) rows /\
    dict_get Total (d_dos d) = Some (scaled_column 1 (k_dos k) rows) /\
    (forall i s, nth_species (map at_type ats) i s -> dict_get s (d_dos d) = Some (scaled_column (2 + i) (k_dos k) rows)) /\
    (forall s, s <> Total -> ~ In s (map at_type ats) -> dict_get s (d_dos d) = None).
Proof. intros L P k cu fu gu x na nb nbins cell ats ds rows. exact (contents_main P k cu fu gu x na nb nbins cell ats ds rows). Qed.
Print Assumptions C72_contents.

(** The collection: the total first, then one line for each species in order of appearance. *)
Theorem C72_collection : forall (L : Type) (P : dparser L) (k : factors) (cu fu gu : unit_name) x na nb nbins cell ats ds rows,
  dfile_says P x na nb nbins cell ats ds rows -> (2 <= nbins)%nat -> length rows = nbins -> wide_table (map at_type ats) rows -> ~ In Total (map at_type ats) ->
  exists lines, collection_of P k cu fu gu (dfile_lines x) = Ok (scaled_column 0 (k_freq k) rows, lines) /\ length lines = (1 + n_species (map at_type ats))%nat /\
    nth_error lines 0 = Some (scaled_column 1 (k_dos k) rows, {| l_species := None; l_label := Total |}) /\
    (forall i s, nth_species (map at_type ats) i s -> nth_error lines (1 + i) = Some (scaled_column (2 + i) (k_dos k) rows, {| l_species := Some s; l_label := s |})).
Proof. intros L P k cu fu gu x na nb nbins cell ats ds rows. exact (collection_main P k cu fu gu x na nb nbins cell ats ds rows). Qed.
Print Assumptions C72_collection.

(** One spectrum: the total, the element asked for, or KeyError. *)
Theorem C72_spectrum : forall (L : Type) (P : dparser L) (k : factors) (cu fu gu : unit_name) x na nb nbins cell ats ds rows,
  dfile_says P x na nb nbins cell ats ds rows -> (2 <= nbins)%nat -> length rows = nbins -> wide_table (map at_type ats) rows -> ~ In Total (map at_type ats) ->
  spectrum_of P k cu fu gu (dfile_lines x) None = Ok (scaled_column 0 (k_freq k) rows, scaled_column 1 (k_dos k) rows, {| l_species := None; l_label := Total |}) /\
  (forall i s, nth_species (map at_type ats) i s -> spectrum_of P k cu fu gu (dfile_lines x) (Some s) = Ok (scaled_column 0 (k_freq k) rows, scaled_column (2 + i) (k_dos k) rows, {| l_species := Some s; l_label := s |})) /\
  (forall s, s <> Total -> ~ In s (map at_type ats) -> spectrum_of P k cu fu gu (dfile_lines x) (Some s) = Err KeyError).
Proof. intros L P k cu fu gu x na nb nbins cell ats ds rows. exact (spectrum_main P k cu fu gu x na nb nbins cell ats ds rows). Qed.
Print Assumptions C72_spectrum.

(** Areas do not depend on the unit when the factors are inverse to each other, and the
    total stays the sum of the species. *)
Theorem C72_area : forall (k : factors) (rows : list (list R)) c, (k_freq k * k_dos k = 1)%R ->
  area (scaled_column 0 (k_freq k) rows) (scaled_column c (k_dos k) rows) = area (map (fun r => nth 0 r 0%R) rows) (map (fun r => nth c r 0%R) rows).
Proof. intros k rows c. exact (area_scaled c (k_freq k) (k_dos k) rows). Qed.
Print Assumptions C72_area.
Theorem C72_sum_of_species : forall n (k : factors) (rows : list (list R)), (forall r, In r rows -> nth 1 r 0%R = Sum (seq 0 n) (fun i => nth (2 + i) r 0%R)) ->
  forall j, nth j (scaled_column 1 (k_dos k) rows) 0%R = Sum (seq 0 n) (fun i => nth j (scaled_column (2 + i) (k_dos k) rows) 0%R).
Proof. intros n k rows. exact (sum_scaled n (k_dos k) rows). Qed.
Print Assumptions C72_sum_of_species.

(** The unit asked for the gradients is ignored. *)
Theorem C72_gradient_unit_refuted : exists (f : list dline) (k : factors) asked d, (k_len k = 1 /\ k_freq k = 1)%R /\
  read_phonon_dos_data printed_dos k (U 0) (U 1) asked f = Ok d /\ d_grad_unit d <> asked.
Proof. exact unit_ignored. Qed.
Print Assumptions C72_gradient_unit_refuted.

(** Asked for the element 'Total', which no crystal has, the reader gives the total DOS and
    names it as the DOS of a species. *)
Theorem C72_total_element_refuted : forall (L : Type) (P : dparser L) (k : factors) (cu fu gu : unit_name) x na nb nbins cell ats ds rows,
  dfile_says P x na nb nbins cell ats ds rows -> (2 <= nbins)%nat -> length rows = nbins -> wide_table (map at_type ats) rows -> ~ In Total (map at_type ats) ->
  exists xs ys m, spectrum_of P k cu fu gu (dfile_lines x) (Some Total) = Ok (xs, ys, m) /\ l_species m = Some Total.
Proof. intros L P k cu fu gu x na nb nbins cell ats ds rows. exact (total_spectrum P k cu fu gu x na nb nbins cell ats ds rows). Qed.
Print Assumptions C72_total_element_refuted.

(** Two atoms of two species, one q-point of six modes, three bins. *)
Example C72_case : dfile_says printed_dos (salt_file 3) 2 6 3 cube salt [salt_q] salt_rows /\ wide_table (map at_type salt) salt_rows /\ ~ In Total (map at_type salt) /\
  nth_species (map at_type salt) 0 [78; 97] /\ nth_species (map at_type salt) 1 [67; 108].
Proof. exact (conj (salt_says 3) (conj (proj1 salt_wide) (conj (proj2 salt_wide) salt_species))). Qed.

(** Nothing is returned from a file that ends before BEGIN DOS: both marks must be there. *)
Theorem C73_marks : forall (L : Type) (P : dparser L) (k : factors) (cu fu gu : unit_name) f d, read_phonon_dos_data P k cu fu gu f = Ok d ->
  (exists y, In y f /\ end_gradients P y = true) /\ (exists y, In y f /\ begin_dos P y = true).
Proof. intros L P k cu fu gu f d. exact (marks_main P k cu fu gu f d). Qed.
Print Assumptions C73_marks.

(** A table that is followed by another line before the announced number of rows, has a row
    of another length, or has too few columns for the species is refused. *)
Theorem C73_bad_table : forall (L : Type) (P : dparser L) (k : factors) (cu fu gu : unit_name) x na nb nbins cell ats ds rows,
  dfile_says P x na nb nbins cell ats ds rows ->
  ((length rows < nbins)%nat -> forall e rest, f_tail x = e :: rest -> table_row P e = Bad -> read_phonon_dos_data P k cu fu gu (dfile_lines x) = Err Parse) /\
  (length rows = nbins -> forall r, In r rows -> length r <> length (hd [] rows) -> read_phonon_dos_data P k cu fu gu (dfile_lines x) = Err Parse) /\
  (length rows = nbins -> (length (hd [] rows) < 2 + n_species (map at_type ats))%nat -> ~ In Total (map at_type ats) -> read_phonon_dos_data P k cu fu gu (dfile_lines x) = Err Parse).
Proof.
  intros L P k cu fu gu x na nb nbins cell ats ds rows S. split; [|split].
  - intros H e rest. exact (end_line P k cu fu gu x na nb nbins cell ats ds rows e rest S H).
  - intros H r. exact (cut_row P k cu fu gu x na nb nbins cell ats ds rows r S H).
  - exact (narrow_table P k cu fu gu x na nb nbins cell ats ds rows S).
Qed.
Print Assumptions C73_bad_table.

(** A file that ends within the table after at least two rows is accepted: the missing bins
    are left out without a word. *)
Theorem C73_short_table_refuted : forall (L : Type) (P : dparser L) (k : factors) (cu fu gu : unit_name) x na nb nbins cell ats ds rows,
  dfile_says P x na nb nbins cell ats ds rows -> (2 <= length rows)%nat -> (length rows < nbins)%nat -> f_tail x = [] -> wide_table (map at_type ats) rows -> ~ In Total (map at_type ats) ->
  exists d, read_phonon_dos_data P k cu fu gu (dfile_lines x) = Ok d /\ d_bins d = scaled_column 0 (k_freq k) rows /\ dict_get Total (d_dos d) = Some (scaled_column 1 (k_dos k) rows).
Proof. intros L P k cu fu gu x na nb nbins cell ats ds rows. exact (short_main P k cu fu gu x na nb nbins cell ats ds rows). Qed.
Print Assumptions C73_short_table_refuted.
Example C73_short_case : dfile_says printed_dos (salt_file 10) 2 6 10 cube salt [salt_q] salt_rows /\ (length salt_rows < 10)%nat /\ f_tail (salt_file 10) = [].
Proof. split; [exact (salt_says 10)|]. split; [|reflexivity]. repeat constructor. Qed.

(** A whole file with a single bin cannot be read. *)
Theorem C73_one_bin_refuted : forall (L : Type) (P : dparser L) (k : factors) (cu fu gu : unit_name) x na nb cell ats ds row,
  dfile_says P x na nb 1 cell ats ds [row] -> read_phonon_dos_data P k cu fu gu (dfile_lines x) = Err Parse.
Proof. intros L P k cu fu gu x na nb cell ats ds row S. exact (few_rows P k cu fu gu x na nb 1 cell ats ds [row] S (or_intror (conj (le_n 2) eq_refl))). Qed.
Print Assumptions C73_one_bin_refuted.
