{
 "claims": [
  {
   "property": "C01",
   "status": "proved",
   "theorems": [
    "C01_reciprocal_cell_dual",
    "C01_cell_volume",
    "C01_reciprocal_volume",
    "C01_frac_cart_roundtrip",
    "C01_cart_frac_roundtrip"
   ],
   "note": ""
  },
  {
   "property": "C02",
   "status": "proved",
   "theorems": [
    "C02_mp_grid_complete",
    "C02_mp_grid_positions"
   ],
   "note": ""
  },
  {
   "property": "C03",
   "status": "proved",
   "theorems": [
    "C03_mp_grid_spec"
   ],
   "note": ""
  },
  {
   "property": "C04",
   "status": "partial",
   "theorems": [
    "C04_get_all_origins_box_partial",
    "C04_step_duplicates_refuted",
    "C04_step_error_refuted"
   ],
   "note": "The full statement is false of the code as modelled; the *_refuted theorem(s) give the witness, the other theorems what does hold."
  },
  {
   "property": "C05",
   "status": "proved",
   "theorems": [
    "C05_shell_origins",
    "C05_shells_partition_cube"
   ],
   "note": ""
  },
  {
   "property": "C06",
   "status": "partial",
   "theorems": [
    "C06_polar_time_reversal",
    "C06_polar_hermitian",
    "C06_polar_periodic_partial",
    "C06_zone_face_refuted",
    "C06_short_range_periodic",
    "C06_short_range_time_reversal",
    "C06_short_range_hermitian",
    "C06_solver_sees_full_matrix"
   ],
   "note": "The full statement is false of the code as modelled; the *_refuted theorem(s) give the witness, the other theorems what does hold."
  },
  {
   "property": "C07",
   "status": "proved",
   "theorems": [
    "C07_results_follow_input_order",
    "C07_reduction_invisible",
    "C07_c_is_gamma"
   ],
   "note": ""
  },
  {
   "property": "C08",
   "status": "partial",
   "theorems": [
    "C08_insert_gamma_qpts",
    "C08_insert_gamma_weights",
    "C08_total_weight_float_partial",
    "C08_directions_of_copies",
    "C08_total_weight_int_refuted",
    "C08_default_weights_refuted"
   ],
   "note": "The full statement is false of the code as modelled; the *_refuted theorem(s) give the witness, the other theorems what does hold."
  },
  {
   "property": "C09",
   "status": "partial",
   "theorems": [
    "C09_direction_only_partial",
    "C09_integer_direction_refuted",
    "C09_symmetric",
    "C09_transverse"
   ],
   "note": "The full statement is false of the code as modelled; the *_refuted theorem(s) give the witness, the other theorems what does hold."
  },
  {
   "property": "C10",
   "status": "partial",
   "theorems": [
    "C10_orthogonal_shared_equally_partial",
    "C10_shared_equally_partial",
    "C10_gamma_sum_partial",
    "C10_near_image_exists",
    "C10_orthogonal_gamma_sum_partial",
    "C10_orthogonal_search_complete",
    "C10_compact_search_complete",
    "C10_compact_shapes",
    "C10_skewed_supercell_refuted"
   ],
   "note": "The full statement is false of the code as modelled; the *_refuted theorem(s) give the witness, the other theorems what does hold."
  },
  {
   "property": "C11",
   "status": "partial",
   "theorems": [
    "C11_dyn_mat_gradient",
    "C11_mode_gradient_real_mode_partial",
    "C11_imaginary_mode_sign_refuted"
   ],
   "note": "The full statement is false of the code as modelled; the *_refuted theorem(s) give the witness, the other theorems what does hold."
  },
  {
   "property": "C12",
   "status": "partial",
   "theorems": [
    "C12_any_order_matches_python_partial",
    "C12_offdiagonal_dielectric_refuted",
    "C12_lookup_alone_partial",
    "C12_lookup_ends",
    "C12_shared_lookup_race_refuted"
   ],
   "note": "The full statement is false of the code as modelled; the *_refuted theorem(s) give the witness, the other theorems what does hold."
  },
  {
   "property": "C13",
   "status": "partial",
   "theorems": [
    "C13_c_determinant_difference",
    "C13_c_determinant_refuted"
   ],
   "note": "The full statement is false of the code as modelled; the *_refuted theorem(s) give the witness, the other theorems what does hold."
  },
  {
   "property": "C14",
   "status": "partial",
   "theorems": [
    "C14_doubles_partial",
    "C14_complex_partial",
    "C14_integers_partial",
    "C14_as_given_partial",
    "C14_fortran_refuted",
    "C14_narrow_refuted",
    "C14_integers_as_doubles_refuted",
    "C14_float_origins_refuted"
   ],
   "note": "The full statement is false of the code as modelled; the *_refuted theorem(s) give the witness, the other theorems what does hold."
  },
  {
   "property": "C15",
   "status": "partial",
   "theorems": [
    "C15_realspace_partial",
    "C15_uncorrected",
    "C15_obeyed_kept",
    "C15_interpolated_gamma_partial",
    "C15_translation_refuted",
    "C15_degenerate_refuted",
    "C15_reciprocal_partial",
    "C15_reciprocal_phase_refuted"
   ],
   "note": "The full statement is false of the code as modelled; the *_refuted theorem(s) give the witness, the other theorems what does hold."
  },
  {
   "property": "C16",
   "status": "partial",
   "theorems": [
    "C16_history",
    "C16_warning_refuted"
   ],
   "note": "The full statement is false of the code as modelled; the *_refuted theorem(s) give the witness, the other theorems what does hold."
  },
  {
   "property": "C17",
   "status": "partial",
   "theorems": [
    "C17_units_only_change_display",
    "C17_shown_value",
    "C17_plain_getter_partial",
    "C17_unit_checked",
    "C17_assign_read",
    "C17_assign_read_plain",
    "C17_failed_assignment_refuted",
    "C17_inverse_unit_refuted",
    "C17_accepted_unit_unreadable_refuted",
    "C17_collection_unit_unchecked_refuted"
   ],
   "note": "The full statement is false of the code as modelled; the *_refuted theorem(s) give the witness, the other theorems what does hold."
  },
  {
   "property": "C18",
   "status": "partial",
   "theorems": [
    "C18_crystal",
    "C18_qpoint_frequencies",
    "C18_phonon_modes",
    "C18_structure_factor",
    "C18_debye_waller",
    "C18_force_constants",
    "C18_spectrum1d",
    "C18_spectrum2d",
    "C18_fortran_order_refuted",
    "C18_real_eigenvectors_refuted",
    "C18_empty_crystal_refuted",
    "C18_no_qpoints_refuted",
    "C18_tuple_metadata_refuted",
    "C18_array_metadata_refuted"
   ],
   "note": "The full statement is false of the code as modelled; the *_refuted theorem(s) give the witness, the other theorems what does hold."
  },
  {
   "property": "C19",
   "status": "partial",
   "theorems": [
    "C19_table",
    "C19_first_named",
    "C19_crystal",
    "C19_qpoint_frequencies",
    "C19_phonon_modes",
    "C19_structure_factor",
    "C19_debye_waller",
    "C19_force_constants",
    "C19_spectrum1d",
    "C19_spectrum2d",
    "C19_collection1d",
    "C19_collection2d",
    "C19_errors",
    "C19_scalar_refuted",
    "C19_unnamed_refuted"
   ],
   "note": "The full statement is false of the code as modelled; the *_refuted theorem(s) give the witness, the other theorems what does hold."
  },
  {
   "property": "C20",
   "status": "partial",
   "theorems": [
    "C20_dos_counts_modes",
    "C20_full_range_area_three",
    "C20_last_edge_refuted"
   ],
   "note": "The full statement is false of the code as modelled; the *_refuted theorem(s) give the witness, the other theorems what does hold."
  },
  {
   "property": "C21",
   "status": "partial",
   "theorems": [
    "C21_map_averages_to_dos_partial",
    "C21_zero_weight_refuted"
   ],
   "note": "The full statement is false of the code as modelled; the *_refuted theorem(s) give the witness, the other theorems what does hold."
  },
  {
   "property": "C22",
   "status": "proved",
   "theorems": [
    "C22_pdos_sums_to_dos",
    "C22_weightings_add",
    "C22_neutron_weights"
   ],
   "note": ""
  },
  {
   "property": "C23",
   "status": "proved",
   "theorems": [
    "C23_formula",
    "C23_nonnegative",
    "C23_phase_translation_scale",
    "C23_time_reversal"
   ],
   "note": ""
  },
  {
   "property": "C24",
   "status": "partial",
   "theorems": [
    "C24_weights_dropped_refuted",
    "C24_explicit_weights_partial",
    "C24_equal_weights_partial"
   ],
   "note": "The full statement is false of the code as modelled; the *_refuted theorem(s) give the witness, the other theorems what does hold."
  },
  {
   "property": "C25",
   "status": "partial",
   "theorems": [
    "C25_positive_semidefinite_partial",
    "C25_chunks_irrelevant",
    "C25_formula",
    "C25_cutoff",
    "C25_zero_frequency_refuted"
   ],
   "note": "The full statement is false of the code as modelled; the *_refuted theorem(s) give the witness, the other theorems what does hold."
  },
  {
   "property": "C26",
   "status": "partial",
   "theorems": [
    "C26_detailed_balance",
    "C26_zero_temperature",
    "C26_no_temperature_refuted",
    "C26_imaginary_inverted"
   ],
   "note": "The full statement is false of the code as modelled; the *_refuted theorem(s) give the witness, the other theorems what does hold."
  },
  {
   "property": "C27",
   "status": "proved",
   "theorems": [
    "C27_bins",
    "C27_integral",
    "C27_succeeds"
   ],
   "note": ""
  },
  {
   "property": "C28",
   "status": "partial",
   "theorems": [
    "C28_mode_lost_refuted",
    "C28_permutation_partial",
    "C28_follows_modes_partial",
    "C28_matched_steps",
    "C28_unmatched_step"
   ],
   "note": "The full statement is false of the code as modelled; the *_refuted theorem(s) give the witness, the other theorems what does hold."
  },
  {
   "property": "C29",
   "status": "partial",
   "theorems": [
    "C29_edge_axis",
    "C29_centre_axis",
    "C29_other_lengths_refused",
    "C29_regular_round_trip_refuted",
    "C29_evenness_check",
    "C29_even_points_rejected_refuted",
    "C29_no_bins_refused"
   ],
   "note": "The full statement is false of the code as modelled; the *_refuted theorem(s) give the witness, the other theorems what does hold."
  },
  {
   "property": "C30",
   "status": "partial",
   "theorems": [
    "C30_split_loses_nothing",
    "C30_edge_axis_refuted",
    "C30_automatic_breakpoints",
    "C30_unordered_refuted",
    "C30_both_refused",
    "C30_negative_index_refuted"
   ],
   "note": "The full statement is false of the code as modelled; the *_refuted theorem(s) give the witness, the other theorems what does hold."
  },
  {
   "property": "C31",
   "status": "proved",
   "theorems": [
    "C31_round_trip",
    "C31_unambiguous",
    "C31_own_entries_win"
   ],
   "note": ""
  },
  {
   "property": "C32",
   "status": "partial",
   "theorems": [
    "C32_sum",
    "C32_group_by_partitions",
    "C32_groups_sum_to_whole",
    "C32_select",
    "C32_select_no_match",
    "C32_select_order_refuted",
    "C32_select_once_refuted"
   ],
   "note": "The full statement is false of the code as modelled; the *_refuted theorem(s) give the witness, the other theorems what does hold."
  },
  {
   "property": "C33",
   "status": "partial",
   "theorems": [
    "C33_scale_in_place_partial",
    "C33_scaled_copy",
    "C33_collection_2d_refuted",
    "C33_collection_2d_copy_refuted",
    "C33_inverse_unit_refuted"
   ],
   "note": "The full statement is false of the code as modelled; the *_refuted theorem(s) give the witness, the other theorems what does hold."
  },
  {
   "property": "C34",
   "status": "partial",
   "theorems": [
    "C34_integer_index",
    "C34_position",
    "C34_integer_out_of_range",
    "C34_sequence_index",
    "C34_slice_partial",
    "C34_full_slice_refuted",
    "C34_long_slice_refuted",
    "C34_empty_slice_refuted"
   ],
   "note": "The full statement is false of the code as modelled; the *_refuted theorem(s) give the witness, the other theorems what does hold."
  },
  {
   "property": "C35",
   "status": "partial",
   "theorems": [
    "C35_weight_split_partial",
    "C35_widest_point_partial",
    "C35_spacing_above_one"
   ],
   "note": ""
  },
  {
   "property": "C36",
   "status": "partial",
   "theorems": [
    "C36_gauss_monotone_partial",
    "C36_lorentz_refuted",
    "C36_lorentz_constant_refuted"
   ],
   "note": "The full statement is false of the code as modelled; the *_refuted theorem(s) give the witness, the other theorems what does hold."
  },
  {
   "property": "C37",
   "status": "partial",
   "theorems": [
    "C37_direct",
    "C37_indirect",
    "C37_usual_angles",
    "C37_one_energy",
    "C37_wide_range_refuted"
   ],
   "note": "The full statement is false of the code as modelled; the *_refuted theorem(s) give the witness, the other theorems what does hold."
  },
  {
   "property": "C38",
   "status": "partial",
   "theorems": [
    "C38_exact_count",
    "C38_exact_count_small",
    "C38_grid_partial",
    "C38_polar_grid_refuted",
    "C38_improved_minimum",
    "C38_unknown_method",
    "C38_case_insensitive_refuted",
    "C38_message_refuted",
    "C38_projected_grid",
    "C38_polar_grid"
   ],
   "note": "The full statement is false of the code as modelled; the *_refuted theorem(s) give the witness, the other theorems what does hold."
  },
  {
   "property": "C39",
   "status": "partial",
   "theorems": [
    "C39_golden_square",
    "C39_regular_square_partial",
    "C39_own_cell",
    "C39_regular_square_refuted",
    "C39_recurrence",
    "C39_golden_columns"
   ],
   "note": "The full statement is false of the code as modelled; the *_refuted theorem(s) give the witness, the other theorems what does hold."
  },
  {
   "property": "C40",
   "status": "proved",
   "theorems": [
    "C40_abscissa_steps",
    "C40_abscissa_monotone"
   ],
   "note": ""
  },
  {
   "property": "C41",
   "status": "partial",
   "theorems": [
    "C41_labelled_positions_partial",
    "C41_direction_change_refuted",
    "C41_reversal_refuted"
   ],
   "note": "The full statement is false of the code as modelled; the *_refuted theorem(s) give the witness, the other theorems what does hold."
  },
  {
   "property": "C42",
   "status": "proved",
   "theorems": [
    "C42_species_partition"
   ],
   "note": ""
  },
  {
   "property": "C43",
   "status": "proved",
   "theorems": [
    "C43_reported_atoms_are_equivalent",
    "C43_raises_unless_unique"
   ],
   "note": ""
  },
  {
   "property": "C44",
   "status": "partial",
   "theorems": [
    "C44_relative_index_exact",
    "C44_chunk_size_irrelevant",
    "C44_force_constants_placed_partial",
    "C44_other_copy_refuted"
   ],
   "note": "The full statement is false of the code as modelled; the *_refuted theorem(s) give the witness, the other theorems what does hold."
  },
  {
   "property": "C45",
   "status": "proved",
   "theorems": [
    "C45_unit_phase",
    "C45_orthonormal",
    "C45_eigenvectors",
    "C45_structure_factor"
   ],
   "note": ""
  },
  {
   "property": "C46",
   "status": "partial",
   "theorems": [
    "C46_average",
    "C46_total",
    "C46_prefer_unsplit",
    "C46_two_unsplit",
    "C46_plain",
    "C46_separated_refuted",
    "C46_phonopy"
   ],
   "note": "The full statement is false of the code as modelled; the *_refuted theorem(s) give the witness, the other theorems what does hold."
  },
  {
   "property": "C47",
   "status": "partial",
   "theorems": [
    "C47_all_records",
    "C47_payload",
    "C47_integer",
    "C47_integers",
    "C47_floats",
    "C47_marker_mismatch",
    "C47_marker_mismatch_items",
    "C47_truncated",
    "C47_end_of_file",
    "C47_negative_marker",
    "C47_odd_length_refuted"
   ],
   "note": "The full statement is false of the code as modelled; the *_refuted theorem(s) give the witness, the other theorems what does hold."
  },
  {
   "property": "C48",
   "status": "partial",
   "theorems": [
    "C48_contents",
    "C48_cut_in_block",
    "C48_cut_in_header",
    "C48_header_hang_refuted",
    "C48_missing_blocks_refuted",
    "C48_split_hides_missing_refuted"
   ],
   "note": "The full statement is false of the code as modelled; the *_refuted theorem(s) give the witness, the other theorems what does hold."
  },
  {
   "property": "C49",
   "status": "partial",
   "theorems": [
    "C49_mode_widths_partial",
    "C49_mode_widths_left_handed_refuted"
   ],
   "note": "The full statement is false of the code as modelled; the *_refuted theorem(s) give the witness, the other theorems what does hold."
  },
  {
   "property": "C50",
   "status": "proved",
   "theorems": [
    "C50_insert_gamma",
    "C50_break_points",
    "C50_breaks_follow_insertion",
    "C50_tick_labels"
   ],
   "note": ""
  },
  {
   "property": "C51",
   "status": "partial",
   "theorems": [
    "C51_subtracts_partial",
    "C51_one_cell_round_trip_partial",
    "C51_dielectric_unit_scales",
    "C51_dielectric_unit_refuted",
    "C51_skewed_refuted"
   ],
   "note": "The full statement is false of the code as modelled; the *_refuted theorem(s) give the witness, the other theorems what does hold."
  },
  {
   "property": "C52",
   "status": "partial",
   "theorems": [
    "C52_both_or_neither",
    "C52_born_needs_dielectric",
    "C52_born_only_refuted",
    "C52_other_errors_tell",
    "C52_dielectric_only_refuted",
    "C52_setter_refuted",
    "C52_castep_refuted"
   ],
   "note": "The full statement is false of the code as modelled; the *_refuted theorem(s) give the witness, the other theorems what does hold."
  },
  {
   "property": "C53",
   "status": "partial",
   "theorems": [
    "C53_home_cell_included",
    "C53_one_atom_refuted"
   ],
   "note": "The full statement is false of the code as modelled; the *_refuted theorem(s) give the witness, the other theorems what does hold."
  },
  {
   "property": "C54",
   "status": "partial",
   "theorems": [
    "C54_label_sound_partial",
    "C54_wrong_label_refuted",
    "C54_gamma_label_refuted",
    "C54_negative_point_refuted"
   ],
   "note": "The full statement is false of the code as modelled; the *_refuted theorem(s) give the witness, the other theorems what does hold."
  },
  {
   "property": "C55",
   "status": "partial",
   "theorems": [
    "C55_default_bins_cover_partial",
    "C55_negative_refuted"
   ],
   "note": "The full statement is false of the code as modelled; the *_refuted theorem(s) give the witness, the other theorems what does hold."
  },
  {
   "property": "C56",
   "status": "partial",
   "theorems": [
    "C56_single_width_exact_partial",
    "C56_peak_is_kernel",
    "C56_far_tail_refuted",
    "C56_width_is_fwhm",
    "C56_lower_limit"
   ],
   "note": "The full statement is false of the code as modelled; the *_refuted theorem(s) give the witness, the other theorems what does hold."
  },
  {
   "property": "C57",
   "status": "proved",
   "theorems": [
    "C57_site_symmetry"
   ],
   "note": ""
  },
  {
   "property": "C58",
   "status": "partial",
   "theorems": [
    "C58_adding_collections",
    "C58_adding_spectra",
    "C58_different_axes_refuted"
   ],
   "note": "The full statement is false of the code as modelled; the *_refuted theorem(s) give the witness, the other theorems what does hold."
  },
  {
   "property": "C59",
   "status": "partial",
   "theorems": [
    "C59_lines_shown",
    "C59_maps_shown_partial",
    "C59_maps_raw_refuted"
   ],
   "note": "The full statement is false of the code as modelled; the *_refuted theorem(s) give the witness, the other theorems what does hold."
  },
  {
   "property": "C60",
   "status": "partial",
   "theorems": [
    "C60_golden",
    "C60_projected_grid",
    "C60_improved",
    "C60_golden_places",
    "C60_grid_places",
    "C60_random_places",
    "C60_polar_grid_refuted",
    "C60_even_latitudes_refuted"
   ],
   "note": "The full statement is false of the code as modelled; the *_refuted theorem(s) give the witness, the other theorems what does hold."
  },
  {
   "property": "C61",
   "status": "proved",
   "theorems": [
    "C61_on_shell"
   ],
   "note": ""
  },
  {
   "property": "C62",
   "status": "partial",
   "theorems": [
    "C62_cover",
    "C62_all_imaginary_refuted"
   ],
   "note": "The full statement is false of the code as modelled; the *_refuted theorem(s) give the witness, the other theorems what does hold."
  },
  {
   "property": "C63",
   "status": "proved",
   "theorems": [
    "C63_round_trip",
    "C63_truncated"
   ],
   "note": ""
  },
  {
   "property": "C64",
   "status": "partial",
   "theorems": [
    "C64_force_constants_ignored_refuted",
    "C64_force_constants_refuted",
    "C64_born_refuted",
    "C64_dielectric_refuted"
   ],
   "note": "The full statement is false of the code as modelled; the *_refuted theorem(s) give the witness, the other theorems what does hold."
  },
  {
   "property": "C65",
   "status": "partial",
   "theorems": [
    "C65_modes_partial",
    "C65_complete_partial",
    "C65_realspace",
    "C65_realspace_modes_partial",
    "C65_reciprocal_partial",
    "C65_only_errors",
    "C65_weights",
    "C65_wrong_weights"
   ],
   "note": ""
  },
  {
   "property": "C66",
   "status": "partial",
   "theorems": [
    "C66_entries_partial",
    "C66_shipped",
    "C66_whole_numbers_refuted",
    "C66_bluebook_refuted",
    "C66_errors"
   ],
   "note": "The full statement is false of the code as modelled; the *_refuted theorem(s) give the witness, the other theorems what does hold."
  },
  {
   "property": "C67",
   "status": "partial",
   "theorems": [
    "C67_placed_partial",
    "C67_coordinate_one_refuted",
    "C67_supercell_matrix_refuted",
    "C67_no_reduced_to_refuted"
   ],
   "note": "The full statement is false of the code as modelled; the *_refuted theorem(s) give the witness, the other theorems what does hold."
  },
  {
   "property": "C68",
   "status": "proved",
   "theorems": [
    "C68_nac_units"
   ],
   "note": ""
  },
  {
   "property": "C69",
   "status": "partial",
   "theorems": [
    "C69_summary_first",
    "C69_formats_partial",
    "C69_short_extensions_refuted",
    "C69_unknown_format_refuted"
   ],
   "note": "The full statement is false of the code as modelled; the *_refuted theorem(s) give the witness, the other theorems what does hold."
  },
  {
   "property": "C70",
   "status": "partial",
   "theorems": [
    "C70_sources_partial",
    "C70_summary_priority_refuted",
    "C70_no_dielectric_refuted"
   ],
   "note": "The full statement is false of the code as modelled; the *_refuted theorem(s) give the witness, the other theorems what does hold."
  },
  {
   "property": "C71",
   "status": "proved",
   "theorems": [
    "C71_text_back",
    "C71_truncated",
    "C71_wrong_shape",
    "C71_hdf5"
   ],
   "note": ""
  },
  {
   "property": "C72",
   "status": "partial",
   "theorems": [
    "C72_contents",
    "C72_collection",
    "C72_spectrum",
    "C72_area",
    "C72_sum_of_species",
    "C72_gradient_unit_refuted",
    "C72_total_element_refuted"
   ],
   "note": "The full statement is false of the code as modelled; the *_refuted theorem(s) give the witness, the other theorems what does hold."
  },
  {
   "property": "C73",
   "status": "partial",
   "theorems": [
    "C73_marks",
    "C73_bad_table",
    "C73_short_table_refuted",
    "C73_one_bin_refuted"
   ],
   "note": "The full statement is false of the code as modelled; the *_refuted theorem(s) give the witness, the other theorems what does hold."
  },
  {
   "property": "C74",
   "status": "partial",
   "theorems": [
    "C74_yaml",
    "C74_yaml_crystal",
    "C74_band_hdf5",
    "C74_points_hdf5_refuted",
    "C74_not_modes_refuted"
   ],
   "note": "The full statement is false of the code as modelled; the *_refuted theorem(s) give the witness, the other theorems what does hold."
  },
  {
   "property": "C75",
   "status": "partial",
   "theorems": [
    "C75_format",
    "C75_eigenvectors_needed",
    "C75_eigenvectors_needed_hdf5",
    "C75_commensurate",
    "C75_units_refuted"
   ],
   "note": "The full statement is false of the code as modelled; the *_refuted theorem(s) give the witness, the other theorems what does hold."
  },
  {
   "property": "C76",
   "status": "partial",
   "theorems": [
    "C76_function",
    "C76_function_points_refuted",
    "C76_gauss",
    "C76_lorentz_partial",
    "C76_lorentz_width_refuted",
    "C76_total",
    "C76_uneven_bins",
    "C76_fine_bins_refuted",
    "C76_zero_gauss",
    "C76_descending_refuted",
    "C76_zero_lorentz_refuted",
    "C76_lines"
   ],
   "note": "The full statement is false of the code as modelled; the *_refuted theorem(s) give the witness, the other theorems what does hold."
  },
  {
   "property": "C77",
   "status": "partial",
   "theorems": [
    "C77_gauss_map",
    "C77_lorentz_map_partial",
    "C77_function_y",
    "C77_function_x",
    "C77_function_points_refuted",
    "C77_order",
    "C77_new_object_partial",
    "C77_same_object_refuted"
   ],
   "note": "The full statement is false of the code as modelled; the *_refuted theorem(s) give the witness, the other theorems what does hold."
  },
  {
   "property": "C78",
   "status": "partial",
   "theorems": [
    "C78_total",
    "C78_all_species_partial",
    "C78_chosen_partial",
    "C78_drawn",
    "C78_one_species_refuted",
    "C78_one_species_error_refuted"
   ],
   "note": "The full statement is false of the code as modelled; the *_refuted theorem(s) give the witness, the other theorems what does hold."
  },
  {
   "property": "C79",
   "status": "partial",
   "theorems": [
    "C79_plain",
    "C79_fixed_width",
    "C79_adaptive_partial",
    "C79_instrument_width_refuted",
    "C79_zero_scale_refuted",
    "C79_alias",
    "C79_weighted",
    "C79_weighted_runs",
    "C79_adaptive_lorentz_partial",
    "C79_refused"
   ],
   "note": "The full statement is false of the code as modelled; the *_refuted theorem(s) give the witness, the other theorems what does hold."
  },
  {
   "property": "C80",
   "status": "partial",
   "theorems": [
    "C80_q_axis",
    "C80_no_range",
    "C80_energy_axis",
    "C80_samples",
    "C80_dos_map_partial",
    "C80_dos_map_grid_partial",
    "C80_broadening_partial",
    "C80_widths",
    "C80_kinematics",
    "C80_energy_range_refuted",
    "C80_coherent",
    "C80_dos_average",
    "C80_dos_average_runs",
    "C80_pdos_partial",
    "C80_one_species_refuted",
    "C80_pdos_refused",
    "C80_coherent_runs",
    "C80_pdos_runs_partial"
   ],
   "note": "The full statement is false of the code as modelled; the *_refuted theorem(s) give the witness, the other theorems what does hold."
  },
  {
   "property": "C81",
   "status": "partial",
   "theorems": [
    "C81_castep",
    "C81_unknown",
    "C81_json_modes",
    "C81_json_frequencies",
    "C81_json_force_constants",
    "C81_json_refused",
    "C81_structure_factor_refuted",
    "C81_phonopy_modes",
    "C81_phonopy_force",
    "C81_phonopy_needs_summary",
    "C81_named_file_refuted"
   ],
   "note": "The full statement is false of the code as modelled; the *_refuted theorem(s) give the witness, the other theorems what does hold."
  },
  {
   "property": "C82",
   "status": "partial",
   "theorems": [
    "C82_grid_points",
    "C82_eigenmodes_partial",
    "C82_ignored",
    "C82_unknown_type",
    "C82_npts",
    "C82_density_refuted",
    "C82_dictionary_refuted",
    "C82_gradients_refuted",
    "C82_grid",
    "C82_zero"
   ],
   "note": "The full statement is false of the code as modelled; the *_refuted theorem(s) give the witness, the other theorems what does hold."
  },
  {
   "property": "C83",
   "status": "partial",
   "theorems": [
    "C83_map",
    "C83_map_of_modes",
    "C83_energy_axis",
    "C83_covers",
    "C83_scale",
    "C83_broadening_partial",
    "C83_polynomial_refuted",
    "C83_break_refuted",
    "C83_refused",
    "C83_ticks",
    "C83_coherent",
    "C83_coherent_of_modes"
   ],
   "note": "The full statement is false of the code as modelled; the *_refuted theorem(s) give the witness, the other theorems what does hold."
  },
  {
   "property": "C84",
   "status": "partial",
   "theorems": [
    "C84_bands_partial",
    "C84_runs",
    "C84_sides",
    "C84_copies",
    "C84_break_refuted",
    "C84_spacing_refuted",
    "C84_loaded",
    "C84_reorder_partial",
    "C84_refused",
    "C84_any_asr",
    "C84_reorder_force_partial",
    "C84_realspace",
    "C84_solvers"
   ],
   "note": "The full statement is false of the code as modelled; the *_refuted theorem(s) give the witness, the other theorems what does hold."
  },
  {
   "property": "C85",
   "status": "proved",
   "theorems": [
    "C85_structure_factor",
    "C85_runs",
    "C85_temperature_clash",
    "C85_reuse",
    "C85_default_bins",
    "C85_dos",
    "C85_pdos",
    "C85_pdos_sums_to_dos"
   ],
   "note": ""
  },
  {
   "property": "C86",
   "status": "partial",
   "theorems": [
    "C86_lines",
    "C86_frame",
    "C86_ticks",
    "C86_runs",
    "C86_labels_refused",
    "C86_tick_refused",
    "C86_unlabelled_region_refuted",
    "C86_regions",
    "C86_regions_run",
    "C86_units_refused",
    "C86_zero_range_refuted",
    "C86_image",
    "C86_image_runs",
    "C86_maps_partial",
    "C86_maps_run",
    "C86_map_units_refuted",
    "C86_gap_first_refuted"
   ],
   "note": "The full statement is false of the code as modelled; the *_refuted theorem(s) give the witness, the other theorems what does hold."
  },
  {
   "property": "C87",
   "status": "partial",
   "theorems": [
    "C87_columns",
    "C87_single",
    "C87_reserved",
    "C87_first_column_refuted"
   ],
   "note": "The full statement is false of the code as modelled; the *_refuted theorem(s) give the witness, the other theorems what does hold."
  },
  {
   "property": "C88",
   "status": "partial",
   "theorems": [
    "C88_scan_double",
    "C88_parameters",
    "C88_suggestion",
    "C88_qpts",
    "C88_jobs",
    "C88_idle",
    "C88_first_time_refuted",
    "C88_maximum_refuted",
    "C88_runs",
    "C88_errors"
   ],
   "note": "The full statement is false of the code as modelled; the *_refuted theorem(s) give the witness, the other theorems what does hold."
  },
  {
   "property": "C89",
   "status": "partial",
   "theorems": [
    "C89_sphere",
    "C89_sphere_grids",
    "C89_square",
    "C89_regular_square",
    "C89_cube",
    "C89_powder",
    "C89_refused",
    "C89_few_refuted",
    "C89_jitter_refuted"
   ],
   "note": "The full statement is false of the code as modelled; the *_refuted theorem(s) give the witness, the other theorems what does hold."
  },
  {
   "property": "C90",
   "status": "partial",
   "theorems": [
    "C90_acoustic_partial",
    "C90_realspace_partial",
    "C90_dipole_rows",
    "C90_balanced",
    "C90_isotropic",
    "C90_charged_refuted"
   ],
   "note": "The full statement is false of the code as modelled; the *_refuted theorem(s) give the witness, the other theorems what does hold."
  },
  {
   "property": "C91",
   "status": "proved",
   "theorems": [
    "C91_rounding",
    "C91_grid",
    "C91_positions",
    "C91_grid_gamma",
    "C91_reduction",
    "C91_equivalent",
    "C91_model",
    "C91_gamma",
    "C91_gamma_far"
   ],
   "note": ""
  },
  {
   "property": "C92",
   "status": "proved",
   "theorems": [
    "C92_modes",
    "C92_dos",
    "C92_debye_waller",
    "C92_maps",
    "C92_mode_structure_factors_differ",
    "C92_calculation",
    "C92_equivalent_qpts",
    "C92_gradients_differ",
    "C92_gradient_sums"
   ],
   "note": ""
  },
  {
   "property": "C93",
   "status": "partial",
   "theorems": [
    "C93_each_alone",
    "C93_all_together",
    "C93_residuals",
    "C93_exact",
    "C93_slices",
    "C93_other_data",
    "C93_gamma_refuted",
    "C93_defaults_refuted",
    "C93_widths_refuted"
   ],
   "note": "The full statement is false of the code as modelled; the *_refuted theorem(s) give the witness, the other theorems what does hold."
  },
  {
   "property": "C94",
   "status": "partial",
   "theorems": [
    "C94_origin",
    "C94_origin_structure_factors",
    "C94_description_partial",
    "C94_maps_partial",
    "C94_reciprocal_cell"
   ],
   "note": ""
  },
  {
   "property": "C95",
   "status": "partial",
   "theorems": [
    "C95_settings",
    "C95_outputs",
    "C95_cases",
    "C95_zero_refuted",
    "C95_base_grows",
    "C95_same_list_refuted"
   ],
   "note": "The full statement is false of the code as modelled; the *_refuted theorem(s) give the witness, the other theorems what does hold."
  },
  {
   "property": "C96",
   "status": "partial",
   "theorems": [
    "C96_counts_partial",
    "C96_solvers",
    "C96_history",
    "C96_adaptive",
    "C96_realspace"
   ],
   "note": ""
  },
  {
   "property": "C97",
   "status": "partial",
   "theorems": [
    "C97_meaning",
    "C97_nothing_ignored",
    "C97_unknown_option",
    "C97_exclusive",
    "C97_order",
    "C97_needed",
    "C97_manual",
    "C97_manual_options",
    "C97_exclusions",
    "C97_file_swallowed_refuted",
    "C97_bare_shape_refuted",
    "C97_features",
    "C97_features_refuted"
   ],
   "note": "The full statement is false of the code as modelled; the *_refuted theorem(s) give the witness, the other theorems what does hold."
  },
  {
   "property": "C98",
   "status": "partial",
   "theorems": [
    "C98_typed",
    "C98_arguments",
    "C98_arguments_modes",
    "C98_errors",
    "C98_counts_partial",
    "C98_bare_partial",
    "C98_looks",
    "C98_order"
   ],
   "note": ""
  },
  {
   "property": "C99",
   "status": "partial",
   "theorems": [
    "C99_counts_partial",
    "C99_coherent_partial",
    "C99_pdos_partial",
    "C99_axis_partial",
    "C99_solvers",
    "C99_history",
    "C99_realspace"
   ],
   "note": ""
  },
  {
   "property": "C100",
   "status": "partial",
   "theorems": [
    "C100_typed",
    "C100_refused",
    "C100_settings",
    "C100_order",
    "C100_counts_partial",
    "C100_coherent_partial",
    "C100_bare_partial",
    "C100_solvers"
   ],
   "note": ""
  },
  {
   "property": "C101",
   "status": "partial",
   "theorems": [
    "C101_typed",
    "C101_refused",
    "C101_settings",
    "C101_order",
    "C101_bands_partial",
    "C101_runs",
    "C101_bare_partial",
    "C101_loaded",
    "C101_solvers"
   ],
   "note": ""
  },
  {
   "property": "C102",
   "status": "partial",
   "theorems": [
    "C102_typed",
    "C102_refused",
    "C102_settings",
    "C102_order",
    "C102_map_partial",
    "C102_runs",
    "C102_bare_partial",
    "C102_loaded_partial",
    "C102_loaded_runs",
    "C102_solvers",
    "C102_realspace"
   ],
   "note": ""
  }
 ]
}