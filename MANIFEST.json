{
 "claims": [
  {
   "property": "C01",
   "status": "proved",
   "theorems": [
    "C01_counts_conserved",
    "C01_combine_succeeds"
   ],
   "note": "for all datasets, tolerances; conservation needs no assumption on matching"
  },
  {
   "property": "C02",
   "status": "proved",
   "theorems": [
    "C02_row_correspondence",
    "C02_columns_compared_by_name_refuted"
   ],
   "note": "row correspondence for all inputs; additionally a witness that columns are compared by position, not by name"
  },
  {
   "property": "C03",
   "status": "proved",
   "theorems": [
    "C03_aligned",
    "C03_points",
    "C03_sorted"
   ],
   "note": "Lexicographic order with the last coordinate column primary; the function on the stored columns gives exactly the columns of the row-wise result."
  },
  {
   "property": "C04",
   "status": "proved",
   "theorems": [
    "C04_counts_add_pointwise",
    "C04_exact_commutes",
    "C04_default_tolerance_commutes_refuted",
    "C04_result_has_distinct_points_refuted"
   ],
   "note": "exact matching: counts add pointwise and order does not matter; witnesses that both conditions are needed"
  },
  {
   "property": "C05",
   "status": "proved",
   "theorems": [
    "C05_operator_frame",
    "C05_operator_history",
    "C05_mul_div",
    "C05_operator_values",
    "C05_augmented_loses_dataset",
    "C05_augmented_keeps_dataset_refuted"
   ],
   "note": "Operator frame, histories, inverse law; augmented forms; finite results only, integer exponents"
  },
  {
   "property": "C06",
   "status": "proved",
   "theorems": [
    "C06_fresh_intensity",
    "C06_intensity_total",
    "C06_norm_scale_invariant",
    "C06_detector_linear",
    "C06_fresh_error",
    "C06_explicit_error",
    "C06_reference_frozen",
    "C06_combined_renormalises",
    "C06_inplace_combination_normalised_refuted"
   ],
   "note": "Fresh datasets, scaling, linearity, errors (squared), frozen reference; stale reference after in-place combination refuted"
  },
  {
   "property": "C07",
   "status": "proved",
   "theorems": [
    "C07_subtraction_law",
    "C07_self_subtraction",
    "C07_unit_norm",
    "C07_length_mismatch",
    "C07_one_point_background_refuted",
    "C07_subtraction_over_column"
   ],
   "note": "No interpolation key; exact broadcasting behaviour"
  },
  {
   "property": "C08",
   "status": "proved",
   "theorems": [
    "C08_worker_count"
   ],
   "note": "All datasets, requests and process counts; Pool.map modelled as an ordered map"
  },
  {
   "property": "C09",
   "status": "proved",
   "theorems": [
    "C09_cell_averages",
    "C09_binned_columns",
    "C09_every_point_covered",
    "C09_bins_share_boundary",
    "C09_boundary_in_both",
    "C09_points_counted_once_refuted",
    "C09_binned_intensity",
    "C09_error_preserved_refuted",
    "C09_request_honoured_refuted"
   ],
   "note": "Cells, means, errors, coverage; naive count conservation, error preservation and key mapping refuted"
  },
  {
   "property": "C10",
   "status": "proved",
   "theorems": [
    "C10_columns_rectangular",
    "C10_columns_hold_arguments",
    "C10_scalars_one_point",
    "C10_Q_argument",
    "C10_Q_argument_rectangular_refuted"
   ],
   "note": "Including the Q= five-point condition as an iff"
  },
  {
   "property": "C11",
   "status": "proved",
   "theorems": [
    "C11_coordinate_assignment",
    "C11_assignment_history",
    "C11_count_assignment",
    "C11_count_assignment_refuted",
    "C11_columns_kept"
   ],
   "note": "Histories of coordinate assignments; unchecked count setters refuted"
  },
  {
   "property": "C12",
   "status": "proved",
   "theorems": [
    "C12_simple_backgrounds",
    "C12_percent_mean_of_lowest",
    "C12_percent_bounded",
    "C12_percent_monotone",
    "C12_percent_defined_refuted"
   ],
   "note": "Exact rational (C15: real) arithmetic"
  },
  {
   "property": "C13",
   "status": "proved",
   "theorems": [
    "C13_default_selection",
    "C13_zero_h_loses_everything",
    "C13_all_points_used_refuted"
   ],
   "note": "Exact rational (C15: real) arithmetic"
  },
  {
   "property": "C14",
   "status": "proved",
   "theorems": [
    "C14_position_in_range",
    "C14_position_shift",
    "C14_width_nonneg",
    "C14_width_bounded",
    "C14_width_shift",
    "C14_further_columns_refuted",
    "C14_positive_integral_refuted",
    "C14_default_bounds_shift_refuted",
    "C14_background_lowers_integral",
    "C14_integration_columns"
   ],
   "note": "Exact rational (C15: real) arithmetic"
  },
  {
   "property": "C15",
   "status": "proved",
   "theorems": [
    "C15_factor_reflection",
    "C15_susceptibility_odd",
    "C15_cross_section",
    "C15_factor_sign"
   ],
   "note": "Exact rational (C15: real) arithmetic"
  },
  {
   "property": "C16",
   "status": "proved",
   "theorems": [
    "C16_history",
    "C16_summaries",
    "C16_summaries_after_update_refuted",
    "C16_empty_collection_unusable",
    "C16_argument_types"
   ],
   "note": "All histories"
  },
  {
   "property": "C17",
   "status": "proved",
   "theorems": [
    "C17_conversions_inverse",
    "C17_relations",
    "C17_energy_argument_wins",
    "C17_first_argument_counts",
    "C17_some_argument_needed"
   ],
   "note": "Exact conversions over R, constants positive with hbar = h/2pi."
  },
  {
   "property": "C18",
   "status": "proved",
   "theorems": [
    "C18_last_assignment_counts",
    "C18_positive_history"
   ],
   "note": "Histories of arbitrary length."
  },
  {
   "property": "C19",
   "status": "proved",
   "theorems": [
    "C19_scalar_zero",
    "C19_zero_wavevector_raises",
    "C19_array",
    "C19_zero_is_local_refuted"
   ],
   "note": "Includes the refutation of entrywise behaviour for arrays containing a zero."
  },
  {
   "property": "C20",
   "status": "proved",
   "theorems": [
    "C20_reflexive_symmetric",
    "C20_transitive_refuted",
    "C20_equal_values_refuted"
   ],
   "note": "Reflexive, symmetric, not transitive."
  },
  {
   "property": "C21",
   "status": "proved",
   "theorems": [
    "C21_metric_duality",
    "C21_reciprocal_parameters",
    "C21_reciprocal_involution",
    "C21_Bmatrix",
    "C21_Bmatrix_right_angles",
    "C21_Bmatrix_metric_refuted",
    "C21_basis_vectors"
   ],
   "note": "Lattice over R with stdlib real axioms; Bmatrix mismatch characterised exactly and refuted in general."
  },
  {
   "property": "C22",
   "status": "proved",
   "theorems": [
    "C22_q_times_d",
    "C22_multiples",
    "C22_inversion",
    "C22_bragg",
    "C22_q_is_vector_length"
   ],
   "note": ""
  },
  {
   "property": "C23",
   "status": "proved",
   "theorems": [
    "C23_angle",
    "C23_multiples",
    "C23_scaling"
   ],
   "note": ""
  },
  {
   "property": "C24",
   "status": "proved",
   "theorems": [
    "C24_lattice_type",
    "C24_scaling",
    "C24_axis_labels_refuted",
    "C24_triclinic_two_equal_angles_refuted",
    "C24_monoclinic_unique_c_refuted"
   ],
   "note": "Lengths and angles are rationals in the model."
  },
  {
   "property": "C25",
   "status": "proved",
   "theorems": [
    "C25_Umatrix",
    "C25_UB_preserves_Q",
    "C25_UB_preserves_Q_refuted",
    "C25_u_along_first_axis_refuted",
    "C25_u_along_first_axis_cubic",
    "C25_phi_cubic",
    "C25_phi_in_plane_refuted"
   ],
   "note": "U built from indices: expectations for non-cubic cells refuted."
  },
  {
   "property": "C26",
   "status": "proved",
   "theorems": [
    "C26_space_groups",
    "C26_generated"
   ],
   "note": "Over the whole table of 230 groups (SymData.v is generated from symmetry.json); translations are exact rationals."
  },
  {
   "property": "C27",
   "status": "proved",
   "theorems": [
    "C27_orbit",
    "C27_multiplicity"
   ],
   "note": "Over the whole table of 230 groups (SymData.v is generated from symmetry.json); translations are exact rationals."
  },
  {
   "property": "C28",
   "status": "proved",
   "theorems": [
    "C28_parse_component",
    "C28_parse_operation",
    "C28_number_of_components",
    "C28_table_generators",
    "C28_round_trip",
    "C28_no_round_trip",
    "C28_translation_refuted",
    "C28_subtracted_refuted",
    "C28_generators_text",
    "C28_operations_text"
   ],
   "note": "Over the whole table of 230 groups (SymData.v is generated from symmetry.json); translations are exact rationals."
  },
  {
   "property": "C29",
   "status": "proved",
   "theorems": [
    "C29_any_name",
    "C29_no_alias",
    "C29_unknown",
    "C29_assign_known",
    "C29_assign_unknown",
    "C29_assign_unknown_refuted"
   ],
   "note": "Over the whole table of 230 groups (SymData.v is generated from symmetry.json); translations are exact rationals."
  },
  {
   "property": "C30",
   "status": "proved",
   "theorems": [
    "C30_products",
    "C30_closed",
    "C30_stops_closed",
    "C30_wrong_total_refuted",
    "C30_duplicate_generators_refuted"
   ],
   "note": "Over the whole table of 230 groups (SymData.v is generated from symmetry.json); translations are exact rationals."
  },
  {
   "property": "C31",
   "status": "proved",
   "theorems": [
    "C31_names",
    "C31_label",
    "C31_label_name",
    "C31_history",
    "C31_rejected_refuted"
   ],
   "note": "tau over the reals; 2 pi / 2.095 for Cu(111) compared through proved bounds on pi."
  },
  {
   "property": "C32",
   "status": "proved",
   "theorems": [
    "C32_result",
    "C32_defined",
    "C32_idempotent",
    "C32_first_refuted"
   ],
   "note": "Arguments as lists of any type; scalars as one-element lists."
  },
  {
   "property": "C33",
   "status": "proved",
   "theorems": [
    "C33_arrays",
    "C33_complex_arrays",
    "C33_numbers",
    "C33_negative_refuted",
    "C33_complex_refuted",
    "C33_nested",
    "C33_nested_refuted"
   ],
   "note": "Real and complex scalars, arrays, nested lists and tuples. Aliasing (a real array is changed in place) is not part of the theorem."
  },
  {
   "property": "C34",
   "status": "proved",
   "theorems": [
    "C34_form",
    "C34_minimum",
    "C34_integral",
    "C34_order"
   ],
   "note": "n x n matrices over the reals; the Gaussian integral is proved in Gauss.v."
  },
  {
   "property": "C35",
   "status": "proved",
   "theorems": [
    "C35_points",
    "C35_equation",
    "C35_contour",
    "C35_projections",
    "C35_centre",
    "C35_centre_refuted",
    "C35_vertical_refuted"
   ],
   "note": "Over the reals; numpy's arctan2 without signed zeros; 1.17741 is compared with sqrt(2 ln 2) through proved bounds on ln 2."
  },
  {
   "property": "C36",
   "status": "proved",
   "theorems": [
    "C36_kfree",
    "C36_gain",
    "C36_gain_refuted",
    "C36_angle",
    "C36_zero",
    "C36_zero_refuted",
    "C36_directions"
   ],
   "note": "Scalar energy transfer; physical constants are arbitrary positive numbers with hbar = h / 2 pi."
  },
  {
   "property": "C37",
   "status": "proved",
   "theorems": [
    "C37_concatenates",
    "C37_gaussian",
    "C37_lorentzian"
   ],
   "note": "Over the reals; scipy erf and wofz as their integrals."
  },
  {
   "property": "C38",
   "status": "proved",
   "theorems": [
    "C38_damped",
    "C38_undamped",
    "C38_period_refuted",
    "C38_dispersions",
    "C38_stiffness",
    "C38_invalid"
   ],
   "note": "Real arithmetic."
  },
  {
   "property": "C39",
   "status": "proved",
   "theorems": [
    "C39_fit",
    "C39_all_fixed",
    "C39_rejects",
    "C39_limits"
   ],
   "note": "lmfit trusted as documented in FitModel.v: only varied parameters change."
  },
  {
   "property": "C40",
   "status": "proved",
   "theorems": [
    "C40_shape_turns",
    "C40_shape_repeat_refuted",
    "C40_shape_dead",
    "C40_split",
    "C40_independent",
    "C40_sense_refuted",
    "C40_axes",
    "C40_no_history"
   ],
   "note": ""
  },
  {
   "property": "C41",
   "status": "proved",
   "theorems": [
    "C41_stale",
    "C41_failed",
    "C41_fresh",
    "C41_copies",
    "C41_current_refuted"
   ],
   "note": ""
  },
  {
   "property": "C42",
   "status": "proved",
   "theorems": [
    "C42_vertical",
    "C42_positive",
    "C42_triangle",
    "C42_mirror",
    "C42_wider"
   ],
   "note": "all methods, any number of points; mirror image for Popovici one point at a time (see C40)"
  },
  {
   "property": "C43",
   "status": "proved",
   "theorems": [
    "C43_star",
    "C43_axes",
    "C43_collinear",
    "C43_zero_is_not_rejected_refuted",
    "C43_components"
   ],
   "note": "Exact reals; in floating point collinearity is detected only if the computed length is exactly 0."
  },
  {
   "property": "C44",
   "status": "proved",
   "theorems": [
    "C44_covariance",
    "C44_outcome",
    "C44_exists",
    "C44_default",
    "C44_range",
    "C44_orientation",
    "C44_horizontal_refuted",
    "C44_shape",
    "C44_chopper_order",
    "C44_no_choppers",
    "C44_two_choppers",
    "C44_one_chopper",
    "C44_own_point",
    "C44_frame",
    "C44_own_point_refuted",
    "C44_prefactor_units",
    "C44_jacobian"
   ],
   "note": "one point at a time; float rounding and the final chop of small entries not modelled; C44_horizontal_refuted and C44_own_point_refuted refute the naive expectations"
  },
  {
   "property": "C45",
   "status": "proved",
   "theorems": [
    "C45_monochromator",
    "C45_analyzer",
    "C45_analyzer_refuted",
    "C45_assign",
    "C45_sample",
    "C45_material",
    "C45_material_refuted"
   ],
   "note": ""
  },
  {
   "property": "C46",
   "status": "proved",
   "theorems": [
    "C46_override",
    "C46_value",
    "C46_time_refuted",
    "C46_speed",
    "C46_opening",
    "C46_error",
    "C46_zero",
    "C46_repr"
   ],
   "note": ""
  },
  {
   "property": "C47",
   "status": "proved",
   "theorems": [
    "C47_centring",
    "C47_defined",
    "C47_displacement",
    "C47_one_atom",
    "C47_translation_displaced_refuted",
    "C47_translation_nan_refuted",
    "C47_friedel_complex_refuted",
    "C47_mass_norm",
    "C47_sum",
    "C47_friedel",
    "C47_shift",
    "C47_lattice_translation",
    "C47_inversion",
    "C47_space_group",
    "C47_absences"
   ],
   "note": "Real arithmetic; nan is an absent value; tables generated from the JSON files (AtomData.v, SymData.v). hkl is a triple of numbers (array arguments are pointwise)."
  },
  {
   "property": "C48",
   "status": "proved",
   "theorems": [
    "C48_even",
    "C48_zero",
    "C48_normalised",
    "C48_spin_only",
    "C48_bounded",
    "C48_unbounded_refuted",
    "C48_calls",
    "C48_ions"
   ],
   "note": "Real arithmetic; nan is an absent value; tables generated from the JSON files (AtomData.v, SymData.v). hkl is a triple of numbers (array arguments are pointwise)."
  },
  {
   "property": "C49",
   "status": "proved",
   "theorems": [
    "C49_by_name",
    "C49_case_refuted",
    "C49_signs",
    "C49_supported",
    "C49_own_files",
    "C49_first_type",
    "C49_mixed",
    "C49_names",
    "C49_counts"
   ],
   "note": "All theorems are closed under the global context."
  },
  {
   "property": "C50",
   "status": "proved",
   "theorems": [
    "C50_without_errors",
    "C50_error_column",
    "C50_combine",
    "C50_read_then_save",
    "C50_save_again",
    "C50_always_overwrites",
    "C50_hdf5"
   ],
   "note": "All theorems are closed under the global context."
  },
  {
   "property": "C51",
   "status": "proved",
   "theorems": [
    "C51_roundtrip",
    "C51_unreadable",
    "C51_numbers",
    "C51_infinities",
    "C51_smooth",
    "C51_second",
    "C51_missing_refuted",
    "C51_save",
    "C51_leftover_refuted",
    "C51_leftover_error_refuted"
   ],
   "note": "text-level model of printing and parsing; array printing without numpy's rounding to 8 digits and line breaks"
  },
  {
   "property": "C52",
   "status": "proved",
   "theorems": [
    "C52_tilts",
    "C52_rotation",
    "C52_sense",
    "C52_directions",
    "C52_orientation",
    "C52_orientation_rotation",
    "C52_orientation_lengths",
    "C52_orientation_refuted"
   ],
   "note": ""
  },
  {
   "property": "C53",
   "status": "proved",
   "theorems": [
    "C53_isometry",
    "C53_distances",
    "C53_reflections",
    "C53_rhombohedral_refuted"
   ],
   "note": "Over the whole table of 230 groups (SymData.v is generated from symmetry.json); translations are exact rationals."
  },
  {
   "property": "C54",
   "status": "proved",
   "theorems": [
    "C54_centring",
    "C54_point_group",
    "C54_system",
    "C54_distinct"
   ],
   "note": "Over the whole table of 230 groups (SymData.v is generated from symmetry.json); translations are exact rationals."
  },
  {
   "property": "C55",
   "status": "proved",
   "theorems": [
    "C55_material",
    "C55_unknown_mass",
    "C55_isotopes",
    "C55_elements"
   ],
   "note": "Real arithmetic; nan is an absent value; tables generated from the JSON files (AtomData.v, SymData.v). hkl is a triple of numbers (array arguments are pointwise)."
  },
  {
   "property": "C56",
   "status": "proved",
   "theorems": [
    "C56_positions",
    "C56_uaniso_dropped",
    "C56_uaniso_missing",
    "C56_unbuildable",
    "C56_special_position_refuted"
   ],
   "note": "Real arithmetic; nan is an absent value; tables generated from the JSON files (AtomData.v, SymData.v). hkl is a triple of numbers (array arguments are pointwise)."
  },
  {
   "property": "C57",
   "status": "proved",
   "theorems": [
    "C57_thickness",
    "C57_thickness_monotone",
    "C57_total_ignores_occupancy",
    "C57_total",
    "C57_number",
    "C57_incoherent"
   ],
   "note": "Real arithmetic; nan is an absent value; tables generated from the JSON files (AtomData.v, SymData.v). hkl is a triple of numbers (array arguments are pointwise)."
  },
  {
   "property": "C58",
   "status": "proved",
   "theorems": [
    "C58_phonon",
    "C58_bragg",
    "C58_fwhm_refuted",
    "C58_extent"
   ],
   "note": "The inverse in get_phonon_width is in closed form, proved to be the inverse; the prefactor is covered through C34."
  },
  {
   "property": "C59",
   "status": "proved",
   "theorems": [
    "C59_gaussian2d",
    "C59_resolution",
    "C59_mode",
    "C59_ring",
    "C59_voigt",
    "C59_short"
   ],
   "note": "Over the reals; scipy erf and wofz as their integrals."
  },
  {
   "property": "C60",
   "status": "proved",
   "theorems": [
    "C60_call_is_stale",
    "C60_length_is_frozen",
    "C60_never",
    "C60_data",
    "C60_statistics",
    "C60_nfree_refuted"
   ],
   "note": "lmfit statistics (nfree, redchi, scaled covariance) trusted as documented."
  },
  {
   "property": "C61",
   "status": "proved",
   "theorems": [
    "C61_focusing",
    "C61_wavevectors",
    "C61_cooper_nathans",
    "C61_popovici"
   ],
   "note": "Cooper-Nathans with and without focusing analyzer, Popovici; single-point calls"
  },
  {
   "property": "C62",
   "status": "proved",
   "theorems": [
    "C62_moncor",
    "C62_no_monitor",
    "C62_sample_mosaic",
    "C62_monitor_width"
   ],
   "note": "exact conditions; mosaic and monitor width for single-point calls, moncor for any list of points"
  },
  {
   "property": "C63",
   "status": "proved",
   "theorems": [
    "C63_value",
    "C63_prefactor_refuted",
    "C63_nothing",
    "C63_first"
   ],
   "note": ""
  },
  {
   "property": "C64",
   "status": "proved",
   "theorems": [
    "C64_smooth"
   ],
   "note": ""
  },
  {
   "property": "C65",
   "status": "proved",
   "theorems": [
    "C65_override",
    "C65_needs_distance",
    "C65_default_guides",
    "C65_moved",
    "C65_path_refuted",
    "C65_pixels",
    "C65_no_pixels",
    "C65_divergence",
    "C65_divergence_refuted"
   ],
   "note": "C65_path_refuted and C65_divergence_refuted refute the naive expectations"
  },
  {
   "property": "C66",
   "status": "proved",
   "theorems": [
    "C66_monochromator",
    "C66_name_refuted",
    "C66_analyzer",
    "C66_analyzer_refuted",
    "C66_sample"
   ],
   "note": ""
  },
  {
   "property": "C67",
   "status": "proved",
   "theorems": [
    "C67_length",
    "C67_divergence",
    "C67_supermirror_refuted"
   ],
   "note": ""
  },
  {
   "property": "C68",
   "status": "proved",
   "theorems": [
    "C68_cubic",
    "C68_swapped",
    "C68_refuted"
   ],
   "note": "agreement for UB a multiple of the identity; refuted for the default instrument"
  },
  {
   "property": "C69",
   "status": "proved",
   "theorems": [
    "C69_roundtrip",
    "C69_one_point",
    "C69_compare_numbers",
    "C69_merge_refuted"
   ],
   "note": "All theorems are closed under the global context."
  },
  {
   "property": "C70",
   "status": "proved",
   "theorems": [
    "C70_documented",
    "C70_lines",
    "C70_cfg_lines",
    "C70_loads",
    "C70_spacing",
    "C70_ignored",
    "C70_senses",
    "C70_sizes",
    "C70_sample"
   ],
   "note": "conversion of text to number is a parameter of the model"
  },
  {
   "property": "C71",
   "status": "proved",
   "theorems": [
    "C71_save",
    "C71_short",
    "C71_roundtrip",
    "C71_unusable",
    "C71_invented",
    "C71_again",
    "C71_missing",
    "C71_over",
    "C71_over_refuted"
   ],
   "note": "element texts of the xml document; C71_over_refuted refutes the naive expectation about overwrite=False"
  },
  {
   "property": "C72",
   "status": "proved",
   "theorems": [
    "C72_roundtrip",
    "C72_smooth",
    "C72_none",
    "C72_append",
    "C72_again",
    "C72_missing"
   ],
   "note": "groups and attributes; the hdf5 library is reduced to what DESIGN.md says"
  },
  {
   "property": "C73",
   "status": "proved",
   "theorems": [
    "C73_icp_points",
    "C73_icp",
    "C73_icp_shift",
    "C73_mad",
    "C73_ice",
    "C73_ragged",
    "C73_spice",
    "C73_grasp"
   ],
   "note": "Files as lines of text; the conversion of texts to numbers is a parameter."
  },
  {
   "property": "C74",
   "status": "proved",
   "theorems": [
    "C74_xyie",
    "C74_y_lost",
    "C74_unusable",
    "C74_error",
    "C74_spe",
    "C74_spe_swapped",
    "C74_spe_refused",
    "C74_spe_unusable",
    "C74_columns",
    "C74_subtype",
    "C74_minus"
   ],
   "note": "Files as lines of text; arrays as shape and numbers."
  },
  {
   "property": "C75",
   "status": "proved",
   "theorems": [
    "C75_converges",
    "C75_linear",
    "C75_mc",
    "C75_seed",
    "C75_functional",
    "C75_unused",
    "C75_errors"
   ],
   "note": "all parts of the contract"
  },
  {
   "property": "C76",
   "status": "proved",
   "theorems": [
    "C76_converges",
    "C76_focused",
    "C76_mc",
    "C76_seed",
    "C76_linear",
    "C76_unused",
    "C76_errors",
    "C76_line_even",
    "C76_line_finite",
    "C76_line_sharp",
    "C76_line_exact_refuted",
    "C76_line_wide"
   ],
   "note": "Line shape: finite, even, error bound without width (Taylor bounds and a Bernstein certificate), Lorentzian region; fixed grid tends to the three-dimensional integral; exact value for focused modes; Monte Carlo mean, seeds, linearity, refused calls."
  },
  {
   "property": "C77",
   "status": "proved",
   "theorems": [
    "C77_crystals",
    "C77_no_planes",
    "C77_axes",
    "C77_right_angles",
    "C77_hexagonal_refuted",
    "C77_plane_refuted",
    "C77_numbers"
   ],
   "note": "Over the reals; positions, cells and energies arbitrary."
  },
  {
   "property": "C78",
   "status": "proved",
   "theorems": [
    "C78_warnings",
    "C78_order",
    "C78_answers",
    "C78_on_peak",
    "C78_energy_refuted",
    "C78_turn_refuted"
   ],
   "note": "Equivalence for the warned points, order and multiplicity, total/refused calls, on-peak guarantee; refuted: energies of whole-number scans, angles one turn apart."
  },
  {
   "property": "C79",
   "status": "proved",
   "theorems": [
    "C79_rings"
   ],
   "note": "Order independent of the energy, Bragg's law, unreachable lines last."
  },
  {
   "property": "C80",
   "status": "proved",
   "theorems": [
    "C80_line_accuracy"
   ],
   "note": "Line shape within 3e-4 of the Voigt convolution for every position and positive width."
  },
  {
   "property": "C81",
   "status": "proved",
   "theorems": [
    "C81_converges"
   ],
   "note": "Grid sums of modes with and without width come within the stated distance of the four-fold integral."
  },
  {
   "property": "C82",
   "status": "proved",
   "theorems": [
    "C82_map_shows_nearest_measurement",
    "C82_unsorted_point_missing_refuted",
    "C82_default_limits_refuted",
    "C82_no_map"
   ],
   "note": "Rectangles and limits handed to matplotlib; rendering not modelled."
  },
  {
   "property": "C83",
   "status": "proved",
   "theorems": [
    "C83_map_axes",
    "C83_unit_steps_show_measured_positions",
    "C83_fine_steps_lose_positions",
    "C83_no_map_away_from_zero",
    "C83_no_map_of_single_line",
    "C83_volume_shows_positive_rows",
    "C83_line_shows_rows"
   ],
   "note": "What matplotlib is given; rebinning, smoothing, fit and the interpolation between map positions are not modelled."
  },
  {
   "property": "C84",
   "status": "proved",
   "theorems": [
    "C84_layout_follows_angles",
    "C84_four_arms_needed",
    "C84_crystal_width"
   ],
   "note": "What matplotlib is given; see DESIGN.md for idealisations."
  },
  {
   "property": "C85",
   "status": "proved",
   "theorems": [
    "C85_ellipsoid_drawn",
    "C85_half_maximum_surface_refuted",
    "C85_no_energy_tilt",
    "C85_several_points"
   ],
   "note": "What matplotlib is given; see DESIGN.md for idealisations."
  },
  {
   "property": "C86",
   "status": "proved",
   "theorems": [
    "C86_pictures_show_points_asked",
    "C86_other_points_shown",
    "C86_change_not_shown",
    "C86_axes_hold_all_curves"
   ],
   "note": "What matplotlib is given; see DESIGN.md for idealisations."
  },
  {
   "property": "C87",
   "status": "proved",
   "theorems": [
    "C87_volume",
    "C87_first_point",
    "C87_old_matrix",
    "C87_fixed_wavevector",
    "C87_fixed_energy",
    "C87_other_infin_refuted",
    "C87_method",
    "C87_no_text"
   ],
   "note": "Matrix values printed are rounded; the time-of-flight branch is not modelled."
  },
  {
   "property": "C88",
   "status": "proved",
   "theorems": [
    "C88_table",
    "C88_no_table"
   ],
   "note": "the numbers printed are modelled, not the layout"
  },
  {
   "property": "C89",
   "status": "proved",
   "theorems": [
    "C89_equal_iff",
    "C89_symmetric",
    "C89_answers",
    "C89_transitive_refuted",
    "C89_empty_equals_point",
    "C89_missing_number_differs",
    "C89_intensity_refuted"
   ],
   "note": "Numbers are rationals with nan; text columns left out; the answer for different lengths depends on the version of numpy, both are covered."
  },
  {
   "property": "C90",
   "status": "proved",
   "theorems": [
    "C90_assignment",
    "C90_orientation",
    "C90_one_sample_one_orientation",
    "C90_independent",
    "C90_sample_kept",
    "C90_sample_without_plane",
    "C90_handed_component",
    "C90_new_instrument",
    "C90_two_orientations_refuted"
   ],
   "note": "Components are objects in a heap; arrays within attributes are values."
  },
  {
   "property": "C91",
   "status": "proved",
   "theorems": [
    "C91_panels",
    "C91_printed_widths",
    "C91_no_panel"
   ],
   "note": "Curves of finite numbers; widths in labels as printed to three decimals."
  },
  {
   "property": "C92",
   "status": "proved",
   "theorems": [
    "C92_equal_iff",
    "C92_reflexive_symmetric",
    "C92_used_alike",
    "C92_one_sample",
    "C92_calculation",
    "C92_transitive_refuted"
   ],
   "note": "Exact characterisation of equality over all histories of components and instruments; equality is shown not to be transitive."
  },
  {
   "property": "C93",
   "status": "proved",
   "theorems": [
    "C93_assignment",
    "C93_last_value",
    "C93_constructor",
    "C93_by_name",
    "C93_never_readable",
    "C93_options",
    "C93_no_effect",
    "C93_fit_reports",
    "C93_last_fit",
    "C93_no_fit_yet",
    "C93_number",
    "C93_one_fit_refuted"
   ],
   "note": "All histories of assignments and fits, any optimiser; the norms before and after fitting are shown to belong to different fits in some history."
  },
  {
   "property": "C94",
   "status": "proved",
   "theorems": [
    "C94_attributes",
    "C94_curvature",
    "C94_frame",
    "C94_energy",
    "C94_unread",
    "C94_redrawn",
    "C94_unreadable",
    "C94_custom",
    "C94_stale",
    "C94_no_effect_refuted"
   ],
   "note": "C94_no_effect_refuted shows edits without effect in the window as it opens"
  },
  {
   "property": "C95",
   "status": "proved",
   "theorems": [
    "C95_parts",
    "C95_refused",
    "C95_stack",
    "C95_kept_array",
    "C95_image"
   ],
   "note": "All forms of argument; all 230 groups by the table."
  },
  {
   "property": "C96",
   "status": "proved",
   "theorems": [
    "C96_curve",
    "C96_points",
    "C96_drawn",
    "C96_format_refuted"
   ],
   "note": "For every optimiser; the expectation that any options of the plot will do is refuted."
  },
  {
   "property": "C97",
   "status": "proved",
   "theorems": [
    "C97_tables",
    "C97_names",
    "C97_content",
    "C97_missing",
    "C97_name_refuted",
    "C97_grasp_refuted"
   ],
   "note": "Every name and content; two expectations about names and about GRASP files are refuted."
  },
  {
   "property": "C98",
   "status": "proved",
   "theorems": [
    "C98_shared",
    "C98_order",
    "C98_untouched",
    "C98_count",
    "C98_caller_refuted",
    "C98_count_refuted"
   ],
   "note": "All histories; the expectations about the caller's dictionary and about num_scans are refuted."
  },
  {
   "property": "C99",
   "status": "proved",
   "theorems": [
    "C99_curves",
    "C99_places",
    "C99_refused"
   ],
   "note": "Every collection, and every later history of it."
  },
  {
   "property": "C100",
   "status": "proved",
   "theorems": [
    "C100_saves",
    "C100_roundtrip",
    "C100_meaning_lost",
    "C100_again",
    "C100_no_text",
    "C100_instrument",
    "C100_old_instrument",
    "C100_missing"
   ],
   "note": "Hdf5 round trip of datasets: which can be saved, what comes back, what is lost, saving again, and the instrument stored with the data."
  },
  {
   "property": "C101",
   "status": "proved",
   "theorems": [
    "C101_monochromator",
    "C101_analyzer",
    "C101_named_crystal",
    "C101_oriented_sample",
    "C101_sample",
    "C101_lattice",
    "C101_goniometer",
    "C101_detector_atom",
    "C101_detector_pixels",
    "C101_shown",
    "C101_defaults",
    "C101_space_group",
    "C101_instrument",
    "C101_takin",
    "C101_time_of_flight"
   ],
   "note": "Which printed objects can be run as program text, and what is lost."
  },
  {
   "property": "C102",
   "status": "proved",
   "theorems": [
    "C102_made",
    "C102_cell",
    "C102_moments",
    "C102_symmetry_refuted",
    "C102_material"
   ],
   "note": "Symmetry of the moments is decided for one magnetic atom; made, cell and material cover every dictionary."
  },
  {
   "property": "C103",
   "status": "proved",
   "theorems": [
    "C103_conversions",
    "C103_read_back",
    "C103_equal"
   ],
   "note": "Rounding modelled with Flocq; scalars."
  },
  {
   "property": "C104",
   "status": "proved",
   "theorems": [
    "C104_axes",
    "C104_missed",
    "C104_missed_one",
    "C104_exact",
    "C104_gap_refuted",
    "C104_averaged_refuted"
   ],
   "note": "all for double precision; points can be lost near boundaries"
  },
  {
   "property": "C105",
   "status": "proved",
   "theorems": [
    "C105_counts",
    "C105_large_refuted",
    "C105_bound",
    "C105_place",
    "C105_same",
    "C105_tolerance_refuted",
    "C105_order_refuted"
   ],
   "note": "in double precision; three naive expectations refuted"
  },
  {
   "property": "C106",
   "status": "proved",
   "theorems": [
    "C106_operations",
    "C106_same",
    "C106_text",
    "C106_nearest_refuted"
   ],
   "note": "Sums in any order; the rounded run of the loop for every tabulated group, the same doubles in all orders, and their texts. Refuted: nearest doubles."
  },
  {
   "property": "C107",
   "status": "proved",
   "theorems": [
    "C107_percent",
    "C107_quarters",
    "C107_percent_refuted",
    "C107_distance",
    "C107_number",
    "C107_default",
    "C107_range_refuted"
   ],
   "note": "quotients and truncation in binary64; linspace itself in exact arithmetic"
  },
  {
   "property": "C108",
   "status": "proved",
   "theorems": [
    "C108_positions",
    "C108_same",
    "C108_exact",
    "C108_coincide",
    "C108_coincide_refuted"
   ],
   "note": "operations from C106; overflow not modelled"
  },
  {
   "property": "C109",
   "status": "proved",
   "theorems": [
    "C109_read",
    "C109_distinguish",
    "C109_small",
    "C109_zero",
    "C109_negative"
   ],
   "note": "numbers from C13's model; no signed zero"
  },
  {
   "property": "C110",
   "status": "proved",
   "theorems": [
    "C110_readable",
    "C110_columns",
    "C110_values",
    "C110_empty",
    "C110_two",
    "C110_merge_refuted",
    "C110_errors_refuted"
   ],
   "note": "Combination of two files for lists of points; broadcasting between different shapes not modelled."
  },
  {
   "property": "C111",
   "status": "proved",
   "theorems": [
    "C111_atoms",
    "C111_strength",
    "C111_cell_refuted",
    "C111_label"
   ],
   "note": "Angles and order of the lines are C79."
  },
  {
   "property": "C112",
   "status": "proved",
   "theorems": [
    "C112_intensity",
    "C112_error",
    "C112_order",
    "C112_counts",
    "C112_unit",
    "C112_empty",
    "C112_counts_refuted"
   ],
   "note": "Overflow left out."
  },
  {
   "property": "C113",
   "status": "proved",
   "theorems": [
    "C113_answers",
    "C113_sign",
    "C113_self",
    "C113_missing",
    "C113_accuracy",
    "C113_error"
   ],
   "note": "Bounds, sign and exactness of subtracted intensities in binary64; overflow, broadcasting and interpolation left out."
  },
  {
   "property": "C114",
   "status": "proved",
   "theorems": [
    "C114_mean",
    "C114_order",
    "C114_whole",
    "C114_one",
    "C114_bounded_refuted"
   ],
   "note": "Any order of addition; overflow and nan left out; that the background stays within the intensities is refuted."
  },
  {
   "property": "C115",
   "status": "proved",
   "theorems": [
    "C115_answers",
    "C115_monotone",
    "C115_sign",
    "C115_constant",
    "C115_opposite",
    "C115_accuracy",
    "C115_exact"
   ],
   "note": "one-number background; overflow and nan left out"
  },
  {
   "property": "C116",
   "status": "proved",
   "theorems": [
    "C116_accurate",
    "C116_close",
    "C116_answers",
    "C116_monotone",
    "C116_opposite",
    "C116_range",
    "C116_range_refuted"
   ],
   "note": "In double precision; the selected points and the scalar background are given; C116_range_refuted is the counterexample named in the statement."
  },
  {
   "property": "C117",
   "status": "proved",
   "theorems": [
    "C117_accurate",
    "C117_fwhm_accurate",
    "C117_close",
    "C117_answers",
    "C117_sign",
    "C117_number_refuted",
    "C117_opposite",
    "C117_fwhm",
    "C117_still",
    "C117_still_refuted"
   ],
   "note": "In double precision; the selected points and the scalar background are given; C117_number_refuted and C117_still_refuted are the counterexamples named in the statement."
  },
  {
   "property": "C118",
   "status": "proved",
   "theorems": [
    "C118_points",
    "C118_stopped",
    "C118_local_refuted",
    "C118_no_cross_section",
    "C118_susceptibility"
   ],
   "note": "Over the reals with nan and infinity; C118_local_refuted states that points influence each other."
  }
 ]
}