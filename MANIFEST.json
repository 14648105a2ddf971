{
 "claims": [
  {
   "property": "C01",
   "status": "proved",
   "theorems": [
    "C01_depth_is_sum_above",
    "C01_depth_nondecreasing",
    "C01_midpoints",
    "C01_roundtrip_thk",
    "C01_roundtrip_thk_general",
    "C01_roundtrip_depth",
    "C01_bad_depth_rejected"
   ],
   "note": "Exact real arithmetic; C103, C104, C107 and C108 treat the same functions in double precision."
  },
  {
   "property": "C02",
   "status": "proved",
   "theorems": [
    "C02_query_returns_containing_layer",
    "C02_containing_layer_unique",
    "C02_interface_belongs_to_lower_layer",
    "C02_query_is_elementwise",
    "C02_negative_depth_rejected"
   ],
   "note": "Exact real arithmetic; C103, C104, C107 and C108 treat the same functions in double precision."
  },
  {
   "property": "C03",
   "status": "proved",
   "theorems": [
    "C03_query_given_thk",
    "C03_scalar_needs_layer_count",
    "C03_midpoint_halfspace_length_mismatch"
   ],
   "note": "Exact real arithmetic; C103, C104, C107 and C108 treat the same functions in double precision."
  },
  {
   "property": "C04",
   "status": "proved",
   "theorems": [
    "C04_VsZ_is_travel_time_average",
    "C04_VsZ_option2",
    "C04_VsZ_between_min_and_max",
    "C04_VsZ_uniform",
    "C04_VsZ_monotone",
    "C04_VsZ_ignores_material_below",
    "C04_VsZ_bad_option"
   ],
   "note": "Exact real arithmetic; C103, C104, C107 and C108 treat the same functions in double precision."
  },
  {
   "property": "C05",
   "status": "proved",
   "theorems": [
    "C05_basin_depth",
    "C05_nothing_fast_above",
    "C05_basin_depth_monotone",
    "C05_z1"
   ],
   "note": ""
  },
  {
   "property": "C06",
   "status": "proved",
   "theorems": [
    "C06_stratify_refines",
    "C06_stratify_refines_no_halfspace",
    "C06_total_thickness_kept",
    "C06_total_thickness_refuted"
   ],
   "note": "The expected statement is false of the code: C06_total_thickness_refuted; the other theorems say what holds."
  },
  {
   "property": "C07",
   "status": "proved",
   "theorems": [
    "C07_Vs_validator_sound_and_complete"
   ],
   "note": ""
  },
  {
   "property": "C08",
   "status": "proved",
   "theorems": [
    "C08_accepts_iff",
    "C08_constructed_profile",
    "C08_material_numbers",
    "C08_table_is_valid",
    "C08_table_is_valid_refuted"
   ],
   "note": "The expected statement is false of the code: C08_table_is_valid_refuted; the other theorems say what holds."
  },
  {
   "property": "C09",
   "status": "proved",
   "theorems": [
    "C09_caller_array",
    "C09_second_construction"
   ],
   "note": "Arrays live in a heap addressed by location, so that sharing and writes in place are visible."
  },
  {
   "property": "C10",
   "status": "proved",
   "theorems": [
    "C10_truncated_profile",
    "C10_bad_arguments"
   ],
   "note": ""
  },
  {
   "property": "C11",
   "status": "proved",
   "theorems": [
    "C11_receiver_after_truncate",
    "C11_integer_table",
    "C11_second_truncation_refuted"
   ],
   "note": "Arrays live in a heap addressed by location, so that sharing and writes in place are visible. The expected statement is false of the code: C11_second_truncation_refuted; the other theorems say what holds."
  },
  {
   "property": "C12",
   "status": "proved",
   "theorems": [
    "C12_lengths",
    "C12_formula_1",
    "C12_density_rule",
    "C12_damping_positive",
    "C12_damping_antitone",
    "C12_default_damping_upper_bound",
    "C12_unknown_formula_gives_zero"
   ],
   "note": ""
  },
  {
   "property": "C13",
   "status": "proved",
   "theorems": [
    "C13_number_flag",
    "C13_number_flag_zero",
    "C13_length_normalisation",
    "C13_length_is_requested",
    "C13_two_column_format"
   ],
   "note": ""
  },
  {
   "property": "C14",
   "status": "proved",
   "theorems": [
    "C14_closest_index",
    "C14_closest_index_empty"
   ],
   "note": ""
  },
  {
   "property": "C15",
   "status": "proved",
   "theorems": [
    "C15_integration_formula",
    "C15_integration_linear",
    "C15_differentiate_after_integrate",
    "C15_integrate_after_differentiate",
    "C15_round_trip_identity_refuted"
   ],
   "note": "Exact real arithmetic; rounding is the subject of C103-C108, C116. The expected statement is false of the code: C15_round_trip_identity_refuted; the other theorems say what holds."
  },
  {
   "property": "C16",
   "status": "proved",
   "theorems": [
    "C16_arias_monotone",
    "C16_peak_positive_iff",
    "C16_normalised",
    "C16_zero_record",
    "C16_scales_quadratically"
   ],
   "note": "Exact real arithmetic; rounding is the subject of C103-C108, C116."
  },
  {
   "property": "C17",
   "status": "proved",
   "theorems": [
    "C17_scale_by_factor",
    "C17_scale_to_target",
    "C17_scaled_velocity_motion",
    "C17_peak_velocity_scales_refuted"
   ],
   "note": "Exact real arithmetic; rounding is the subject of C103-C108, C116. The expected statement is false of the code: C17_peak_velocity_scales_refuted; the other theorems say what holds."
  },
  {
   "property": "C18",
   "status": "proved",
   "theorems": [
    "C18_truncate_by_time",
    "C18_truncate_by_arias",
    "C18_window_before_record",
    "C18_bad_arguments"
   ],
   "note": "Exact real arithmetic; rounding is the subject of C103-C108, C116."
  },
  {
   "property": "C19",
   "status": "proved",
   "theorems": [
    "C19_convert_between_units",
    "C19_other_units_rejected"
   ],
   "note": "Exact real arithmetic; rounding is the subject of C103-C108, C116."
  },
  {
   "property": "C20",
   "status": "proved",
   "theorems": [
    "C20_after_saves",
    "C20_unchanged_iff",
    "C20_peak_goes_stale"
   ],
   "note": "Arrays live in a heap addressed by location, so that sharing and writes in place are visible."
  },
  {
   "property": "C21",
   "status": "proved",
   "theorems": [
    "C21_find_f0",
    "C21_first_peak_dominates",
    "C21_penultimate_peak_missed"
   ],
   "note": ""
  },
  {
   "property": "C22",
   "status": "proved",
   "theorems": [
    "C22_accepts_iff",
    "C22_errors",
    "C22_even_spacing_refuted",
    "C22_periods",
    "C22_parallel",
    "C22_period_alone",
    "C22_identities",
    "C22_exact",
    "C22_scales",
    "C22_zero_and_sign",
    "C22_subsampling",
    "C22_longer_record",
    "C22_stiff_limit"
   ],
   "note": "The expected statement is false of the code: C22_even_spacing_refuted; the other theorems say what holds."
  },
  {
   "property": "C23",
   "status": "proved",
   "theorems": [
    "C23_solves_wave_equation",
    "C23_motion_exists",
    "C23_denominators",
    "C23_links",
    "C23_borehole_ignores_half_space",
    "C23_rigid_base_limit",
    "C23_splitting_a_layer",
    "C23_half_space_thickness",
    "C23_density_unit",
    "C23_stratified",
    "C23_uniform_column",
    "C23_single_layer",
    "C23_undamped_resonance",
    "C23_static_limit",
    "C23_accepts_iff",
    "C23_errors",
    "C23_result"
   ],
   "note": "Complex numbers are Coquelicot's C; transforms are the defining finite sums over exact reals."
  },
  {
   "property": "C24",
   "status": "proved",
   "theorems": [
    "C24_kinematics",
    "C24_peaks",
    "C24_stress_strain",
    "C24_superposition",
    "C24_every_layer",
    "C24_transfer_function",
    "C24_agrees_with_linear_tf",
    "C24_labels_refuted"
   ],
   "note": "Complex numbers are Coquelicot's C; transforms are the defining finite sums over exact reals. The expected statement is false of the code: C24_labels_refuted; the other theorems say what holds."
  },
  {
   "property": "C25",
   "status": "proved",
   "theorems": [
    "C25_rigid_base",
    "C25_bare_rock"
   ],
   "note": "Complex numbers are Coquelicot's C; transforms are the defining finite sums over exact reals."
  },
  {
   "property": "C26",
   "status": "proved",
   "theorems": [
    "C26_result",
    "C26_not_finite",
    "C26_errors",
    "C26_round_trip",
    "C26_amplifies",
    "C26_identity",
    "C26_superposition",
    "C26_complex_values",
    "C26_harmonic_refuted",
    "C26_site_response",
    "C26_site_response_errors",
    "C26_site_response_mean",
    "C26_bare_rock"
   ],
   "note": "Complex numbers are Coquelicot's C; transforms are the defining finite sums over exact reals. The expected statement is false of the code: C26_harmonic_refuted; the other theorems say what holds."
  },
  {
   "property": "C27",
   "status": "proved",
   "theorems": [
    "C27_unwrapped",
    "C27_rewritten",
    "C27_preserved_iff",
    "C27_no_climb",
    "C27_recovers",
    "C27_preserved_refuted"
   ],
   "note": "The expected statement is false of the code: C27_preserved_refuted; the other theorems say what holds."
  },
  {
   "property": "C28",
   "status": "proved",
   "theorems": [
    "C28_search_brackets",
    "C28_search_outside",
    "C28_search_nan"
   ],
   "note": ""
  },
  {
   "property": "C29",
   "status": "proved",
   "theorems": [
    "C29_reads_only_its_files",
    "C29_files_exist",
    "C29_files_distinct",
    "C29_nan_never_returns"
   ],
   "note": "The listing of the shipped data files is generated from /repo (tools/gen_sitefiles.py)."
  },
  {
   "property": "C30",
   "status": "proved",
   "theorems": [
    "C30_between_neighbours",
    "C30_grid_points"
   ],
   "note": "griddata is an argument assumed to interpolate linearly inside a box of points (hypothesis of the theorems concerned)."
  },
  {
   "property": "C31",
   "status": "proved",
   "theorems": [
    "C31_strict",
    "C31_lenient",
    "C31_nan",
    "C31_not_a_number",
    "C31_infinite"
   ],
   "note": ""
  },
  {
   "property": "C32",
   "status": "proved",
   "theorems": [
    "C32_shape",
    "C32_frequencies",
    "C32_conjugate_symmetric",
    "C32_linear",
    "C32_invertible",
    "C32_parseval",
    "C32_harmonic_row",
    "C32_first_row_is_the_sum"
   ],
   "note": "Complex numbers are Coquelicot's C; transforms are the defining finite sums over exact reals."
  },
  {
   "property": "C33",
   "status": "proved",
   "theorems": [
    "C33_difference_equation",
    "C33_difference_equation_unique",
    "C33_lowpass",
    "C33_highpass",
    "C33_band",
    "C33_bad_arguments",
    "C33_shape"
   ],
   "note": "The filter design (scipy.signal.butter) is an argument; its normalised cutoffs and the sections it returns are what the theorems speak about."
  },
  {
   "property": "C34",
   "status": "proved",
   "theorems": [
    "C34_residual_orthogonal",
    "C34_least_squares",
    "C34_line_vanishes",
    "C34_idempotent",
    "C34_linear",
    "C34_taper",
    "C34_taper_effect",
    "C34_two_columns_refused"
   ],
   "note": ""
  },
  {
   "property": "C35",
   "status": "proved",
   "theorems": [
    "C35_window_weights",
    "C35_lin_accepts",
    "C35_lin_length",
    "C35_lin_interior",
    "C35_lin_bounds",
    "C35_lin_linear",
    "C35_lin_constant",
    "C35_lin_constant_refuted",
    "C35_log_within",
    "C35_log_errors"
   ],
   "note": "The expected statement is false of the code: C35_lin_constant_refuted; the other theorems say what holds."
  },
  {
   "property": "C36",
   "status": "proved",
   "theorems": [
    "C36_merge_then_extract",
    "C36_extract_layout",
    "C36_bad_column_count",
    "C36_merge_shape_mismatch",
    "C36_extract_accepts_iff"
   ],
   "note": ""
  },
  {
   "property": "C37",
   "status": "proved",
   "theorems": [
    "C37_param_columns_roundtrip",
    "C37_only_2D"
   ],
   "note": ""
  },
  {
   "property": "C38",
   "status": "proved",
   "theorems": [
    "C38_GGmax_curve",
    "C38_damping_curve",
    "C38_stress_curve",
    "C38_repeated_construction",
    "C38_interpolated_construction_is_pure"
   ],
   "note": "Arrays live in a heap addressed by location, so that sharing and writes in place are visible."
  },
  {
   "property": "C39",
   "status": "proved",
   "theorems": [
    "C39_list_refinement",
    "C39_outcomes",
    "C39_constructor",
    "C39_slice_deletion_breaks_length",
    "C39_only_slices_break_length",
    "C39_slice_assignment",
    "C39_params_not_type_checked"
   ],
   "note": ""
  },
  {
   "property": "C40",
   "status": "proved",
   "theorems": [
    "C40_constructor",
    "C40_keys_invariant",
    "C40_outcomes",
    "C40_failed_update_stops_midway",
    "C40_inplace_union_bypasses_check",
    "C40_union_checks"
   ],
   "note": ""
  },
  {
   "property": "C41",
   "status": "proved",
   "theorems": [
    "C41_HH_roundtrip",
    "C41_HH_array_roundtrip",
    "C41_MKZ_roundtrip",
    "C41_MKZ_file_roundtrip",
    "C41_MKZ_file_layout_misread",
    "C41_MKZ_array_length",
    "C41_multilayer_roundtrip",
    "C41_multilayer_file"
   ],
   "note": ""
  },
  {
   "property": "C42",
   "status": "proved",
   "theorems": [
    "C42_MKZ_law",
    "C42_initial_modulus",
    "C42_increasing",
    "C42_increasing_beyond_one_refuted"
   ],
   "note": "The expected statement is false of the code: C42_increasing_beyond_one_refuted; the other theorems say what holds."
  },
  {
   "property": "C43",
   "status": "proved",
   "theorems": [
    "C43_FKZ_law",
    "C43_negative_strain_is_nan"
   ],
   "note": ""
  },
  {
   "property": "C44",
   "status": "proved",
   "theorems": [
    "C44_transition",
    "C44_transition_limits",
    "C44_HH_between_branches",
    "C44_HH_ends",
    "C44_HH_negative_strain_is_nan"
   ],
   "note": ""
  },
  {
   "property": "C45",
   "status": "proved",
   "theorems": [
    "C45_damping_curve",
    "C45_strain_starting_at_zero",
    "C45_linear_elastic",
    "C45_damping_bounded",
    "C45_no_clipping",
    "C45_MKZ_damping",
    "C45_modulus_reduction",
    "C45_modulus_reduction_default"
   ],
   "note": ""
  },
  {
   "property": "C46",
   "status": "proved",
   "theorems": [
    "C46_fit_offsets_caller",
    "C46_refit",
    "C46_fit_results",
    "C46_serial_parallel_agree",
    "C46_serial_parallel_differ_refuted",
    "C46_interpolated_unit_mismatch"
   ],
   "note": "The optimiser is an argument; nothing is assumed about the parameters it returns. The expected statement is false of the code: C46_serial_parallel_differ_refuted; the other theorems say what holds."
  },
  {
   "property": "C47",
   "status": "proved",
   "theorems": [
    "C47_vertical_stress",
    "C47_zero_thickness_rewritten",
    "C47_density",
    "C47_density_unbounded_refuted",
    "C47_Gmax",
    "C47_OCR",
    "C47_K0",
    "C47_PI",
    "C47_mean_stress",
    "C47_strength",
    "C47_mu",
    "C47_mu_monotone_refuted",
    "C47_strength_of_rock"
   ],
   "note": "The expected statement is false of the code: C47_density_unbounded_refuted, C47_mu_monotone_refuted; the other theorems say what holds."
  },
  {
   "property": "C48",
   "status": "proved",
   "theorems": [
    "C48_curves",
    "C48_confinement",
    "C48_default_strain_raises"
   ],
   "note": ""
  },
  {
   "property": "C49",
   "status": "proved",
   "theorems": [
    "C49_kernel",
    "C49_third_pass_not_a_relaxation",
    "C49_closest_approach"
   ],
   "note": ""
  },
  {
   "property": "C50",
   "status": "proved",
   "theorems": [
    "C50_score_of_two_numbers",
    "C50_score_of_ratio",
    "C50_arrays",
    "C50_argument_types",
    "C50_length_mismatch",
    "C50_scores_in_range",
    "C50_rms_limits_ignored",
    "C50_different_lengths_raise"
   ],
   "note": "erf is an argument with the properties of the error function as hypotheses."
  },
  {
   "property": "C51",
   "status": "proved",
   "theorems": [
    "C51_value",
    "C51_at_least_one_tenth",
    "C51_time_steps_refuted",
    "C51_unbounded",
    "C51_errors"
   ],
   "note": "The expected statement is false of the code: C51_time_steps_refuted; the other theorems say what holds."
  },
  {
   "property": "C52",
   "status": "proved",
   "theorems": [
    "C52_calc_scores",
    "C52_history",
    "C52_average_exists"
   ],
   "note": "Storage in single precision is an uninterpreted rounding function."
  },
  {
   "property": "C53",
   "status": "proved",
   "theorems": [
    "C53_smooth_profile",
    "C53_fixed_thickness",
    "C53_velocity_increment",
    "C53_capped_is_settled",
    "C53_default_site",
    "C53_uncapped_profile",
    "C53_shallow_profile",
    "C53_shallow_default_half_space",
    "C53_rejected_arguments",
    "C53_iteration",
    "C53_iteration_fuel"
   ],
   "note": ""
  },
  {
   "property": "C54",
   "status": "proved",
   "theorems": [
    "C54_layering_terminates",
    "C54_correlation_in_unit_interval",
    "C54_realisation",
    "C54_random_profile",
    "C54_compliance",
    "C54_bottom_velocity_not_compared"
   ],
   "note": "Random generators and the equation solver are arguments; theorems hold for every outcome."
  },
  {
   "property": "C55",
   "status": "proved",
   "theorems": [
    "C55_shapes",
    "C55_errors",
    "C55_linear_limit",
    "C55_at_rest",
    "C55_verbosity",
    "C55_accepts_iff",
    "C55_passes"
   ],
   "note": ""
  },
  {
   "property": "C56",
   "status": "proved",
   "theorems": [
    "C56_accepts_iff",
    "C56_errors",
    "C56_shapes"
   ],
   "note": "Complex numbers are Coquelicot's C; transforms are the defining finite sums over exact reals."
  },
  {
   "property": "C57",
   "status": "proved",
   "theorems": [
    "C57_linear",
    "C57_equivalent",
    "C57_nonlinear"
   ],
   "note": ""
  },
  {
   "property": "C58",
   "status": "proved",
   "theorems": [
    "C58_working_directory",
    "C58_stranded_by_kernel_failure"
   ],
   "note": "The nonlinear kernel is an argument: it leaves files or fails at any step."
  },
  {
   "property": "C59",
   "status": "proved",
   "theorems": [
    "C59_data_files",
    "C59_directory_is_fresh",
    "C59_starts_iff",
    "C59_rest_of_disk",
    "C59_what_is_left",
    "C59_existing_directory_removed_refuted",
    "C59_working_directory_removed"
   ],
   "note": "The nonlinear kernel is an argument: it leaves files or fails at any step. The expected statement is false of the code: C59_existing_directory_removed_refuted; the other theorems say what holds."
  },
  {
   "property": "C60",
   "status": "proved",
   "theorems": [
    "C60_check_layer_count",
    "C60_enough_curves"
   ],
   "note": ""
  },
  {
   "property": "C61",
   "status": "proved",
   "theorems": [
    "C61_constructor",
    "C61_directory_names",
    "C61_results_in_order",
    "C61_serial_parallel_agree",
    "C61_nonlinear_subclass_rejected",
    "C61_nonlinear_directories",
    "C61_nested_after_failure"
   ],
   "note": "The pool takes the order of completion as an argument; theorems hold for every schedule."
  },
  {
   "property": "C62",
   "status": "proved",
   "theorems": [
    "C62_serial_changes_callers_options",
    "C62_parallel_keeps_callers_options",
    "C62_figures_of_failed_simulation"
   ],
   "note": "The pool takes the order of completion as an argument; theorems hold for every schedule."
  },
  {
   "property": "C63",
   "status": "proved",
   "theorems": [
    "C63_accepts_iff",
    "C63_errors"
   ],
   "note": ""
  },
  {
   "property": "C64",
   "status": "proved",
   "theorems": [
    "C64_calibration",
    "C64_H4_is_HH",
    "C64_damping_irrelevant"
   ],
   "note": ""
  },
  {
   "property": "C65",
   "status": "proved",
   "theorems": [
    "C65_one_column",
    "C65_single_row_rejected",
    "C65_two_columns",
    "C65_delta_required"
   ],
   "note": ""
  },
  {
   "property": "C66",
   "status": "proved",
   "theorems": [
    "C66_staircase"
   ],
   "note": ""
  },
  {
   "property": "C67",
   "status": "proved",
   "theorems": [
    "C67_z1_from_Vs30",
    "C67_z1_from_Vs30_decreasing"
   ],
   "note": ""
  },
  {
   "property": "C68",
   "status": "proved",
   "theorems": [
    "C68_depth_array_aliases_caller"
   ],
   "note": "Arrays live in a heap addressed by location, so that sharing and writes in place are visible."
  },
  {
   "property": "C69",
   "status": "proved",
   "theorems": [
    "C69_query_as_profile",
    "C69_query_as_profile_rejects",
    "C69_inferred_layer_count",
    "C69_no_depth_rejected"
   ],
   "note": ""
  },
  {
   "property": "C70",
   "status": "proved",
   "theorems": [
    "C70_km_output",
    "C70_slowness",
    "C70_to_txt_default_raises"
   ],
   "note": ""
  },
  {
   "property": "C71",
   "status": "proved",
   "theorems": [
    "C71_constructor_accepts_iff",
    "C71_constructed_motion",
    "C71_peaks_and_rms",
    "C71_second_construction"
   ],
   "note": "Arrays live in a heap addressed by location, so that sharing and writes in place are visible."
  },
  {
   "property": "C72",
   "status": "proved",
   "theorems": [
    "C72_interpolation",
    "C72_exact_at_samples",
    "C72_empty_reference"
   ],
   "note": ""
  },
  {
   "property": "C73",
   "status": "proved",
   "theorems": [
    "C73_parameters_from_profile",
    "C73_strength_length",
    "C73_given_strengths",
    "C73_given_strengths_accepted"
   ],
   "note": "The fit of the MKZ model to a modulus curve is an argument."
  },
  {
   "property": "C74",
   "status": "proved",
   "theorems": [
    "C74_material_number_selects_the_curve",
    "C74_unknown_material_raises",
    "C74_given_strengths"
   ],
   "note": "The fit of the MKZ model to a modulus curve is an argument."
  },
  {
   "property": "C75",
   "status": "proved",
   "theorems": [
    "C75_value",
    "C75_metric",
    "C75_length_mismatch"
   ],
   "note": ""
  },
  {
   "property": "C76",
   "status": "proved",
   "theorems": [
    "C76_identical_records",
    "C76_identical_cross_correlation"
   ],
   "note": ""
  },
  {
   "property": "C77",
   "status": "proved",
   "theorems": [
    "C77_scaled_simulation"
   ],
   "note": ""
  },
  {
   "property": "C78",
   "status": "proved",
   "theorems": [
    "C78_batch_results",
    "C78_batch_failure"
   ],
   "note": "The pool takes the order of completion as an argument; theorems hold for every schedule."
  },
  {
   "property": "C79",
   "status": "proved",
   "theorems": [
    "C79_amplification_succeeds",
    "C79_frequencies_increase",
    "C79_phase_and_both",
    "C79_methods_refused"
   ],
   "note": "griddata is an argument assumed to interpolate linearly inside a box of points (hypothesis of the theorems concerned)."
  },
  {
   "property": "C80",
   "status": "proved",
   "theorems": [
    "C80_causal",
    "C80_linear",
    "C80_delay"
   ],
   "note": "The filter design (scipy.signal.butter) is an argument; its normalised cutoffs and the sections it returns are what the theorems speak about."
  },
  {
   "property": "C81",
   "status": "proved",
   "theorems": [
    "C81_outcomes",
    "C81_one_crossing_vanishes",
    "C81_no_drift",
    "C81_scales",
    "C81_one_sample_late"
   ],
   "note": "The filter design (scipy.signal.butter) is an argument; its normalised cutoffs and the sections it returns are what the theorems speak about."
  },
  {
   "property": "C82",
   "status": "proved",
   "theorems": [
    "C82_accepts_iff",
    "C82_quotient",
    "C82_self",
    "C82_chain",
    "C82_gain",
    "C82_amplitude"
   ],
   "note": "Complex numbers are Coquelicot's C; transforms are the defining finite sums over exact reals."
  },
  {
   "property": "C83",
   "status": "proved",
   "theorems": [
    "C83_outcomes",
    "C83_scales",
    "C83_interior",
    "C83_zero_bin"
   ],
   "note": ""
  },
  {
   "property": "C84",
   "status": "proved",
   "theorems": [
    "C84_attributes",
    "C84_errors",
    "C84_polar_form",
    "C84_phase_of_real_refuted",
    "C84_interpolated",
    "C84_interpolated_bounds"
   ],
   "note": "The expected statement is false of the code: C84_phase_of_real_refuted; the other theorems say what holds."
  },
  {
   "property": "C85",
   "status": "proved",
   "theorems": [
    "C85_unwrap_accepts",
    "C85_unwrapped",
    "C85_phase_unchanged",
    "C85_unwrapping_refuted",
    "C85_frequencies_kept_iff",
    "C85_peak",
    "C85_smoothing_needs_a_figure",
    "C85_smoothing_without_figure_fails"
   ],
   "note": "The expected statement is false of the code: C85_unwrapping_refuted; the other theorems say what holds."
  },
  {
   "property": "C86",
   "status": "proved",
   "theorems": [
    "C86_linear",
    "C86_equivalent",
    "C86_surface_only",
    "C86_same_directory"
   ],
   "note": ""
  },
  {
   "property": "C87",
   "status": "proved",
   "theorems": [
    "C87_nonlinear_maxima",
    "C87_nonlinear",
    "C87_single_layer_fails"
   ],
   "note": "The nonlinear kernel is an argument: it leaves files or fails at any step."
  },
  {
   "property": "C88",
   "status": "proved",
   "theorems": [
    "C88_linear",
    "C88_equivalent",
    "C88_nonlinear"
   ],
   "note": ""
  },
  {
   "property": "C89",
   "status": "proved",
   "theorems": [
    "C89_curves",
    "C89_values",
    "C89_no_layer",
    "C89_accepted"
   ],
   "note": ""
  },
  {
   "property": "C90",
   "status": "proved",
   "theorems": [
    "C90_by_tf",
    "C90_by_tf_errors",
    "C90_by_tf_inverse",
    "C90_by_tf_identity",
    "C90_superposition",
    "C90_profile",
    "C90_amplify_accepts_iff",
    "C90_profile_errors",
    "C90_profile_inverse",
    "C90_bare_rock"
   ],
   "note": ""
  },
  {
   "property": "C91",
   "status": "proved",
   "theorems": [
    "C91_constructor",
    "C91_constructor_errors",
    "C91_not_finite",
    "C91_default_depth",
    "C91_default_depth_refused",
    "C91_run",
    "C91_run_succeeds",
    "C91_no_site_effect"
   ],
   "note": ""
  },
  {
   "property": "C92",
   "status": "proved",
   "theorems": [
    "C92_lowpass",
    "C92_highpass",
    "C92_band",
    "C92_filter_errors",
    "C92_filter_keeps",
    "C92_filter_linear",
    "C92_filter_causal",
    "C92_baseline",
    "C92_shared_array_rewritten",
    "C92_fourier",
    "C92_fourier_real_or_complex",
    "C92_response_scales",
    "C92_response_exact",
    "C92_response_thinned"
   ],
   "note": "Complex numbers are Coquelicot's C; transforms are the defining finite sums over exact reals."
  },
  {
   "property": "C93",
   "status": "proved",
   "theorems": [
    "C93_accepts_iff",
    "C93_result",
    "C93_swap",
    "C93_gain",
    "C93_self",
    "C93_smoothed",
    "C93_same_grid",
    "C93_first_sample_dropped",
    "C93_shorter_record_held"
   ],
   "note": ""
  },
  {
   "property": "C94",
   "status": "proved",
   "theorems": [
    "C94_accepts_iff",
    "C94_errors",
    "C94_transfer_functions",
    "C94_amplification_functions",
    "C94_f0",
    "C94_uniform_profile",
    "C94_borehole_ignores_rock",
    "C94_quarter_wavelength",
    "C94_basin_depth"
   ],
   "note": "Complex numbers are Coquelicot's C; transforms are the defining finite sums over exact reals."
  },
  {
   "property": "C95",
   "status": "proved",
   "theorems": [
    "C95_ends_dropped",
    "C95_rms_of_kept_samples",
    "C95_arias_of_kept_samples",
    "C95_short_records",
    "C95_bands",
    "C95_outside_band_ignored"
   ],
   "note": ""
  },
  {
   "property": "C96",
   "status": "proved",
   "theorems": [
    "C96_result",
    "C96_no_levels",
    "C96_errors",
    "C96_removes_trend",
    "C96_components_add_up",
    "C96_nearly_orthogonal",
    "C96_energy",
    "C96_zero_mean",
    "C96_constants_vanish",
    "C96_superposition",
    "C96_rotation",
    "C96_wraps_around",
    "C96_peak",
    "C96_peak_errors"
   ],
   "note": "The wavelet's filter coefficients are an argument."
  },
  {
   "property": "C97",
   "status": "proved",
   "theorems": [
    "C97_layout",
    "C97_exists_iff",
    "C97_no_curves",
    "C97_zero_strain_beside_longer",
    "C97_from_list",
    "C97_file_round_trip",
    "C97_construct_iff",
    "C97_construct_errors",
    "C97_pair_matrix_iff",
    "C97_objects_iff",
    "C97_matrix_objects_matrix",
    "C97_objects_matrix_objects"
   ],
   "note": ""
  },
  {
   "property": "C98",
   "status": "proved",
   "theorems": [
    "C98_accepts_iff",
    "C98_rejects",
    "C98_fit_outcome",
    "C98_profile_only",
    "C98_no_halfspace_strengths_refuted",
    "C98_no_halfspace_loses_a_layer",
    "C98_curves"
   ],
   "note": "The fit of the MKZ model to a modulus curve is an argument. The expected statement is false of the code: C98_no_halfspace_strengths_refuted; the other theorems say what holds."
  },
  {
   "property": "C99",
   "status": "proved",
   "theorems": [
    "C99_parameters",
    "C99_uses_modulus_columns_only",
    "C99_materials_independent",
    "C99_layout",
    "C99_fitted_law",
    "C99_zero_reference_strain",
    "C99_rows_are_file_format",
    "C99_not_a_parameter_matrix"
   ],
   "note": "curve_fit is an argument."
  },
  {
   "property": "C100",
   "status": "proved",
   "theorems": [
    "C100_H4_misfit",
    "C100_HH_misfit",
    "C100_candidate_size",
    "C100_error_zero_iff",
    "C100_H4_modulus_free",
    "C100_HH_scale_free",
    "C100_HH_candidates_tie",
    "C100_scipy_call",
    "C100_deap_call",
    "C100_ignored_options",
    "C100_within_bounds",
    "C100_H4_best",
    "C100_HH_best",
    "C100_all_layers",
    "C100_empty_pool"
   ],
   "note": "The optimiser is an argument; nothing is assumed about the parameters it returns."
  },
  {
   "property": "C101",
   "status": "proved",
   "theorems": [
    "C101_site_name",
    "C101_other_name",
    "C101_cuts_six_characters",
    "C101_site_name_refuted",
    "C101_names_collide",
    "C101_no_source_file",
    "C101_written",
    "C101_read_back",
    "C101_no_layers"
   ],
   "note": "The optimiser is an argument; nothing is assumed about the parameters it returns. The expected statement is false of the code: C101_site_name_refuted; the other theorems say what holds."
  },
  {
   "property": "C102",
   "status": "proved",
   "theorems": [
    "C102_mean_thickness",
    "C102_roots",
    "C102_sign",
    "C102_grows",
    "C102_two_metres",
    "C102_retrying",
    "C102_never_ends"
   ],
   "note": "Random generators and the equation solver are arguments; theorems hold for every outcome."
  },
  {
   "property": "C103",
   "status": "proved",
   "theorems": [
    "C103_depths_ordered",
    "C103_depth_error",
    "C103_no_overflow",
    "C103_exact_depths",
    "C103_exact_round_trip",
    "C103_recovered",
    "C103_round_trip_refuted",
    "C103_layer_lost",
    "C103_depths_recovered",
    "C103_middle_between",
    "C103_total_depth",
    "C103_exact_total"
   ],
   "note": "IEEE double precision with Flocq's binary floats; overflow is excluded by stated bounds or is the outcome proved. The expected statement is false of the code: C103_round_trip_refuted; the other theorems say what holds."
  },
  {
   "property": "C104",
   "status": "proved",
   "theorems": [
    "C104_sample_number",
    "C104_exact_multiple",
    "C104_near_multiple",
    "C104_sample_time",
    "C104_sample_time_refuted",
    "C104_refused",
    "C104_zero_step",
    "C104_cut",
    "C104_layer_count",
    "C104_exact_layers",
    "C104_own_thickness",
    "C104_own_thickness_exact",
    "C104_own_thickness_refuted",
    "C104_not_a_number"
   ],
   "note": "IEEE double precision with Flocq's binary floats; overflow is excluded by stated bounds or is the outcome proved. The expected statement is false of the code: C104_sample_time_refuted, C104_own_thickness_refuted; the other theorems say what holds."
  },
  {
   "property": "C105",
   "status": "proved",
   "theorems": [
    "C105_peak",
    "C105_peak_nan",
    "C105_scaled_peak",
    "C105_target",
    "C105_target_refuted",
    "C105_units",
    "C105_units_refuted",
    "C105_integral",
    "C105_displacement",
    "C105_arias",
    "C105_arias_normalised",
    "C105_arias_nan",
    "C105_underflow",
    "C105_pi",
    "C105_constant",
    "C105_intensity",
    "C105_units_g",
    "C105_empty"
   ],
   "note": "IEEE double precision with Flocq's binary floats; overflow is excluded by stated bounds or is the outcome proved. The expected statement is false of the code: C105_target_refuted, C105_units_refuted; the other theorems say what holds."
  },
  {
   "property": "C106",
   "status": "proved",
   "theorems": [
    "C106_times",
    "C106_times_short",
    "C106_axis_accepted",
    "C106_axis_short",
    "C106_bad_spacing",
    "C106_exact",
    "C106_common_axis",
    "C106_same_spacing",
    "C106_same_count_refuted",
    "C106_first_step_refuted",
    "C106_negative_accepted",
    "C106_even_check",
    "C106_axes_pass",
    "C106_align_short"
   ],
   "note": "IEEE double precision with Flocq's binary floats; overflow is excluded by stated bounds or is the outcome proved. The expected statement is false of the code: C106_same_count_refuted, C106_first_step_refuted; the other theorems say what holds."
  },
  {
   "property": "C107",
   "status": "proved",
   "theorems": [
    "C107_search",
    "C107_accepts",
    "C107_layer",
    "C107_nan_accepted",
    "C107_exact_layer",
    "C107_own_tops",
    "C107_own_middles",
    "C107_constant",
    "C107_lost",
    "C107_thin_layer",
    "C107_own_refuted"
   ],
   "note": "IEEE double precision with Flocq's binary floats; overflow is excluded by stated bounds or is the outcome proved. The expected statement is false of the code: C107_own_refuted; the other theorems say what holds."
  },
  {
   "property": "C108",
   "status": "proved",
   "theorems": [
    "C108_exact_between",
    "C108_error",
    "C108_between",
    "C108_uniform",
    "C108_uniform_refuted",
    "C108_below",
    "C108_bad_option"
   ],
   "note": "IEEE double precision with Flocq's binary floats; overflow is excluded by stated bounds or is the outcome proved. The expected statement is false of the code: C108_uniform_refuted; the other theorems say what holds."
  },
  {
   "property": "C109",
   "status": "proved",
   "theorems": [
    "C109_choice",
    "C109_same_figure",
    "C109_others_untouched"
   ],
   "note": "Colours, line styles, grids, legends and sizes are not part of the figure model."
  },
  {
   "property": "C110",
   "status": "proved",
   "theorems": [
    "C110_iff",
    "C110_failures",
    "C110_drawn",
    "C110_units",
    "C110_summary",
    "C110_title"
   ],
   "note": "Colours, line styles, grids, legends and sizes are not part of the figure model."
  },
  {
   "property": "C111",
   "status": "proved",
   "theorems": [
    "C111_drawn",
    "C111_in_view",
    "C111_failures",
    "C111_title",
    "C111_points",
    "C111_additional"
   ],
   "note": "Colours, line styles, grids, legends and sizes are not part of the figure model."
  },
  {
   "property": "C112",
   "status": "proved",
   "theorems": [
    "C112_curve",
    "C112_curves",
    "C112_both",
    "C112_spectrum",
    "C112_raw_units"
   ],
   "note": "Colours, line styles, grids, legends and sizes are not part of the figure model."
  },
  {
   "property": "C113",
   "status": "proved",
   "theorems": [
    "C113_drawn",
    "C113_failures",
    "C113_maxima",
    "C113_results"
   ],
   "note": "Colours, line styles, grids, legends and sizes are not part of the figure model."
  },
  {
   "property": "C114",
   "status": "proved",
   "theorems": [
    "C114_files",
    "C114_refused"
   ],
   "note": "Colours, line styles, grids, legends and sizes are not part of the figure model."
  },
  {
   "property": "C115",
   "status": "proved",
   "theorems": [
    "C115_serial_parallel",
    "C115_same_figure",
    "C115_none"
   ],
   "note": "The optimiser is an argument; nothing is assumed about the parameters it returns. Colours, line styles, grids, legends and sizes are not part of the figure model."
  },
  {
   "property": "C116",
   "status": "proved",
   "theorems": [
    "C116_accepts",
    "C116_points",
    "C116_accuracy",
    "C116_monotone",
    "C116_constant",
    "C116_one_sided",
    "C116_between_refuted",
    "C116_endpoints"
   ],
   "note": "IEEE double precision with Flocq's binary floats; overflow is excluded by stated bounds or is the outcome proved. The expected statement is false of the code: C116_between_refuted; the other theorems say what holds."
  },
  {
   "property": "C117",
   "status": "proved",
   "theorems": [
    "C117_fixed",
    "C117_general",
    "C117_error",
    "C117_fixed_error",
    "C117_order",
    "C117_exact",
    "C117_stable"
   ],
   "note": "Formatting and reading are modelled as correctly rounded, by integer arithmetic; the value read is Flocq's rounding of the decimal number."
  },
  {
   "property": "C118",
   "status": "proved",
   "theorems": [
    "C118_reads",
    "C118_peak",
    "C118_step",
    "C118_late",
    "C118_step_refuted"
   ],
   "note": "Lines are pairs of cells; the separator is not modelled. Saving in g or gal is the subject of C20. The expected statement is false of the code: C118_step_refuted; the other theorems say what holds."
  },
  {
   "property": "C119",
   "status": "proved",
   "theorems": [
    "C119_table",
    "C119_width",
    "C119_thin",
    "C119_svm",
    "C119_numbers",
    "C119_motion",
    "C119_spectrum"
   ],
   "note": "The numbers shown are compared with the stored ones through the decimals of each column."
  },
  {
   "property": "C120",
   "status": "proved",
   "theorems": [
    "C120_order",
    "C120_filename"
   ],
   "note": ""
  },
  {
   "property": "C121",
   "status": "proved",
   "theorems": [
    "C121_MKZ",
    "C121_HH",
    "C121_unit_of_stress",
    "C121_MKZ_range",
    "C121_foreign_name",
    "C121_zero_strain",
    "C121_no_strain",
    "C121_HH_transition",
    "C121_first_damping",
    "C121_damping_alone_refuted",
    "C121_figure",
    "C121_figure_strains",
    "C121_figure_MKZ"
   ],
   "note": "Stresses that are not finite give NaN in the model; matplotlib then leaves points out. The expected statement is false of the code: C121_damping_alone_refuted; the other theorems say what holds."
  },
  {
   "property": "C122",
   "status": "proved",
   "theorems": [
    "C122_both",
    "C122_one_kind",
    "C122_no_layers",
    "C122_first_error",
    "C122_MKZ_succeeds",
    "C122_MKZ_beyond_one_refuted",
    "C122_HH_positive_refuted"
   ],
   "note": "Arrays are compared by value; that the curves are views of one matrix is not modelled. The expected statement is false of the code: C122_MKZ_beyond_one_refuted, C122_HH_positive_refuted; the other theorems say what holds."
  },
  {
   "property": "C123",
   "status": "proved",
   "theorems": [
    "C123_same_tables",
    "C123_amplification",
    "C123_phase",
    "C123_both",
    "C123_between",
    "C123_labels",
    "C123_legend",
    "C123_label_numbers",
    "C123_label_numbers_refuted"
   ],
   "note": "The two-panel form of the figure has no caller and is left out; so is the text of the title. An infinite or NaN site is refused before anything is drawn. The expected statement is false of the code: C123_label_numbers_refuted; the other theorems say what holds."
  },
  {
   "property": "C124",
   "status": "proved",
   "theorems": [
    "C124_profile",
    "C124_curves",
    "C124_count",
    "C124_names",
    "C124_panels",
    "C124_between",
    "C124_every_layer",
    "C124_own_curves",
    "C124_FKZ_line",
    "C124_FKZ_line_refuted"
   ],
   "note": "The vertical lines at the transition strain, titles and styles are left out; the fitting procedure is a parameter. That the text file of parameters is written after the figures is not part of this claim. The expected statement is false of the code: C124_FKZ_line_refuted; the other theorems say what holds."
  },
  {
   "property": "C125",
   "status": "proved",
   "theorems": [
    "C125_truncate",
    "C125_one_sample",
    "C125_window",
    "C125_spectra"
   ],
   "note": "Line styles and figure sizes are left out; the logarithmic axis of periods is not represented."
  },
  {
   "property": "C126",
   "status": "proved",
   "theorems": [
    "C126_filter",
    "C126_two_samples",
    "C126_cutoffs_span",
    "C126_baseline",
    "C126_uncorrected"
   ],
   "note": "The limits matplotlib chooses and the filter design are parameters; the lower limit of the horizontal axes (0.01), their labels and logarithmic scale are left out."
  }
 ]
}