# What `Print Assumptions` lists

Generated by tools/design.py from the output of `Assumptions1.v` .. `Assumptions4.v`. 735 theorems.

## Closed under the global context (no axioms)

63 theorems: C13_length_is_requested, C13_length_normalisation, C14_closest_index_empty, C29_files_distinct, C34_two_columns_refused, C36_merge_shape_mismatch, C37_only_2D, C37_param_columns_roundtrip, C39_constructor, C39_list_refinement, C39_only_slices_break_length, C39_outcomes, C39_params_not_type_checked, C39_slice_assignment, C39_slice_deletion_breaks_length, C40_constructor, C40_failed_update_stops_midway, C40_keys_invariant, C40_outcomes, C40_union_checks, C48_default_strain_raises, C50_argument_types, C58_stranded_by_kernel_failure, C58_working_directory, C59_data_files, C59_directory_is_fresh, C59_existing_directory_removed_refuted, C59_rest_of_disk, C59_starts_iff, C59_what_is_left, C59_working_directory_removed, C61_constructor, C61_directory_names, C61_nested_after_failure, C61_nonlinear_directories, C61_nonlinear_subclass_rejected, C61_results_in_order, C61_serial_parallel_agree, C62_figures_of_failed_simulation, C62_parallel_keeps_callers_options, C62_serial_changes_callers_options, C63_accepts_iff, C63_errors, C65_delta_required, C70_to_txt_default_raises, C88_linear, C97_construct_errors, C97_construct_iff, C97_no_curves, C101_cuts_six_characters, C101_names_collide, C101_other_name, C101_site_name, C101_site_name_refuted, C105_peak_nan, C109_choice, C109_same_figure, C112_both, C112_curve, C112_curves, C120_filename, C120_order, C124_names

## `ClassicalDedekindReals.sig_forall_dec`

12 theorems: C40_inplace_union_bypasses_check, C41_HH_array_roundtrip, C41_HH_roundtrip, C41_MKZ_array_length, C41_MKZ_file_layout_misread, C41_MKZ_file_roundtrip, C41_MKZ_roundtrip, C41_multilayer_file, C41_multilayer_roundtrip, C47_Gmax, C65_two_columns, C126_cutoffs_span

## `ClassicalDedekindReals.sig_forall_dec`, `ClassicalDedekindReals.sig_not_dec`, `Classical_Prop.classic`, `FunctionalExtensionality.functional_extensionality_dep`

358 theorems: C22_accepts_iff, C22_errors, C22_even_spacing_refuted, C22_exact, C22_identities, C22_longer_record, C22_parallel, C22_period_alone, C22_periods, C22_scales, C22_stiff_limit, C22_subsampling, C22_zero_and_sign, C23_denominators, C23_links, C23_motion_exists, C23_result, C23_rigid_base_limit, C23_single_layer, C23_solves_wave_equation, C23_static_limit, C23_uniform_column, C24_agrees_with_linear_tf, C24_every_layer, C24_labels_refuted, C24_transfer_function, C25_rigid_base, C26_amplifies, C26_bare_rock, C26_complex_values, C26_errors, C26_harmonic_refuted, C26_identity, C26_not_finite, C26_result, C26_round_trip, C26_site_response, C26_site_response_errors, C26_site_response_mean, C26_superposition, C35_log_errors, C35_log_within, C38_GGmax_curve, C38_damping_curve, C38_interpolated_construction_is_pure, C38_repeated_construction, C38_stress_curve, C42_MKZ_law, C42_increasing, C42_increasing_beyond_one_refuted, C42_initial_modulus, C43_FKZ_law, C43_negative_strain_is_nan, C44_HH_between_branches, C44_HH_ends, C44_HH_negative_strain_is_nan, C44_transition, C44_transition_limits, C45_MKZ_damping, C46_fit_offsets_caller, C46_fit_results, C46_interpolated_unit_mismatch, C46_refit, C46_serial_parallel_agree, C46_serial_parallel_differ_refuted, C47_K0, C47_OCR, C47_density, C47_density_unbounded_refuted, C47_mu, C47_mu_monotone_refuted, C47_strength, C47_strength_of_rock, C48_confinement, C48_curves, C49_kernel, C49_third_pass_not_a_relaxation, C53_capped_is_settled, C53_default_site, C53_iteration, C53_iteration_fuel, C53_rejected_arguments, C53_shallow_default_half_space, C53_shallow_profile, C53_smooth_profile, C53_uncapped_profile, C54_compliance, C54_correlation_in_unit_interval, C54_random_profile, C54_realisation, C55_passes, C57_equivalent, C57_linear, C64_H4_is_HH, C64_calibration, C64_damping_irrelevant, C67_z1_from_Vs30, C67_z1_from_Vs30_decreasing, C72_empty_reference, C72_interpolation, C73_given_strengths, C73_given_strengths_accepted, C73_parameters_from_profile, C73_strength_length, C74_given_strengths, C74_material_number_selects_the_curve, C74_unknown_material_raises, C84_attributes, C84_errors, C84_interpolated, C84_phase_of_real_refuted, C84_polar_form, C85_frequencies_kept_iff, C85_phase_unchanged, C85_smoothing_needs_a_figure, C85_smoothing_without_figure_fails, C85_unwrap_accepts, C85_unwrapped, C85_unwrapping_refuted, C86_equivalent, C86_linear, C86_same_directory, C86_surface_only, C89_accepted, C89_curves, C89_no_layer, C89_values, C90_amplify_accepts_iff, C90_bare_rock, C90_by_tf, C90_by_tf_errors, C90_by_tf_identity, C90_by_tf_inverse, C90_profile, C90_profile_errors, C90_profile_inverse, C90_superposition, C91_constructor, C91_default_depth, C91_default_depth_refused, C91_no_site_effect, C91_run, C91_run_succeeds, C92_fourier, C92_fourier_real_or_complex, C92_response_exact, C92_response_scales, C92_response_thinned, C93_accepts_iff, C93_first_sample_dropped, C93_gain, C93_result, C93_same_grid, C93_self, C93_shorter_record_held, C93_smoothed, C93_swap, C94_accepts_iff, C94_amplification_functions, C94_borehole_ignores_rock, C94_errors, C94_f0, C94_quarter_wavelength, C94_transfer_functions, C94_uniform_profile, C97_exists_iff, C97_file_round_trip, C97_layout, C97_matrix_objects_matrix, C97_objects_matrix_objects, C97_pair_matrix_iff, C97_zero_strain_beside_longer, C98_curves, C98_fit_outcome, C98_no_halfspace_loses_a_layer, C98_no_halfspace_strengths_refuted, C98_profile_only, C99_fitted_law, C99_layout, C99_materials_independent, C99_not_a_parameter_matrix, C99_parameters, C99_rows_are_file_format, C99_uses_modulus_columns_only, C99_zero_reference_strain, C100_H4_best, C100_H4_misfit, C100_H4_modulus_free, C100_HH_best, C100_HH_candidates_tie, C100_HH_misfit, C100_HH_scale_free, C100_all_layers, C100_candidate_size, C100_deap_call, C100_empty_pool, C100_ignored_options, C100_scipy_call, C100_within_bounds, C101_no_layers, C101_no_source_file, C101_read_back, C101_written, C102_grows, C102_mean_thickness, C102_never_ends, C102_retrying, C102_roots, C102_sign, C102_two_metres, C103_depth_error, C103_depths_ordered, C103_depths_recovered, C103_exact_depths, C103_exact_round_trip, C103_exact_total, C103_layer_lost, C103_middle_between, C103_no_overflow, C103_recovered, C103_round_trip_refuted, C103_total_depth, C104_cut, C104_exact_layers, C104_exact_multiple, C104_layer_count, C104_near_multiple, C104_not_a_number, C104_own_thickness, C104_own_thickness_exact, C104_own_thickness_refuted, C104_refused, C104_sample_number, C104_sample_time, C104_sample_time_refuted, C104_zero_step, C105_arias, C105_arias_nan, C105_arias_normalised, C105_constant, C105_displacement, C105_empty, C105_integral, C105_intensity, C105_peak, C105_pi, C105_scaled_peak, C105_target, C105_target_refuted, C105_underflow, C105_units, C105_units_g, C105_units_refuted, C106_align_short, C106_axes_pass, C106_axis_accepted, C106_axis_short, C106_bad_spacing, C106_common_axis, C106_even_check, C106_exact, C106_first_step_refuted, C106_negative_accepted, C106_same_count_refuted, C106_same_spacing, C106_times, C106_times_short, C107_accepts, C107_constant, C107_exact_layer, C107_layer, C107_lost, C107_nan_accepted, C107_own_middles, C107_own_refuted, C107_own_tops, C107_search, C107_thin_layer, C108_bad_option, C108_below, C108_between, C108_error, C108_exact_between, C108_uniform, C108_uniform_refuted, C109_others_untouched, C112_raw_units, C113_results, C114_files, C114_refused, C115_none, C115_same_figure, C115_serial_parallel, C116_accepts, C116_accuracy, C116_between_refuted, C116_constant, C116_endpoints, C116_monotone, C116_one_sided, C116_points, C117_error, C117_exact, C117_fixed, C117_fixed_error, C117_general, C117_order, C117_stable, C118_late, C118_peak, C118_reads, C118_step, C118_step_refuted, C119_motion, C119_numbers, C119_spectrum, C119_svm, C119_table, C119_width, C121_HH, C121_HH_transition, C121_MKZ, C121_MKZ_range, C121_damping_alone_refuted, C121_figure, C121_figure_MKZ, C121_figure_strains, C121_first_damping, C121_foreign_name, C121_no_strain, C121_unit_of_stress, C121_zero_strain, C122_HH_positive_refuted, C122_MKZ_beyond_one_refuted, C122_MKZ_succeeds, C122_both, C122_first_error, C122_no_layers, C122_one_kind, C123_amplification, C123_between, C123_both, C123_label_numbers, C123_label_numbers_refuted, C123_labels, C123_legend, C123_phase, C123_same_tables, C124_FKZ_line, C124_FKZ_line_refuted, C124_between, C124_count, C124_curves, C124_every_layer, C124_own_curves, C124_panels, C124_profile, C125_spectra

## `ClassicalDedekindReals.sig_forall_dec`, `ClassicalDedekindReals.sig_not_dec`, `FunctionalExtensionality.functional_extensionality_dep`

138 theorems: C16_arias_monotone, C16_normalised, C16_peak_positive_iff, C16_scales_quadratically, C16_zero_record, C17_peak_velocity_scales_refuted, C17_scale_by_factor, C17_scale_to_target, C17_scaled_velocity_motion, C18_bad_arguments, C18_truncate_by_arias, C18_truncate_by_time, C18_window_before_record, C19_convert_between_units, C20_peak_goes_stale, C23_accepts_iff, C23_borehole_ignores_half_space, C23_density_unit, C23_errors, C23_half_space_thickness, C23_splitting_a_layer, C23_stratified, C23_undamped_resonance, C24_kinematics, C24_peaks, C24_stress_strain, C24_superposition, C25_bare_rock, C27_no_climb, C27_preserved_iff, C27_preserved_refuted, C27_recovers, C27_rewritten, C27_unwrapped, C32_conjugate_symmetric, C32_first_row_is_the_sum, C32_frequencies, C32_harmonic_row, C32_invertible, C32_linear, C32_parseval, C32_shape, C34_taper, C34_taper_effect, C35_lin_accepts, C35_lin_bounds, C35_lin_constant, C35_lin_constant_refuted, C35_lin_interior, C35_lin_length, C35_lin_linear, C35_window_weights, C45_damping_bounded, C45_damping_curve, C45_linear_elastic, C45_no_clipping, C45_strain_starting_at_zero, C50_different_lengths_raise, C50_rms_limits_ignored, C50_scores_in_range, C51_at_least_one_tenth, C51_errors, C51_time_steps_refuted, C51_unbounded, C51_value, C52_calc_scores, C52_history, C55_accepts_iff, C55_at_rest, C55_errors, C55_linear_limit, C55_shapes, C55_verbosity, C56_accepts_iff, C56_errors, C56_shapes, C57_nonlinear, C60_enough_curves, C71_constructed_motion, C71_constructor_accepts_iff, C71_peaks_and_rms, C71_second_construction, C76_identical_cross_correlation, C76_identical_records, C77_scaled_simulation, C78_batch_failure, C78_batch_results, C82_accepts_iff, C82_amplitude, C82_chain, C82_gain, C82_quotient, C82_self, C83_interior, C83_outcomes, C83_scales, C83_zero_bin, C84_interpolated_bounds, C85_peak, C87_nonlinear, C87_nonlinear_maxima, C87_single_layer_fails, C91_constructor_errors, C91_not_finite, C92_band, C92_baseline, C92_filter_causal, C92_filter_errors, C92_filter_keeps, C92_filter_linear, C92_highpass, C92_lowpass, C92_shared_array_rewritten, C95_arias_of_kept_samples, C95_ends_dropped, C95_rms_of_kept_samples, C95_short_records, C96_components_add_up, C96_constants_vanish, C96_energy, C96_errors, C96_nearly_orthogonal, C96_no_levels, C96_removes_trend, C96_result, C96_rotation, C96_superposition, C96_wraps_around, C96_zero_mean, C112_spectrum, C113_drawn, C113_failures, C125_one_sample, C125_truncate, C125_window, C126_baseline, C126_filter, C126_two_samples

## `ClassicalDedekindReals.sig_forall_dec`, `FunctionalExtensionality.functional_extensionality_dep`

164 theorems: C01_bad_depth_rejected, C01_depth_is_sum_above, C01_depth_nondecreasing, C01_midpoints, C01_roundtrip_depth, C01_roundtrip_thk, C01_roundtrip_thk_general, C02_containing_layer_unique, C02_interface_belongs_to_lower_layer, C02_negative_depth_rejected, C02_query_is_elementwise, C02_query_returns_containing_layer, C03_midpoint_halfspace_length_mismatch, C03_query_given_thk, C03_scalar_needs_layer_count, C04_VsZ_bad_option, C04_VsZ_between_min_and_max, C04_VsZ_ignores_material_below, C04_VsZ_is_travel_time_average, C04_VsZ_monotone, C04_VsZ_option2, C04_VsZ_uniform, C05_basin_depth, C05_basin_depth_monotone, C05_nothing_fast_above, C05_z1, C06_stratify_refines, C06_stratify_refines_no_halfspace, C06_total_thickness_kept, C06_total_thickness_refuted, C07_Vs_validator_sound_and_complete, C08_accepts_iff, C08_constructed_profile, C08_material_numbers, C08_table_is_valid, C08_table_is_valid_refuted, C09_caller_array, C09_second_construction, C10_bad_arguments, C10_truncated_profile, C11_integer_table, C11_receiver_after_truncate, C11_second_truncation_refuted, C12_damping_antitone, C12_damping_positive, C12_default_damping_upper_bound, C12_density_rule, C12_formula_1, C12_lengths, C12_unknown_formula_gives_zero, C13_number_flag, C13_number_flag_zero, C13_two_column_format, C14_closest_index, C15_differentiate_after_integrate, C15_integrate_after_differentiate, C15_integration_formula, C15_integration_linear, C15_round_trip_identity_refuted, C19_other_units_rejected, C20_after_saves, C20_unchanged_iff, C21_find_f0, C21_first_peak_dominates, C21_penultimate_peak_missed, C28_search_brackets, C28_search_nan, C28_search_outside, C29_files_exist, C29_nan_never_returns, C29_reads_only_its_files, C30_between_neighbours, C30_grid_points, C31_infinite, C31_lenient, C31_nan, C31_not_a_number, C31_strict, C33_bad_arguments, C33_band, C33_difference_equation, C33_difference_equation_unique, C33_highpass, C33_lowpass, C33_shape, C34_idempotent, C34_least_squares, C34_line_vanishes, C34_linear, C34_residual_orthogonal, C36_bad_column_count, C36_extract_accepts_iff, C36_extract_layout, C36_merge_then_extract, C45_modulus_reduction, C45_modulus_reduction_default, C47_PI, C47_mean_stress, C47_vertical_stress, C47_zero_thickness_rewritten, C49_closest_approach, C50_arrays, C50_length_mismatch, C50_score_of_ratio, C50_score_of_two_numbers, C52_average_exists, C53_fixed_thickness, C53_velocity_increment, C54_bottom_velocity_not_compared, C54_layering_terminates, C60_check_layer_count, C65_one_column, C65_single_row_rejected, C66_staircase, C68_depth_array_aliases_caller, C69_inferred_layer_count, C69_no_depth_rejected, C69_query_as_profile, C69_query_as_profile_rejects, C70_km_output, C70_slowness, C72_exact_at_samples, C75_length_mismatch, C75_metric, C75_value, C79_amplification_succeeds, C79_frequencies_increase, C79_methods_refused, C79_phase_and_both, C80_causal, C80_delay, C80_linear, C81_no_drift, C81_one_crossing_vanishes, C81_one_sample_late, C81_outcomes, C81_scales, C88_equivalent, C88_nonlinear, C94_basin_depth, C95_bands, C95_outside_band_ignored, C96_peak, C96_peak_errors, C97_from_list, C97_objects_iff, C98_accepts_iff, C98_rejects, C100_error_zero_iff, C110_drawn, C110_failures, C110_iff, C110_summary, C110_title, C110_units, C111_additional, C111_drawn, C111_failures, C111_in_view, C111_points, C111_title, C113_maxima, C119_thin, C126_uncorrected
