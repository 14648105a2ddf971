(** Prints the axioms each claimed theorem depends on (see DESIGN.md), part 1 of 4. *)
From Verif Require Import Prop_batch Prop_curvemat Prop_dampcal Prop_figres Prop_files Prop_fourier Prop_gmsignal Prop_lawcurves Prop_mkzfit Prop_profile Prop_propagate Prop_sine Prop_siteresp Prop_svmeq Prop_textfile Prop_unwrap.

Print Assumptions C61_constructor.
Print Assumptions C61_directory_names.
Print Assumptions C61_results_in_order.
Print Assumptions C61_serial_parallel_agree.
Print Assumptions C61_nonlinear_subclass_rejected.
Print Assumptions C62_serial_changes_callers_options.
Print Assumptions C62_parallel_keeps_callers_options.
Print Assumptions C62_figures_of_failed_simulation.
Print Assumptions C61_nonlinear_directories.
Print Assumptions C61_nested_after_failure.
Print Assumptions C97_layout.
Print Assumptions C97_exists_iff.
Print Assumptions C97_no_curves.
Print Assumptions C97_zero_strain_beside_longer.
Print Assumptions C97_from_list.
Print Assumptions C97_file_round_trip.
Print Assumptions C97_construct_iff.
Print Assumptions C97_construct_errors.
Print Assumptions C97_pair_matrix_iff.
Print Assumptions C97_objects_iff.
Print Assumptions C97_matrix_objects_matrix.
Print Assumptions C97_objects_matrix_objects.
Print Assumptions C89_curves.
Print Assumptions C89_values.
Print Assumptions C89_no_layer.
Print Assumptions C89_accepted.
Print Assumptions C64_calibration.
Print Assumptions C64_H4_is_HH.
Print Assumptions C64_damping_irrelevant.
Print Assumptions C113_drawn.
Print Assumptions C113_failures.
Print Assumptions C113_maxima.
Print Assumptions C113_results.
Print Assumptions C114_files.
Print Assumptions C114_refused.
Print Assumptions C115_serial_parallel.
Print Assumptions C115_same_figure.
Print Assumptions C115_none.
Print Assumptions C58_working_directory.
Print Assumptions C58_stranded_by_kernel_failure.
Print Assumptions C59_directory_is_fresh.
Print Assumptions C59_starts_iff.
Print Assumptions C59_rest_of_disk.
Print Assumptions C59_what_is_left.
Print Assumptions C59_existing_directory_removed_refuted.
Print Assumptions C59_working_directory_removed.
Print Assumptions C32_shape.
Print Assumptions C32_frequencies.
Print Assumptions C32_conjugate_symmetric.
Print Assumptions C32_linear.
Print Assumptions C32_invertible.
Print Assumptions C32_parseval.
Print Assumptions C32_harmonic_row.
Print Assumptions C32_first_row_is_the_sum.
Print Assumptions C82_accepts_iff.
Print Assumptions C82_quotient.
Print Assumptions C82_self.
Print Assumptions C82_chain.
Print Assumptions C82_gain.
Print Assumptions C82_amplitude.
Print Assumptions C92_lowpass.
Print Assumptions C92_highpass.
Print Assumptions C92_band.
Print Assumptions C92_filter_errors.
Print Assumptions C92_filter_keeps.
Print Assumptions C92_filter_linear.
Print Assumptions C92_filter_causal.
Print Assumptions C92_baseline.
Print Assumptions C92_shared_array_rewritten.
Print Assumptions C92_fourier.
Print Assumptions C92_fourier_real_or_complex.
Print Assumptions C92_response_scales.
Print Assumptions C92_response_exact.
Print Assumptions C92_response_thinned.
Print Assumptions C121_MKZ.
Print Assumptions C121_HH.
Print Assumptions C121_unit_of_stress.
Print Assumptions C121_MKZ_range.
Print Assumptions C121_foreign_name.
Print Assumptions C121_zero_strain.
Print Assumptions C121_no_strain.
Print Assumptions C121_HH_transition.
Print Assumptions C121_first_damping.
Print Assumptions C121_damping_alone_refuted.
Print Assumptions C121_figure.
Print Assumptions C121_figure_strains.
Print Assumptions C121_figure_MKZ.
Print Assumptions C99_parameters.
Print Assumptions C99_uses_modulus_columns_only.
Print Assumptions C99_materials_independent.
Print Assumptions C99_layout.
Print Assumptions C99_fitted_law.
Print Assumptions C99_zero_reference_strain.
Print Assumptions C99_rows_are_file_format.
Print Assumptions C99_not_a_parameter_matrix.
Print Assumptions C01_depth_is_sum_above.
Print Assumptions C01_depth_nondecreasing.
Print Assumptions C01_midpoints.
Print Assumptions C01_roundtrip_thk.
Print Assumptions C01_roundtrip_thk_general.
Print Assumptions C01_roundtrip_depth.
Print Assumptions C01_bad_depth_rejected.
Print Assumptions C02_query_returns_containing_layer.
Print Assumptions C02_containing_layer_unique.
Print Assumptions C02_interface_belongs_to_lower_layer.
Print Assumptions C02_query_is_elementwise.
Print Assumptions C02_negative_depth_rejected.
Print Assumptions C03_query_given_thk.
Print Assumptions C03_scalar_needs_layer_count.
Print Assumptions C03_midpoint_halfspace_length_mismatch.
Print Assumptions C04_VsZ_is_travel_time_average.
Print Assumptions C04_VsZ_option2.
Print Assumptions C04_VsZ_between_min_and_max.
Print Assumptions C04_VsZ_uniform.
Print Assumptions C04_VsZ_monotone.
Print Assumptions C04_VsZ_ignores_material_below.
Print Assumptions C04_VsZ_bad_option.
Print Assumptions C05_basin_depth.
Print Assumptions C05_nothing_fast_above.
Print Assumptions C05_basin_depth_monotone.
Print Assumptions C05_z1.
Print Assumptions C06_stratify_refines.
Print Assumptions C06_stratify_refines_no_halfspace.
Print Assumptions C06_total_thickness_kept.
Print Assumptions C06_total_thickness_refuted.
Print Assumptions C12_lengths.
Print Assumptions C12_formula_1.
Print Assumptions C12_density_rule.
Print Assumptions C12_damping_positive.
Print Assumptions C12_damping_antitone.
Print Assumptions C12_default_damping_upper_bound.
Print Assumptions C12_unknown_formula_gives_zero.
Print Assumptions C66_staircase.
Print Assumptions C67_z1_from_Vs30.
Print Assumptions C67_z1_from_Vs30_decreasing.
Print Assumptions C90_by_tf.
Print Assumptions C90_by_tf_errors.
Print Assumptions C90_by_tf_inverse.
Print Assumptions C90_by_tf_identity.
Print Assumptions C90_superposition.
Print Assumptions C90_profile.
Print Assumptions C90_amplify_accepts_iff.
Print Assumptions C90_profile_errors.
Print Assumptions C90_profile_inverse.
Print Assumptions C90_bare_rock.
Print Assumptions C91_constructor.
Print Assumptions C91_constructor_errors.
Print Assumptions C91_not_finite.
Print Assumptions C91_default_depth.
Print Assumptions C91_default_depth_refused.
Print Assumptions C91_run.
Print Assumptions C91_run_succeeds.
Print Assumptions C91_no_site_effect.
Print Assumptions C83_outcomes.
Print Assumptions C83_scales.
Print Assumptions C83_interior.
Print Assumptions C83_zero_bin.
Print Assumptions C26_amplifies.
Print Assumptions C26_identity.
Print Assumptions C26_superposition.
Print Assumptions C26_complex_values.
Print Assumptions C26_harmonic_refuted.
Print Assumptions C26_site_response.
Print Assumptions C26_site_response_errors.
Print Assumptions C26_site_response_mean.
Print Assumptions C26_bare_rock.
Print Assumptions C102_mean_thickness.
Print Assumptions C102_roots.
Print Assumptions C102_sign.
Print Assumptions C102_grows.
Print Assumptions C102_two_metres.
Print Assumptions C102_retrying.
Print Assumptions C102_never_ends.
Print Assumptions C118_reads.
Print Assumptions C118_peak.
Print Assumptions C118_step.
Print Assumptions C118_late.
Print Assumptions C118_step_refuted.
Print Assumptions C27_unwrapped.
Print Assumptions C27_rewritten.
Print Assumptions C27_preserved_iff.
Print Assumptions C27_no_climb.
Print Assumptions C27_recovers.
Print Assumptions C27_preserved_refuted.
