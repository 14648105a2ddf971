(** Prints the axioms each claimed theorem depends on (see DESIGN.md), part 3 of 4. *)
From Verif Require Import Prop_compare Prop_curves Prop_details Prop_dfiles Prop_figures Prop_freqspec Prop_fvsz Prop_gof Prop_gof2 Prop_hhcal2 Prop_motion_ops Prop_params Prop_sigfig Prop_sitefig Prop_vs_profile Prop_vs_query Prop_vsspec.

Print Assumptions C93_accepts_iff.
Print Assumptions C93_result.
Print Assumptions C93_swap.
Print Assumptions C93_gain.
Print Assumptions C93_self.
Print Assumptions C93_smoothed.
Print Assumptions C93_same_grid.
Print Assumptions C93_first_sample_dropped.
Print Assumptions C93_shorter_record_held.
Print Assumptions C38_GGmax_curve.
Print Assumptions C38_damping_curve.
Print Assumptions C38_stress_curve.
Print Assumptions C38_repeated_construction.
Print Assumptions C38_interpolated_construction_is_pure.
Print Assumptions C46_fit_offsets_caller.
Print Assumptions C46_refit.
Print Assumptions C46_fit_results.
Print Assumptions C46_serial_parallel_agree.
Print Assumptions C46_serial_parallel_differ_refuted.
Print Assumptions C46_interpolated_unit_mismatch.
Print Assumptions C72_interpolation.
Print Assumptions C72_exact_at_samples.
Print Assumptions C72_empty_reference.
Print Assumptions C35_window_weights.
Print Assumptions C33_difference_equation.
Print Assumptions C33_difference_equation_unique.
Print Assumptions C29_reads_only_its_files.
Print Assumptions C59_data_files.
Print Assumptions C87_nonlinear_maxima.
Print Assumptions C101_site_name.
Print Assumptions C101_other_name.
Print Assumptions C101_cuts_six_characters.
Print Assumptions C101_site_name_refuted.
Print Assumptions C101_names_collide.
Print Assumptions C101_no_source_file.
Print Assumptions C101_written.
Print Assumptions C101_read_back.
Print Assumptions C101_no_layers.
Print Assumptions C109_choice.
Print Assumptions C109_same_figure.
Print Assumptions C109_others_untouched.
Print Assumptions C110_iff.
Print Assumptions C110_failures.
Print Assumptions C110_drawn.
Print Assumptions C110_units.
Print Assumptions C110_summary.
Print Assumptions C110_title.
Print Assumptions C111_drawn.
Print Assumptions C111_in_view.
Print Assumptions C111_failures.
Print Assumptions C111_title.
Print Assumptions C111_points.
Print Assumptions C111_additional.
Print Assumptions C112_curve.
Print Assumptions C112_curves.
Print Assumptions C112_both.
Print Assumptions C112_spectrum.
Print Assumptions C112_raw_units.
Print Assumptions C84_attributes.
Print Assumptions C84_errors.
Print Assumptions C84_polar_form.
Print Assumptions C84_phase_of_real_refuted.
Print Assumptions C84_interpolated.
Print Assumptions C84_interpolated_bounds.
Print Assumptions C85_unwrap_accepts.
Print Assumptions C85_unwrapped.
Print Assumptions C85_phase_unchanged.
Print Assumptions C85_unwrapping_refuted.
Print Assumptions C85_frequencies_kept_iff.
Print Assumptions C85_peak.
Print Assumptions C85_smoothing_needs_a_figure.
Print Assumptions C85_smoothing_without_figure_fails.
Print Assumptions C108_exact_between.
Print Assumptions C108_error.
Print Assumptions C108_between.
Print Assumptions C108_uniform.
Print Assumptions C108_uniform_refuted.
Print Assumptions C108_below.
Print Assumptions C108_bad_option.
Print Assumptions C50_score_of_two_numbers.
Print Assumptions C50_score_of_ratio.
Print Assumptions C50_arrays.
Print Assumptions C50_argument_types.
Print Assumptions C50_length_mismatch.
Print Assumptions C50_scores_in_range.
Print Assumptions C50_rms_limits_ignored.
Print Assumptions C50_different_lengths_raise.
Print Assumptions C51_value.
Print Assumptions C51_at_least_one_tenth.
Print Assumptions C51_time_steps_refuted.
Print Assumptions C51_unbounded.
Print Assumptions C51_errors.
Print Assumptions C52_calc_scores.
Print Assumptions C52_history.
Print Assumptions C52_average_exists.
Print Assumptions C76_identical_records.
Print Assumptions C76_identical_cross_correlation.
Print Assumptions C77_scaled_simulation.
Print Assumptions C78_batch_results.
Print Assumptions C78_batch_failure.
Print Assumptions C95_ends_dropped.
Print Assumptions C95_rms_of_kept_samples.
Print Assumptions C95_arias_of_kept_samples.
Print Assumptions C95_short_records.
Print Assumptions C95_bands.
Print Assumptions C95_outside_band_ignored.
Print Assumptions C47_strength_of_rock.
Print Assumptions C49_closest_approach.
Print Assumptions C73_given_strengths.
Print Assumptions C73_given_strengths_accepted.
Print Assumptions C74_given_strengths.
Print Assumptions C17_scale_by_factor.
Print Assumptions C17_scale_to_target.
Print Assumptions C17_scaled_velocity_motion.
Print Assumptions C17_peak_velocity_scales_refuted.
Print Assumptions C18_truncate_by_time.
Print Assumptions C18_truncate_by_arias.
Print Assumptions C18_window_before_record.
Print Assumptions C18_bad_arguments.
Print Assumptions C19_convert_between_units.
Print Assumptions C19_other_units_rejected.
Print Assumptions C20_after_saves.
Print Assumptions C20_unchanged_iff.
Print Assumptions C20_peak_goes_stale.
Print Assumptions C21_find_f0.
Print Assumptions C21_first_peak_dominates.
Print Assumptions C21_penultimate_peak_missed.
Print Assumptions C40_constructor.
Print Assumptions C40_keys_invariant.
Print Assumptions C40_outcomes.
Print Assumptions C40_failed_update_stops_midway.
Print Assumptions C40_inplace_union_bypasses_check.
Print Assumptions C40_union_checks.
Print Assumptions C41_HH_roundtrip.
Print Assumptions C41_HH_array_roundtrip.
Print Assumptions C41_MKZ_roundtrip.
Print Assumptions C41_MKZ_file_roundtrip.
Print Assumptions C41_MKZ_file_layout_misread.
Print Assumptions C41_MKZ_array_length.
Print Assumptions C41_multilayer_roundtrip.
Print Assumptions C41_multilayer_file.
Print Assumptions C125_truncate.
Print Assumptions C125_one_sample.
Print Assumptions C125_window.
Print Assumptions C125_spectra.
Print Assumptions C123_same_tables.
Print Assumptions C123_amplification.
Print Assumptions C123_phase.
Print Assumptions C123_both.
Print Assumptions C123_between.
Print Assumptions C123_labels.
Print Assumptions C123_legend.
Print Assumptions C123_label_numbers.
Print Assumptions C123_label_numbers_refuted.
Print Assumptions C08_accepts_iff.
Print Assumptions C08_constructed_profile.
Print Assumptions C08_material_numbers.
Print Assumptions C08_table_is_valid.
Print Assumptions C08_table_is_valid_refuted.
Print Assumptions C09_caller_array.
Print Assumptions C09_second_construction.
Print Assumptions C10_truncated_profile.
Print Assumptions C10_bad_arguments.
Print Assumptions C11_receiver_after_truncate.
Print Assumptions C11_integer_table.
Print Assumptions C11_second_truncation_refuted.
Print Assumptions C68_depth_array_aliases_caller.
Print Assumptions C69_query_as_profile.
Print Assumptions C69_query_as_profile_rejects.
Print Assumptions C69_inferred_layer_count.
Print Assumptions C69_no_depth_rejected.
Print Assumptions C70_km_output.
Print Assumptions C70_slowness.
Print Assumptions C70_to_txt_default_raises.
Print Assumptions C94_accepts_iff.
Print Assumptions C94_errors.
Print Assumptions C94_transfer_functions.
Print Assumptions C94_amplification_functions.
Print Assumptions C94_f0.
Print Assumptions C94_uniform_profile.
Print Assumptions C94_borehole_ignores_rock.
Print Assumptions C94_quarter_wavelength.
Print Assumptions C94_basin_depth.
