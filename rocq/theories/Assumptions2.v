(** Prints the axioms each claimed theorem depends on (see DESIGN.md), part 2 of 4. *)
From Verif Require Import Prop_amplify Prop_baseline Prop_dfits Prop_eqlim Prop_eqlin Prop_fdepth Prop_filter Prop_filtfig Prop_fmotion Prop_generic Prop_hhfig Prop_linear Prop_motion Prop_runs Prop_smooth Prop_spectra Prop_text Prop_trend.

Print Assumptions C26_result.
Print Assumptions C26_not_finite.
Print Assumptions C26_errors.
Print Assumptions C26_round_trip.
Print Assumptions C81_outcomes.
Print Assumptions C81_one_crossing_vanishes.
Print Assumptions C81_no_drift.
Print Assumptions C81_scales.
Print Assumptions C81_one_sample_late.
Print Assumptions C100_H4_misfit.
Print Assumptions C100_HH_misfit.
Print Assumptions C100_candidate_size.
Print Assumptions C100_error_zero_iff.
Print Assumptions C100_H4_modulus_free.
Print Assumptions C100_HH_scale_free.
Print Assumptions C100_HH_candidates_tie.
Print Assumptions C100_scipy_call.
Print Assumptions C100_deap_call.
Print Assumptions C100_ignored_options.
Print Assumptions C100_within_bounds.
Print Assumptions C100_H4_best.
Print Assumptions C100_HH_best.
Print Assumptions C100_all_layers.
Print Assumptions C100_empty_pool.
Print Assumptions C55_shapes.
Print Assumptions C55_errors.
Print Assumptions C55_linear_limit.
Print Assumptions C55_at_rest.
Print Assumptions C55_verbosity.
Print Assumptions C60_check_layer_count.
Print Assumptions C60_enough_curves.
Print Assumptions C55_accepts_iff.
Print Assumptions C55_passes.
Print Assumptions C103_depths_ordered.
Print Assumptions C103_depth_error.
Print Assumptions C103_no_overflow.
Print Assumptions C103_exact_depths.
Print Assumptions C103_exact_round_trip.
Print Assumptions C103_recovered.
Print Assumptions C103_round_trip_refuted.
Print Assumptions C103_layer_lost.
Print Assumptions C103_depths_recovered.
Print Assumptions C103_middle_between.
Print Assumptions C103_total_depth.
Print Assumptions C103_exact_total.
Print Assumptions C33_lowpass.
Print Assumptions C33_highpass.
Print Assumptions C33_band.
Print Assumptions C33_bad_arguments.
Print Assumptions C33_shape.
Print Assumptions C80_causal.
Print Assumptions C80_linear.
Print Assumptions C80_delay.
Print Assumptions C126_filter.
Print Assumptions C126_two_samples.
Print Assumptions C126_cutoffs_span.
Print Assumptions C126_baseline.
Print Assumptions C126_uncorrected.
Print Assumptions C105_peak.
Print Assumptions C105_peak_nan.
Print Assumptions C105_scaled_peak.
Print Assumptions C105_target.
Print Assumptions C105_target_refuted.
Print Assumptions C105_units.
Print Assumptions C105_units_refuted.
Print Assumptions C105_integral.
Print Assumptions C105_displacement.
Print Assumptions C105_arias.
Print Assumptions C105_arias_normalised.
Print Assumptions C105_arias_nan.
Print Assumptions C105_underflow.
Print Assumptions C105_pi.
Print Assumptions C105_constant.
Print Assumptions C105_intensity.
Print Assumptions C105_units_g.
Print Assumptions C105_empty.
Print Assumptions C07_Vs_validator_sound_and_complete.
Print Assumptions C13_number_flag.
Print Assumptions C13_number_flag_zero.
Print Assumptions C13_length_normalisation.
Print Assumptions C13_length_is_requested.
Print Assumptions C13_two_column_format.
Print Assumptions C14_closest_index.
Print Assumptions C14_closest_index_empty.
Print Assumptions C36_merge_then_extract.
Print Assumptions C36_extract_layout.
Print Assumptions C36_bad_column_count.
Print Assumptions C36_merge_shape_mismatch.
Print Assumptions C36_extract_accepts_iff.
Print Assumptions C37_param_columns_roundtrip.
Print Assumptions C37_only_2D.
Print Assumptions C65_one_column.
Print Assumptions C65_single_row_rejected.
Print Assumptions C65_two_columns.
Print Assumptions C65_delta_required.
Print Assumptions C75_value.
Print Assumptions C75_metric.
Print Assumptions C75_length_mismatch.
Print Assumptions C124_profile.
Print Assumptions C124_curves.
Print Assumptions C124_count.
Print Assumptions C124_names.
Print Assumptions C124_panels.
Print Assumptions C124_between.
Print Assumptions C124_every_layer.
Print Assumptions C124_own_curves.
Print Assumptions C124_FKZ_line.
Print Assumptions C124_FKZ_line_refuted.
Print Assumptions C23_solves_wave_equation.
Print Assumptions C23_motion_exists.
Print Assumptions C23_denominators.
Print Assumptions C23_links.
Print Assumptions C23_borehole_ignores_half_space.
Print Assumptions C23_rigid_base_limit.
Print Assumptions C23_splitting_a_layer.
Print Assumptions C23_half_space_thickness.
Print Assumptions C23_density_unit.
Print Assumptions C23_stratified.
Print Assumptions C23_uniform_column.
Print Assumptions C23_single_layer.
Print Assumptions C23_undamped_resonance.
Print Assumptions C23_static_limit.
Print Assumptions C23_accepts_iff.
Print Assumptions C23_errors.
Print Assumptions C23_result.
Print Assumptions C15_integration_formula.
Print Assumptions C15_integration_linear.
Print Assumptions C15_differentiate_after_integrate.
Print Assumptions C15_integrate_after_differentiate.
Print Assumptions C15_round_trip_identity_refuted.
Print Assumptions C16_arias_monotone.
Print Assumptions C16_peak_positive_iff.
Print Assumptions C16_normalised.
Print Assumptions C16_zero_record.
Print Assumptions C16_scales_quadratically.
Print Assumptions C71_constructor_accepts_iff.
Print Assumptions C71_constructed_motion.
Print Assumptions C71_peaks_and_rms.
Print Assumptions C71_second_construction.
Print Assumptions C86_linear.
Print Assumptions C86_equivalent.
Print Assumptions C86_surface_only.
Print Assumptions C86_same_directory.
Print Assumptions C87_nonlinear.
Print Assumptions C87_single_layer_fails.
Print Assumptions C88_linear.
Print Assumptions C88_equivalent.
Print Assumptions C88_nonlinear.
Print Assumptions C35_lin_accepts.
Print Assumptions C35_lin_length.
Print Assumptions C35_lin_interior.
Print Assumptions C35_lin_bounds.
Print Assumptions C35_lin_linear.
Print Assumptions C35_lin_constant.
Print Assumptions C35_lin_constant_refuted.
Print Assumptions C35_log_within.
Print Assumptions C35_log_errors.
Print Assumptions C22_accepts_iff.
Print Assumptions C22_errors.
Print Assumptions C22_even_spacing_refuted.
Print Assumptions C22_periods.
Print Assumptions C22_parallel.
Print Assumptions C22_period_alone.
Print Assumptions C22_identities.
Print Assumptions C22_exact.
Print Assumptions C22_scales.
Print Assumptions C22_zero_and_sign.
Print Assumptions C22_subsampling.
Print Assumptions C22_longer_record.
Print Assumptions C22_stiff_limit.
Print Assumptions C117_fixed.
Print Assumptions C117_general.
Print Assumptions C117_error.
Print Assumptions C117_fixed_error.
Print Assumptions C117_order.
Print Assumptions C117_exact.
Print Assumptions C117_stable.
Print Assumptions C34_residual_orthogonal.
Print Assumptions C34_least_squares.
Print Assumptions C34_line_vanishes.
Print Assumptions C34_idempotent.
Print Assumptions C34_linear.
Print Assumptions C34_taper.
Print Assumptions C34_taper_effect.
Print Assumptions C34_two_columns_refused.
