(** Prints the axioms each claimed theorem depends on (see DESIGN.md), part 4 of 4. *)
From Verif Require Import Prop_construct Prop_container Prop_fcount Prop_finterp Prop_fquery Prop_ftime Prop_hhcal Prop_hhclass Prop_results Prop_simkin Prop_simlin Prop_sitefactors Prop_soil Prop_svm Prop_svmrand Prop_texts Prop_wavelet.

Print Assumptions C122_both.
Print Assumptions C122_one_kind.
Print Assumptions C122_no_layers.
Print Assumptions C122_first_error.
Print Assumptions C122_MKZ_succeeds.
Print Assumptions C122_MKZ_beyond_one_refuted.
Print Assumptions C122_HH_positive_refuted.
Print Assumptions C39_list_refinement.
Print Assumptions C39_outcomes.
Print Assumptions C39_constructor.
Print Assumptions C39_slice_deletion_breaks_length.
Print Assumptions C39_only_slices_break_length.
Print Assumptions C39_slice_assignment.
Print Assumptions C39_params_not_type_checked.
Print Assumptions C104_sample_number.
Print Assumptions C104_exact_multiple.
Print Assumptions C104_near_multiple.
Print Assumptions C104_sample_time.
Print Assumptions C104_sample_time_refuted.
Print Assumptions C104_refused.
Print Assumptions C104_zero_step.
Print Assumptions C104_cut.
Print Assumptions C104_layer_count.
Print Assumptions C104_exact_layers.
Print Assumptions C104_own_thickness.
Print Assumptions C104_own_thickness_exact.
Print Assumptions C104_own_thickness_refuted.
Print Assumptions C104_not_a_number.
Print Assumptions C116_accepts.
Print Assumptions C116_points.
Print Assumptions C116_accuracy.
Print Assumptions C116_monotone.
Print Assumptions C116_constant.
Print Assumptions C116_one_sided.
Print Assumptions C116_between_refuted.
Print Assumptions C116_endpoints.
Print Assumptions C107_search.
Print Assumptions C107_accepts.
Print Assumptions C107_layer.
Print Assumptions C107_nan_accepted.
Print Assumptions C107_exact_layer.
Print Assumptions C107_own_tops.
Print Assumptions C107_own_middles.
Print Assumptions C107_constant.
Print Assumptions C107_lost.
Print Assumptions C107_thin_layer.
Print Assumptions C107_own_refuted.
Print Assumptions C106_times.
Print Assumptions C106_times_short.
Print Assumptions C106_axis_accepted.
Print Assumptions C106_axis_short.
Print Assumptions C106_bad_spacing.
Print Assumptions C106_exact.
Print Assumptions C106_common_axis.
Print Assumptions C106_same_spacing.
Print Assumptions C106_same_count_refuted.
Print Assumptions C106_first_step_refuted.
Print Assumptions C106_negative_accepted.
Print Assumptions C106_even_check.
Print Assumptions C106_axes_pass.
Print Assumptions C106_align_short.
Print Assumptions C47_vertical_stress.
Print Assumptions C47_zero_thickness_rewritten.
Print Assumptions C47_density.
Print Assumptions C47_density_unbounded_refuted.
Print Assumptions C47_Gmax.
Print Assumptions C47_OCR.
Print Assumptions C47_K0.
Print Assumptions C47_PI.
Print Assumptions C47_mean_stress.
Print Assumptions C47_strength.
Print Assumptions C47_mu.
Print Assumptions C47_mu_monotone_refuted.
Print Assumptions C48_curves.
Print Assumptions C48_confinement.
Print Assumptions C48_default_strain_raises.
Print Assumptions C49_kernel.
Print Assumptions C49_third_pass_not_a_relaxation.
Print Assumptions C73_parameters_from_profile.
Print Assumptions C73_strength_length.
Print Assumptions C74_material_number_selects_the_curve.
Print Assumptions C74_unknown_material_raises.
Print Assumptions C98_accepts_iff.
Print Assumptions C98_rejects.
Print Assumptions C98_fit_outcome.
Print Assumptions C98_profile_only.
Print Assumptions C98_no_halfspace_strengths_refuted.
Print Assumptions C98_no_halfspace_loses_a_layer.
Print Assumptions C98_curves.
Print Assumptions C63_accepts_iff.
Print Assumptions C63_errors.
Print Assumptions C57_linear.
Print Assumptions C57_equivalent.
Print Assumptions C57_nonlinear.
Print Assumptions C24_kinematics.
Print Assumptions C24_peaks.
Print Assumptions C24_stress_strain.
Print Assumptions C24_superposition.
Print Assumptions C56_accepts_iff.
Print Assumptions C56_errors.
Print Assumptions C56_shapes.
Print Assumptions C24_every_layer.
Print Assumptions C24_transfer_function.
Print Assumptions C25_rigid_base.
Print Assumptions C25_bare_rock.
Print Assumptions C24_agrees_with_linear_tf.
Print Assumptions C24_labels_refuted.
Print Assumptions C28_search_brackets.
Print Assumptions C28_search_outside.
Print Assumptions C28_search_nan.
Print Assumptions C31_strict.
Print Assumptions C31_lenient.
Print Assumptions C31_nan.
Print Assumptions C31_not_a_number.
Print Assumptions C31_infinite.
Print Assumptions C29_files_exist.
Print Assumptions C29_files_distinct.
Print Assumptions C29_nan_never_returns.
Print Assumptions C30_between_neighbours.
Print Assumptions C30_grid_points.
Print Assumptions C79_amplification_succeeds.
Print Assumptions C79_frequencies_increase.
Print Assumptions C79_phase_and_both.
Print Assumptions C79_methods_refused.
Print Assumptions C42_MKZ_law.
Print Assumptions C42_initial_modulus.
Print Assumptions C42_increasing.
Print Assumptions C42_increasing_beyond_one_refuted.
Print Assumptions C43_FKZ_law.
Print Assumptions C43_negative_strain_is_nan.
Print Assumptions C44_transition.
Print Assumptions C44_transition_limits.
Print Assumptions C44_HH_between_branches.
Print Assumptions C44_HH_ends.
Print Assumptions C44_HH_negative_strain_is_nan.
Print Assumptions C45_damping_curve.
Print Assumptions C45_strain_starting_at_zero.
Print Assumptions C45_linear_elastic.
Print Assumptions C45_damping_bounded.
Print Assumptions C45_no_clipping.
Print Assumptions C45_MKZ_damping.
Print Assumptions C45_modulus_reduction.
Print Assumptions C45_modulus_reduction_default.
Print Assumptions C53_smooth_profile.
Print Assumptions C53_fixed_thickness.
Print Assumptions C53_velocity_increment.
Print Assumptions C53_capped_is_settled.
Print Assumptions C53_default_site.
Print Assumptions C53_uncapped_profile.
Print Assumptions C53_shallow_profile.
Print Assumptions C53_shallow_default_half_space.
Print Assumptions C53_rejected_arguments.
Print Assumptions C53_iteration.
Print Assumptions C53_iteration_fuel.
Print Assumptions C54_layering_terminates.
Print Assumptions C54_correlation_in_unit_interval.
Print Assumptions C54_realisation.
Print Assumptions C54_random_profile.
Print Assumptions C54_compliance.
Print Assumptions C54_bottom_velocity_not_compared.
Print Assumptions C119_table.
Print Assumptions C119_width.
Print Assumptions C119_thin.
Print Assumptions C119_svm.
Print Assumptions C119_numbers.
Print Assumptions C119_motion.
Print Assumptions C119_spectrum.
Print Assumptions C120_order.
Print Assumptions C120_filename.
Print Assumptions C96_result.
Print Assumptions C96_no_levels.
Print Assumptions C96_errors.
Print Assumptions C96_removes_trend.
Print Assumptions C96_components_add_up.
Print Assumptions C96_nearly_orthogonal.
Print Assumptions C96_energy.
Print Assumptions C96_zero_mean.
Print Assumptions C96_constants_vanish.
Print Assumptions C96_superposition.
Print Assumptions C96_rotation.
Print Assumptions C96_wraps_around.
Print Assumptions C96_peak.
Print Assumptions C96_peak_errors.
