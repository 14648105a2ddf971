Labels and grids
* Fourier spectra are labelled one bin too high: row m holds harmonic m but is reported at (m+1)/(N dt) (`C32_first_row_is_the_sum`, `C32_harmonic_row`); amplification therefore multiplies harmonic m by the transfer function at (m+1) df (`C26_harmonic_refuted`), and the every-layer simulation reports the transfer function of (m+1/15)/(N dt) at (m+1)/(N dt) (`C24_labels_refuted`).
* `find_f0` misses a peak at the last but one sample (`C21_penultimate_peak_missed`); for a profile without impedance contrast `get_f0_RO` returns the first grid frequency (`C94_uniform_profile`).
* `Ground_Motion.compare` drops the first sample of records that start at time zero (`C93_first_sample_dropped`).
* Re-discretisation can make a layer thicker (3.00001 m becomes 4 m at 225 m/s) (`C06_total_thickness_refuted`).
* Response spectra accept records whose time steps shrink (`C22_even_spacing_refuted`).

Changes to the caller's data
* Constructing a profile, motion or curve converts the caller's array in place; a second construction converts twice (`C09_second_construction`, `C71_second_construction`, `C38_repeated_construction`). Some failures come after the conversion (`C38_damping_curve`, `C38_stress_curve`).
* `Vs_Profile.truncate` writes into the receiver (`C11_receiver_after_truncate`, `C11_second_truncation_refuted`).
* `save_accel` in g or gal rewrites the motion (`C20_after_saves`, `C20_peak_goes_stale`); a lowpass above Nyquist shares its array with the original, which is then rewritten too (`C92_shared_array_rewritten`).
* Damping fits subtract the first damping from the caller's data (`C46_fit_offsets_caller`); serial and parallel fits can differ (`C46_serial_parallel_differ_refuted`).
* `get_depth_array` follows later writes to the caller's array (`C68_depth_array_aliases_caller`).
* A serial batch run changes the caller's options (`C62_serial_changes_callers_options`). Scores of arrays floor the caller's arrays (`C50_arrays`). A zero last thickness becomes 1 m in the caller's array (`C47_zero_thickness_rewritten`).

Wrong or surprising results
* `Damping_Calibration.get_H4_x_param` returns HH parameters (`C64_H4_is_HH`).
* Linear and equivalent-linear runs return profiles with densities 1000 times too large (`C57_linear`, `C57_equivalent`).
* The silent equivalent-linear run ignores its tolerance; results depend on `verbose` (`C55_verbosity`).
* `robust_unwrap` changes phases by other than whole turns (`C27_preserved_refuted`); `get_unwrapped_phase` returns a wrapped phase on a replaced frequency axis (`C85_unwrapping_refuted`, `C85_frequencies_kept_iff`).
* A motion built from velocity does not scale its peak velocity (`C17_peak_velocity_scales_refuted`); differentiating an integrated record loses its first sample (`C15_round_trip_identity_refuted`).
* A truncation window before the record returns the record without its tail (`C18_window_before_record`).
* Filters are causal, not zero-phase (`C80_causal`, `C80_delay`); `lin_smooth` treats samples beyond the ends as zero (`C35_lin_constant_refuted`); `sine_smooth` always zeroes a bin (`C83_zero_bin`); baseline correction zeroes records with one sign change and shifts by a sample (`C81_one_crossing_vanishes`, `C81_one_sample_late`).
* tau_FKZ and tau_HH are NaN at negative strain (`C43_negative_strain_is_nan`, `C44_HH_negative_strain_is_nan`); MKZ stress can decrease for s > 1 (`C42_increasing_beyond_one_refuted`).
* Shallow SVM sites with the default cap get a 1 m/s half space (`C53_shallow_default_half_space`); the compliance check on the bottom velocity compares the added half space (`C54_bottom_velocity_not_compared`).
* HH calibration: the "relaxed" third search does not relax (`C49_third_pass_not_a_relaxation`); the density formula is unbounded near the surface (`C47_density_unbounded_refuted`); the mu adjustment is not monotone (`C47_mu_monotone_refuted`).
* The cross-correlation score is not at least 0.1 for different time steps (`C51_time_steps_refuted`). The phase of a real spectrum need not be zero (`C84_phase_of_real_refuted`).
* Reading a file-layout MKZ array as an in-memory one mixes parameters (`C41_MKZ_file_layout_misread`); the transposed result of `fit_MKZ` is misread by the multi-layer class (`C99_not_a_parameter_matrix`); a zero reference strain inside the search box gives zero modulus (`C99_zero_reference_strain`).
* An interpolated curve built from unit '1' strains is fitted on strains 100 times too small (`C46_interpolated_unit_mismatch`).
* An unknown damping formula number gives zero damping (`C12_unknown_formula_gives_zero`). A table stored for one profile shape can violate the validator (`C08_table_is_valid_refuted`).
* Default output names drop the first six characters of the stem whenever 'curve_' occurs in it, and collide across directories (`C101_site_name_refuted`, `C101_names_collide`).

Calls that always or needlessly fail
* `to_txt` with its default precision (`C70_to_txt_default_raises`); `get_smoothed` without a figure (`C85_smoothing_without_figure_fails`); tapering a two-column record (`C34_two_columns_refused`); Darendeli curves without strains (`C48_default_strain_raises`).
* One-layer parameter files (`C41_multilayer_file`), one-layer nonlinear columns after the kernel ran (`C87_single_layer_fails`), nonlinear subclasses in a batch (`C61_nonlinear_subclass_rejected`), profiles without half space with strengths (`C98_no_halfspace_strengths_refuted`; without strengths the deepest layer gets no parameters, `C98_no_halfspace_loses_a_layer`).
* A parallel batch with figures loses all results if one simulation was caught failing (`C62_figures_of_failed_simulation`).
* Site effect adjustment without z1 refuses sites from 948 m/s on (`C91_default_depth_refused`); NaN coordinates pass the constructor and fail later (`C29_nan_never_returns`, `C31_nan`).
* A curve with zero strain cannot be put beside a longer one (`C97_zero_strain_beside_longer`). `get_curve_matrix` ignores `save_to_file` (comment in `M_curvemat.v`).

State left behind
* A failing kernel leaves the process in the simulation directory (`C58_stranded_by_kernel_failure`), and later simulations of a batch nest below it (`C61_nested_after_failure`).
* Removing the simulation directory can remove pre-existing empty parents, even the working directory (`C59_existing_directory_removed_refuted`, `C59_working_directory_removed`).
* Deleting a slice from a container breaks `n_layer` (`C39_slice_deletion_breaks_length`); in-place union bypasses the key check (`C40_inplace_union_bypasses_check`); a failed update stops midway (`C40_failed_update_stops_midway`).
* The linear run for the surface only drops name and directory (`C86_same_directory`, `C86_surface_only`).
* The random profile keeps calling the equation solver with the same arguments until it converges, hence for ever if the first call does not (`C102_never_ends`); at the surface zero thickness solves the equation too (`C102_roots`).

Rounding
* `truncate` with a time that is a sample time can begin one sample early: int(0.29 / 0.01) is 28 (`C104_sample_time_refuted`; always k or k-1, `C104_sample_time`).
* A profile of three layers of 0.1 m queried with 0.1 m gets four layers (`C104_own_thickness_refuted`), hence also `get_discretized_profile(fixed_thk=...)`.
* Thicknesses do not survive thk2dep and dep2thk, thin layers can vanish (`C103_round_trip_refuted`, `C103_layer_lost`); scaling misses the target PGA by a rounding error (`C105_target_refuted`).
* The normalised Arias intensity of a tiny non-zero record is NaN (`C105_underflow`).
* Aligning a record of 3 samples at 0.01 s with itself gives 4 times (`C106_same_count_refuted`); a negative step and number of seconds are accepted (`C106_negative_accepted`).
* Querying a NaN depth is accepted (`C107_nan_accepted`); layers thinner than the rounding of their depth are never found, even by the thicknesses of the profile itself (`C107_thin_layer`, `C107_own_refuted`).
* Vs30 of three layers of 10 m at 200 m/s is below 200 m/s (`C108_uniform_refuted`).
* Linear interpolation can pass the right ordinate: a value between 0.3 and 0.9 is above 0.9 (`C116_between_refuted`); the left one never (`C116_monotone`). NaN queried of one data point gives its ordinate (`C116_points`).

Texts
* A saved motion whose first two times agree in five digits is read with a time step of 0 (`C118_step_refuted`, `C118_late`).
* A layer thinner than 5 mm is printed like a half space (`C119_thin`); the text of an SVM gives Vs30 with two digits in scientific notation (`C119_svm`).

Figures
* `Ground_Motion.plot(show_as_unit='g')` always raises and leaves an empty figure (`C110_failures`, `C110_units`); `plot` and `summary` raise IndexError when the peak lies in the last fortieth of the record (`C110_iff`, `C110_summary`).
* A title given to a profile read from a file, or to `SVM.plot`, raises TypeError (`C111_title`); the comparison plot of an SVM profile sets limits that ignore the smooth profile (`C111_additional`).
* Axes given without a figure open an extra empty figure (`C109_choice`), and are ignored by `Multiple_Curves.plot`, which also drops keyword arguments (`C112_curves`).
* Raw curve data in unit 1 are drawn under an axis label in per cent if the curve was interpolated (`C112_raw_units`).
* The image of the maxima goes to the directory of the results instead of the one asked for; the call fails after the first image if it does not exist (`C114_files`).
* Damping fits draw different figures in serial and parallel runs (`C115_serial_parallel`, `C115_same_figure`).

Figures of calibrations and truncations
* In the figure of an HH calibration the FKZ line of the lower panel lacks the exponent d, so that it contradicts the upper panel (`C124_FKZ_line`, `C124_FKZ_line_refuted`).
* `save_fig` without `show_fig` saves nothing; with both, a missing directory loses the parameters after the first layer (`C124_profile`, `C124_curves`). Images are named by the number of the layer only (`C124_names`).
* Truncating to one sample raises IndexError with `show_fig` and ValueError without, and leaves an unfinished figure (`C125_one_sample`).
* Filtering two samples works, but fails with `show_fig` (`C126_two_samples`).
* The figure of a baseline correction draws, as uncorrected acceleration, the record less the mean of five samples, above the velocity of the record itself (`C126_baseline`, `C126_uncorrected`).

Curves of parameters
* The first damping of `get_damping` is 0 whatever the strain, so the damping of one strain is 0 alone and positive behind a smaller strain (`C121_first_damping`, `C121_damping_alone_refuted`).
* `construct_curves` raises ValueError for accepted parameters: MKZ with s above 1 (dampings above 100 per cent), HH with all parameters positive (ratios above 1) (`C122_MKZ_beyond_one_refuted`, `C122_HH_positive_refuted`).

Figures of site factors
* The figures of amplification and of phase shift have the same axis labels and the same legend (`C123_both`); the grid value 1.25 g is labelled 1.2g (`C123_label_numbers_refuted`).
