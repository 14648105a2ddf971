# Formal model of PySeismoSoil in Rocq (Coq 8.16.1)

Contents: 1 approach, 2 layout, 3 properties and where they are proved, 4 what is
modelled, simplified and left out, 5 trusted base, 6 findings, 7 how the theorems were
tested. Generated companions: `COVERAGE.md` (every function of `/repo/PySeismoSoil` and
the model files that cite it) and `AXIOMS.md` (what `Print Assumptions` lists for each
theorem).

## 1. Approach

* The Python source in `/repo` is read as text. Each modelled function is a total,
  computable-where-possible Gallina function that follows the Python branch by branch.
  The comment above each definition cites file and lines and states simplifications.
* Exceptions are values: `res A := Ok a | Err e`, with one constructor per Python
  exception class the code raises or provokes. Error branches are part of the model and
  most acceptance theorems are equivalences ("succeeds exactly when").
* Numbers. Arithmetic is over Coq's real numbers: an idealisation without rounding,
  overflow or signed zero. Where NaN and infinities decide the outcome (validators, site
  factor queries, scores, stresses at negative strains, fits) values are
  `num := Fin r | NaN | PInf | NInf`. Single precision storage of the scores is an
  uninterpreted rounding function.
* Rounding. For the functions whose outcome hinges on it (depths and thicknesses, sample
  and layer counts, peaks, scaling, unit conversion, integration, Arias intensity, evenly
  spaced times, queries of velocities at depths, the average velocity of the top Z metres, linear
  interpolation) there is a second model in IEEE double precision, `M_float.v`,
  `M_ftime.v`, `M_fquery.v` and `M_finterp.v`, built on Flocq's binary floats (round to nearest even, infinities, one
  NaN); C103 to C108 and C116 are about it.
* Texts. `M_text.v` prints doubles with `%.pf`, `%.pg` and `%d` by exact integer arithmetic
  and reads numbers back; `M_textfile.v` holds saved motions, texts of objects and names
  made of the time.
* Figures. A canvas holds figures and axes with their lines, texts, titles and limits;
  plotting code is a state and exception monad over it (`M_figures.v`, `M_figres.v`), so
  that theorems say what is drawn where and what is left open when a call fails.
* Complex numbers are Coquelicot's `C`; `fft`/`ifft` are the defining finite sums.
* Aliasing. Where behaviour depends on NumPy views or on sharing of arrays (unit
  conversion in place, truncation through a view, fitting on the caller's data, filters
  that return their argument) arrays live in a heap addressed by location and functions
  thread the heap.
* State over time. Objects with mutable state (containers, parameter dictionaries,
  `GOF_Scores`, motions) have theorems about every sequence of operations. The
  nonlinear run is a program of file-system steps; its theorems range over every
  failure point. Pools take the order of completion as an argument; theorems hold for
  every schedule.
* External code is an argument (a discharged Section variable), never an axiom:
  `scipy.signal.butter`, `scipy.special.erf`, `scipy.interpolate.griddata`,
  `scipy.optimize.curve_fit`, `differential_evolution`, DEAP, `pywt.Wavelet`, the random
  number generators, contents of files, the nonlinear kernel, the current time, printing
  with `%.6g`. What a theorem needs of them is a visible hypothesis of that theorem.
* Findings. Where the property a user would expect is false of the code, the exact
  behaviour is proved (equivalence, or a `_refuted` theorem with a witness), see 6.

## 2. Layout of `rocq/theories`

* `Base.v`: results, extended numbers, list helpers.
* `M_<module>.v`: models, definitions only. `M_sitefiles.v` is generated from the
  directory listing of `/repo/PySeismoSoil/data` by `tools/gen_sitefiles.py`.
* `P_<module>.v`: specifications and lemmas.
* `Prop_<module>.v`: the theorems `Cnn_...` listed in `MANIFEST.json`. Each group is
  followed by an `Example Cnn_...instance` that shows the hypotheses hold for a concrete,
  non-trivial case.
* `Assumptions1.v` .. `Assumptions4.v`: generated; `Print Assumptions` for every theorem.

Outside: `properties.jsonl` (the properties), `MANIFEST.json`, `seeded/LOG.jsonl`
(wrong programs tried), `tools/` (generators: properties, manifest, coverage, axioms).

## 3. Properties and where they are proved

| Property | Title | Theorems in |
|---|---|---|
| C01 | Thickness/depth conversion round trip | Prop_profile (7) |
| C02 | Query of Vs at a depth returns the velocity of the layer containing it | Prop_profile (5) |
| C03 | Query of Vs for a list of thicknesses samples the profile consistently | Prop_profile (3) |
| C04 | Vs30 / VsZ is the travel-time average | Prop_profile (7) |
| C05 | Basin depth is the shallowest depth reaching the bedrock velocity | Prop_profile (4) |
| C06 | Re-discretisation refines without changing the ground model | Prop_profile (4) |
| C07 | Profile format validator is sound and complete | Prop_generic (1) |
| C08 | A constructed Vs profile satisfies its documented invariants | Prop_vs_profile (5) |
| C09 | Effect of profile construction on the caller's array | Prop_vs_profile (2) |
| C10 | Truncation of a profile | Prop_vs_profile (2) |
| C11 | Effect of truncation on the receiver | Prop_vs_profile (3) |
| C12 | Estimated damping and density stay in their documented ranges | Prop_profile (7) |
| C13 | Array validators decide exactly their documented condition | Prop_generic (5) |
| C14 | Closest-index search is correct | Prop_generic (2) |
| C15 | Integration and differentiation are linear and mutually inverse | Prop_motion (5) |
| C16 | Arias intensity is non-negative, monotone and normalised | Prop_motion (5) |
| C17 | Scaling a motion reaches the requested target | Prop_motion_ops (4) |
| C18 | Truncating a motion keeps exactly the requested window | Prop_motion_ops (4) |
| C19 | Unit conversions round-trip and agree with each other | Prop_motion_ops (2) |
| C20 | Effect of saving a motion | Prop_motion_ops (3) |
| C21 | Peak picking for the fundamental frequency | Prop_motion_ops (3) |
| C22 | Response spectra obey the oscillator identities | Prop_spectra (13) |
| C23 | Linear transfer functions solve the layered wave equation | Prop_linear (17) |
| C24 | Every-layer linear simulation solves the layered wave equation | Prop_simkin (4), Prop_simlin (4) |
| C25 | Rigid boundary reproduces the input at depth; bare rock moves as the record | Prop_simlin (2) |
| C26 | Amplification and de-amplification are inverse in the frequency domain | Prop_amplify (4), Prop_siteresp (9) |
| C27 | Phase unwrapping preserves the phase modulo 2 pi | Prop_unwrap (6) |
| C28 | Grid search brackets the query | Prop_sitefactors (3) |
| C29 | Every accepted site-factor query finds its data files | Prop_details (1), Prop_sitefactors (3) |
| C30 | Site-factor interpolation stays between its neighbours | Prop_sitefactors (2) |
| C31 | Lenient mode clamps and strict mode rejects | Prop_sitefactors (5) |
| C32 | Fourier transform has the documented shape and symmetry | Prop_fourier (8) |
| C33 | Filters dispatch to the documented response | Prop_details (2), Prop_filter (5) |
| C34 | Tapering and de-trending | Prop_trend (8) |
| C35 | Smoothing preserves length and averages | Prop_details (1), Prop_smooth (9) |
| C36 | Merging and extracting curves round-trip | Prop_generic (5) |
| C37 | Parameter matrices round-trip | Prop_generic (2) |
| C38 | Effect of curve construction on the caller's array | Prop_curves (5) |
| C39 | Curve containers behave like typed lists | Prop_container (7) |
| C40 | Parameter dictionaries keep exactly their allowed keys | Prop_params (6) |
| C41 | Parameter serialisation round-trips | Prop_params (8) |
| C42 | MKZ stress-strain law | Prop_soil (4) |
| C43 | FKZ stress is bounded by the shear strength | Prop_soil (2) |
| C44 | HH stress lies between its two branches | Prop_soil (5) |
| C45 | Damping from a stress-strain curve | Prop_soil (8) |
| C46 | Effect of damping-curve fitting on the caller's data | Prop_curves (6) |
| C47 | Calibrated soil quantities stay in physical ranges | Prop_hhcal (12), Prop_hhcal2 (1) |
| C48 | Darendeli modulus-reduction curves | Prop_hhcal (3) |
| C49 | HH optimisation kernel output ranges | Prop_hhcal (2), Prop_hhcal2 (1) |
| C50 | Goodness-of-fit score function | Prop_gof (8) |
| C51 | Cross-correlation score | Prop_gof (5) |
| C52 | GOF score slots | Prop_gof (3) |
| C53 | Sediment velocity model: smooth and discretised profiles | Prop_svm (11) |
| C54 | Sediment velocity model: randomised profiles | Prop_svmrand (6) |
| C55 | Equivalent-linear iteration | Prop_eqlim (5), Prop_eqlin (2) |
| C56 | Acceptance, errors and shapes of the every-layer linear simulation | Prop_simlin (3) |
| C57 | Density unit of re-discretised profiles | Prop_results (3) |
| C58 | Working directory over every exit of a nonlinear simulation | Prop_files (2) |
| C59 | The nonlinear simulation's directory is fresh, and what is left on disk | Prop_details (1), Prop_files (6) |
| C60 | Layer/material count check | Prop_eqlim (2) |
| C61 | Batch simulations keep order, isolation and distinct directories | Prop_batch (7) |
| C62 | Batch run option dictionary | Prop_batch (3) |
| C63 | Simulation result shape contract | Prop_results (2) |
| C64 | Damping calibration dispatch | Prop_dampcal (3) |
| C65 | Two-column data loader | Prop_generic (4) |
| C66 | Staircase arrays used for plotting a profile | Prop_profile (1) |
| C67 | Basin depth estimated from Vs30 | Prop_profile (2) |
| C68 | The depth array follows later writes to the caller's array | Prop_vs_query (1) |
| C69 | Profiles returned by queries answer the same query | Prop_vs_query (4) |
| C70 | Profile exports | Prop_vs_query (3) |
| C71 | Constructing a motion | Prop_motion (4) |
| C72 | Interpolating a curve | Prop_curves (3) |
| C73 | HH calibration of any profile | Prop_hhcal (2), Prop_hhcal2 (2) |
| C74 | Calibration from curves follows the material numbers | Prop_hhcal (2), Prop_hhcal2 (1) |
| C75 | Mean absolute error | Prop_generic (3) |
| C76 | A record scored against itself | Prop_gof (2) |
| C77 | A simulation proportional to the measurement | Prop_gof (1) |
| C78 | Batch scoring | Prop_gof (2) |
| C79 | Site-factor tables | Prop_sitefactors (4) |
| C80 | Filtering is linear and one-sided | Prop_filter (3) |
| C81 | Baseline correction | Prop_baseline (5) |
| C82 | Transfer function of two records | Prop_fourier (6) |
| C83 | Sine smoothing | Prop_sine (4) |
| C84 | Frequency spectrum attributes | Prop_freqspec (6) |
| C85 | Unwrapped phase, peak and smoothing of a frequency spectrum | Prop_freqspec (8) |
| C86 | The run methods return a results object exactly for the inputs the simulation supports | Prop_runs (4) |
| C87 | Non-linear post-processing returns the kernel's histories, except for a single-layer column | Prop_details (1), Prop_runs (2) |
| C88 | Constructors of the simulation classes | Prop_runs (3) |
| C89 | Damping curves of a profile | Prop_dampcal (4) |
| C90 | A motion sent through a transfer function or a profile | Prop_propagate (10) |
| C91 | Site effect adjustment | Prop_propagate (8) |
| C92 | Filters, baseline correction and spectra of a motion object | Prop_gmsignal (14) |
| C93 | Comparison of two motions | Prop_compare (9) |
| C94 | Spectra and fundamental frequencies of a velocity profile | Prop_vsspec (9) |
| C95 | Which samples, periods and frequencies enter the goodness-of-fit scores | Prop_gof2 (6) |
| C96 | Wavelet baseline correction | Prop_wavelet (14) |
| C97 | Curve matrices | Prop_curvemat (12) |
| C98 | The HH calibration class | Prop_hhclass (7) |
| C99 | Fitting the MKZ model to modulus curves | Prop_mkzfit (8) |
| C100 | The objective and the options of the damping fits | Prop_dfits (15) |
| C101 | Files written by the damping fits | Prop_dfiles (9) |
| C102 | The mean thickness of random layers | Prop_svmeq (7) |
| C103 | Thicknesses and depths in double precision | Prop_fdepth (12) |
| C104 | Numbers of samples and layers in double precision | Prop_fcount (14) |
| C105 | Peaks, scaling and Arias intensity in double precision | Prop_fmotion (18) |
| C106 | Evenly spaced time axes in double precision | Prop_ftime (14) |
| C107 | Velocities at depths in double precision | Prop_fquery (11) |
| C108 | The average velocity of the top Z metres in double precision | Prop_fvsz (7) |
| C109 | Figures and axes | Prop_figures (3) |
| C110 | Plots of ground motions | Prop_figures (6) |
| C111 | Plots of velocity profiles | Prop_figures (6) |
| C112 | Plots of curves and spectra | Prop_figures (5) |
| C113 | Figures of simulation results | Prop_figres (4) |
| C114 | Image files of simulation results | Prop_figres (2) |
| C115 | Figures of damping fits | Prop_figres (3) |
| C116 | Linear interpolation in double precision | Prop_finterp (8) |
| C117 | Numbers in text files | Prop_text (7) |
| C118 | Motions saved and read back | Prop_textfile (5) |
| C119 | Texts of objects | Prop_texts (7) |
| C120 | Names made of the time | Prop_texts (2) |
| C121 | Curves of a set of soil parameters | Prop_lawcurves (13) |
| C122 | Curves constructed from layers of parameters | Prop_construct (7) |
| C123 | Figures of interpolated site factors | Prop_sitefig (9) |
| C124 | Figures and images of HH calibrations | Prop_hhfig (10) |
| C125 | Figures of truncations and response spectra | Prop_sigfig (4) |
| C126 | Figures of filters and baseline correction | Prop_filtfig (5) |

## 4. What is modelled, and what is not

`COVERAGE.md` lists every function. All functions that compute, check, convert, read,
write or schedule are modelled. In summary:

| Source | Modelled in |
|---|---|
| helper_generic.py | M_generic, M_interp |
| helper_site_response.py | M_profile, M_motion, M_spectra, M_linear, M_amplify, M_soil, M_curves, M_fits, M_gmsignal |
| helper_signal_processing.py | M_signal, M_sine, M_dft, M_filtfig |
| helper_simulations.py | M_simlin, M_eqlin |
| helper_hh_model.py, helper_mkz_model.py | M_soil, M_params, M_curves, M_fits |
| helper_hh_calibration.py | M_hhcal, M_hhfig |
| helper_gof_scores.py, class_gof_scores.py | M_gof, M_wavelet |
| class_Vs_profile.py | M_vs_profile, M_vsspec |
| class_ground_motion.py | M_motion, M_propagate, M_gmsignal, M_sigfig |
| class_frequency_spectrum.py | M_freqspec |
| class_curves.py | M_curves, M_container, M_curvemat, M_fits |
| class_parameters.py | M_params, M_container, M_lawcurves |
| class_simulation.py, class_simulation_results.py | M_results, M_files |
| class_batch_simulation.py | M_batch, M_pool |
| class_site_factors.py, class_site_effect_adjustment.py | M_sitefactors, M_sitefiles, M_sitefig, M_propagate |
| class_svm.py | M_svm |
| class_damping_calibration.py, class_hh_calibration.py | M_dampcal, M_hhclass |
| `__repr__`, `save_accel`, `to_txt`, `get_current_time` | M_text, M_textfile |
| plotting methods of all classes, `_plot_*`, `_process_fig_ax_objects` | M_figures, M_figres |

Not modelled:

* Colours, line styles, tick marks, grids, legends, figure sizes and resolutions; the
  figures that `show_fig` adds to Fourier and linear transfer functions, smoothing and
  goodness-of-fit scores (those of HH calibrations, MKZ fits, site factors, truncation, response
  spectra, filters and baseline correction are in M_hhfig, M_sitefig, M_sigfig and M_filtfig); the `__repr__` texts of
  curves and parameters, printed messages and warnings, progress bars, `detect_OS`
  (the system is an argument).
* Floating point rounding, outside `M_float.v`, `M_ftime.v`, `M_fquery.v` and `M_finterp.v`.
  A theorem that says "exactly" says it of real arithmetic, except in C103 to C108 and
  C116.
* The Fortran/executable nonlinear kernel: an argument that leaves some files or fails.
* The insides of optimisers, of `griddata`, filter design, wavelet tables, random
  number generators.
* Complex dtypes in validators, broadcasting of one-element arrays where it would be an
  accident, object dtypes, file permissions, links and `..` in paths, pickling.
* Divisions by an exactly vanishing modulus or time step where NumPy would go on with
  infinities; the theorems state the positivity that excludes them, or the result is the
  explicit value "not finite".

Idealisations worth knowing when reading a theorem: `np.log10`, `**`, `exp` are the real
functions; `np.interp`, `np.searchsorted`, `np.linspace`, `np.geomspace`, `np.argmin`,
slices and `np.genfromtxt` squeezing are written out and follow NumPy's documented
behaviour; multiprocessing copies its arguments (a worker never changes the caller's
arrays).

## 5. Trusted base

* Coq's kernel (8.16.1), without plugins; no kernel check is switched off.
* Axioms: none of our own, no functors, module types, or `Declare Module`. The standard
  library's axioms that `Print Assumptions` lists, per theorem in `AXIOMS.md`, are
  `ClassicalDedekindReals.sig_forall_dec`, `ClassicalDedekindReals.sig_not_dec`, `Classical_Prop.classic`, `FunctionalExtensionality.functional_extensionality_dep`.
  The first three come with the construction of the real numbers; `classic` is used by
  parts of the standard library and of Coquelicot on which some theorems rest. Theorems
  about pure list, string, file-system and scheduling code are closed under the global
  context.
* Coquelicot (complex numbers and limits), Flocq (binary floating point numbers) and the
  standard library are checked by the same kernel; the first two add no axioms.
* The correspondence between the model and the Python text, which is by reading, with
  the simplifications of section 4 and of the comments.

## 6. Findings

Behaviour of the code, proved of the model, that differs from documentation or from what
a user would expect. The theorem named proves the exact behaviour.

Labels and grids
* Fourier spectra are labelled one bin too high: row m holds harmonic m but is reported at (m+1)/(N dt) (`C32_first_row_is_the_sum`, `C32_harmonic_row`); amplification therefore multiplies harmonic m by the transfer function at (m+1) df (`C26_harmonic_refuted`), and the every-layer simulation reports the transfer function of (m+1/15)/(N dt) at (m+1)/(N dt) (`C24_labels_refuted`).
* `find_f0` misses a peak at the last but one sample (`C21_penultimate_peak_missed`); for a profile without impedance contrast `get_f0_RO` returns the first grid frequency (`C94_uniform_profile`).
* `Ground_Motion.compare` drops the first sample of records that start at time zero (`C93_first_sample_dropped`).
* Re-discretisation can make a layer thicker (3.00001 m becomes 4 m at 225 m/s) (`C06_total_thickness_refuted`).
* Response spectra accept records whose time steps shrink (`C22_even_spacing_refuted`).

Changes to the caller's data
* Constructing a profile, motion or curve converts the caller's array in place; a second construction converts twice (`C09_second_construction`, `C71_second_construction`, `C38_repeated_construction`). Some failures come after the conversion (`C38_damping_curve`, `C38_stress_curve`).
* `Vs_Profile.truncate` writes into the receiver (`C11_receiver_after_truncate`, `C11_second_truncation_refuted`).
* `save_accel` in g or gal rewrites the motion (`C20_after_saves`, `C20_peak_goes_stale`); a lowpass above Nyquist shares its array with the original, which is then rewritten too (`C92_shared_array_rewritten`).
* Damping fits subtract the first damping from the caller's data (`C46_fit_offsets_caller`); serial and parallel fits can differ (`C46_serial_parallel_differ_refuted`).
* `get_depth_array` follows later writes to the caller's array (`C68_depth_array_aliases_caller`).
* A serial batch run changes the caller's options (`C62_serial_changes_callers_options`). Scores of arrays floor the caller's arrays (`C50_arrays`). A zero last thickness becomes 1 m in the caller's array (`C47_zero_thickness_rewritten`).

Wrong or surprising results
* `Damping_Calibration.get_H4_x_param` returns HH parameters (`C64_H4_is_HH`).
* Linear and equivalent-linear runs return profiles with densities 1000 times too large (`C57_linear`, `C57_equivalent`).
* The silent equivalent-linear run ignores its tolerance; results depend on `verbose` (`C55_verbosity`).
* `robust_unwrap` changes phases by other than whole turns (`C27_preserved_refuted`); `get_unwrapped_phase` returns a wrapped phase on a replaced frequency axis (`C85_unwrapping_refuted`, `C85_frequencies_kept_iff`).
* A motion built from velocity does not scale its peak velocity (`C17_peak_velocity_scales_refuted`); differentiating an integrated record loses its first sample (`C15_round_trip_identity_refuted`).
* A truncation window before the record returns the record without its tail (`C18_window_before_record`).
* Filters are causal, not zero-phase (`C80_causal`, `C80_delay`); `lin_smooth` treats samples beyond the ends as zero (`C35_lin_constant_refuted`); `sine_smooth` always zeroes a bin (`C83_zero_bin`); baseline correction zeroes records with one sign change and shifts by a sample (`C81_one_crossing_vanishes`, `C81_one_sample_late`).
* tau_FKZ and tau_HH are NaN at negative strain (`C43_negative_strain_is_nan`, `C44_HH_negative_strain_is_nan`); MKZ stress can decrease for s > 1 (`C42_increasing_beyond_one_refuted`).
* Shallow SVM sites with the default cap get a 1 m/s half space (`C53_shallow_default_half_space`); the compliance check on the bottom velocity compares the added half space (`C54_bottom_velocity_not_compared`).
* HH calibration: the "relaxed" third search does not relax (`C49_third_pass_not_a_relaxation`); the density formula is unbounded near the surface (`C47_density_unbounded_refuted`); the mu adjustment is not monotone (`C47_mu_monotone_refuted`).
* The cross-correlation score is not at least 0.1 for different time steps (`C51_time_steps_refuted`). The phase of a real spectrum need not be zero (`C84_phase_of_real_refuted`).
* Reading a file-layout MKZ array as an in-memory one mixes parameters (`C41_MKZ_file_layout_misread`); the transposed result of `fit_MKZ` is misread by the multi-layer class (`C99_not_a_parameter_matrix`); a zero reference strain inside the search box gives zero modulus (`C99_zero_reference_strain`).
* An interpolated curve built from unit '1' strains is fitted on strains 100 times too small (`C46_interpolated_unit_mismatch`).
* An unknown damping formula number gives zero damping (`C12_unknown_formula_gives_zero`). A table stored for one profile shape can violate the validator (`C08_table_is_valid_refuted`).
* Default output names drop the first six characters of the stem whenever 'curve_' occurs in it, and collide across directories (`C101_site_name_refuted`, `C101_names_collide`).

Calls that always or needlessly fail
* `to_txt` with its default precision (`C70_to_txt_default_raises`); `get_smoothed` without a figure (`C85_smoothing_without_figure_fails`); tapering a two-column record (`C34_two_columns_refused`); Darendeli curves without strains (`C48_default_strain_raises`).
* One-layer parameter files (`C41_multilayer_file`), one-layer nonlinear columns after the kernel ran (`C87_single_layer_fails`), nonlinear subclasses in a batch (`C61_nonlinear_subclass_rejected`), profiles without half space with strengths (`C98_no_halfspace_strengths_refuted`; without strengths the deepest layer gets no parameters, `C98_no_halfspace_loses_a_layer`).
* A parallel batch with figures loses all results if one simulation was caught failing (`C62_figures_of_failed_simulation`).
* Site effect adjustment without z1 refuses sites from 948 m/s on (`C91_default_depth_refused`); NaN coordinates pass the constructor and fail later (`C29_nan_never_returns`, `C31_nan`).
* A curve with zero strain cannot be put beside a longer one (`C97_zero_strain_beside_longer`). `get_curve_matrix` ignores `save_to_file` (comment in `M_curvemat.v`).

State left behind
* A failing kernel leaves the process in the simulation directory (`C58_stranded_by_kernel_failure`), and later simulations of a batch nest below it (`C61_nested_after_failure`).
* Removing the simulation directory can remove pre-existing empty parents, even the working directory (`C59_existing_directory_removed_refuted`, `C59_working_directory_removed`).
* Deleting a slice from a container breaks `n_layer` (`C39_slice_deletion_breaks_length`); in-place union bypasses the key check (`C40_inplace_union_bypasses_check`); a failed update stops midway (`C40_failed_update_stops_midway`).
* The linear run for the surface only drops name and directory (`C86_same_directory`, `C86_surface_only`).
* The random profile keeps calling the equation solver with the same arguments until it converges, hence for ever if the first call does not (`C102_never_ends`); at the surface zero thickness solves the equation too (`C102_roots`).

Rounding
* `truncate` with a time that is a sample time can begin one sample early: int(0.29 / 0.01) is 28 (`C104_sample_time_refuted`; always k or k-1, `C104_sample_time`).
* A profile of three layers of 0.1 m queried with 0.1 m gets four layers (`C104_own_thickness_refuted`), hence also `get_discretized_profile(fixed_thk=...)`.
* Thicknesses do not survive thk2dep and dep2thk, thin layers can vanish (`C103_round_trip_refuted`, `C103_layer_lost`); scaling misses the target PGA by a rounding error (`C105_target_refuted`).
* The normalised Arias intensity of a tiny non-zero record is NaN (`C105_underflow`).
* Aligning a record of 3 samples at 0.01 s with itself gives 4 times (`C106_same_count_refuted`); a negative step and number of seconds are accepted (`C106_negative_accepted`).
* Querying a NaN depth is accepted (`C107_nan_accepted`); layers thinner than the rounding of their depth are never found, even by the thicknesses of the profile itself (`C107_thin_layer`, `C107_own_refuted`).
* Vs30 of three layers of 10 m at 200 m/s is below 200 m/s (`C108_uniform_refuted`).
* Linear interpolation can pass the right ordinate: a value between 0.3 and 0.9 is above 0.9 (`C116_between_refuted`); the left one never (`C116_monotone`). NaN queried of one data point gives its ordinate (`C116_points`).

Texts
* A saved motion whose first two times agree in five digits is read with a time step of 0 (`C118_step_refuted`, `C118_late`).
* A layer thinner than 5 mm is printed like a half space (`C119_thin`); the text of an SVM gives Vs30 with two digits in scientific notation (`C119_svm`).

Figures
* `Ground_Motion.plot(show_as_unit='g')` always raises and leaves an empty figure (`C110_failures`, `C110_units`); `plot` and `summary` raise IndexError when the peak lies in the last fortieth of the record (`C110_iff`, `C110_summary`).
* A title given to a profile read from a file, or to `SVM.plot`, raises TypeError (`C111_title`); the comparison plot of an SVM profile sets limits that ignore the smooth profile (`C111_additional`).
* Axes given without a figure open an extra empty figure (`C109_choice`), and are ignored by `Multiple_Curves.plot`, which also drops keyword arguments (`C112_curves`).
* Raw curve data in unit 1 are drawn under an axis label in per cent if the curve was interpolated (`C112_raw_units`).
* The image of the maxima goes to the directory of the results instead of the one asked for; the call fails after the first image if it does not exist (`C114_files`).
* Damping fits draw different figures in serial and parallel runs (`C115_serial_parallel`, `C115_same_figure`).

Figures of calibrations and truncations
* In the figure of an HH calibration the FKZ line of the lower panel lacks the exponent d, so that it contradicts the upper panel (`C124_FKZ_line`, `C124_FKZ_line_refuted`).
* `save_fig` without `show_fig` saves nothing; with both, a missing directory loses the parameters after the first layer (`C124_profile`, `C124_curves`). Images are named by the number of the layer only (`C124_names`).
* Truncating to one sample raises IndexError with `show_fig` and ValueError without, and leaves an unfinished figure (`C125_one_sample`).
* Filtering two samples works, but fails with `show_fig` (`C126_two_samples`).
* The figure of a baseline correction draws, as uncorrected acceleration, the record less the mean of five samples, above the velocity of the record itself (`C126_baseline`, `C126_uncorrected`).

Curves of parameters
* The first damping of `get_damping` is 0 whatever the strain, so the damping of one strain is 0 alone and positive behind a smaller strain (`C121_first_damping`, `C121_damping_alone_refuted`).
* `construct_curves` raises ValueError for accepted parameters: MKZ with s above 1 (dampings above 100 per cent), HH with all parameters positive (ratios above 1) (`C122_MKZ_beyond_one_refuted`, `C122_HH_positive_refuted`).

Figures of site factors
* The figures of amplification and of phase shift have the same axis labels and the same legend (`C123_both`); the grid value 1.25 g is labelled 1.2g (`C123_label_numbers_refuted`).

## 7. How the theorems were tested

`seeded/LOG.jsonl` records wrong programs: an edit of one definition in a scratch copy,
the claim it breaks and the theorems whose proof then failed. An edit that broke no
theorem was either shown to be harmless or led to a new or tighter theorem, which the
log names (`theorems_tightened`). The runner keeps going after the first failure (it
admits the broken lemma in the scratch copy) so that the log lists every theorem that
depends on the edited behaviour.
