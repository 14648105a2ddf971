import json
P=[]
def p(title, statement, quantifier, why, anchors):
    P.append(dict(id="C%02d"%(len(P)+1), title=title, statement=statement, quantifier=quantifier, why_tests_cant=why, anchors=anchors))
SR="PySeismoSoil/helper_site_response.py"; G="PySeismoSoil/helper_generic.py"; VP="PySeismoSoil/class_Vs_profile.py"
GM="PySeismoSoil/class_ground_motion.py"; SP="PySeismoSoil/helper_signal_processing.py"; SF="PySeismoSoil/class_site_factors.py"
PA="PySeismoSoil/class_parameters.py"; CU="PySeismoSoil/class_curves.py"; HH="PySeismoSoil/helper_hh_model.py"; MK="PySeismoSoil/helper_mkz_model.py"
HC="PySeismoSoil/helper_hh_calibration.py"; GO="PySeismoSoil/helper_gof_scores.py"; CG="PySeismoSoil/class_gof_scores.py"
SV="PySeismoSoil/class_svm.py"; SI="PySeismoSoil/helper_simulations.py"; CS="PySeismoSoil/class_simulation.py"; BS="PySeismoSoil/class_batch_simulation.py"
FS="PySeismoSoil/class_frequency_spectrum.py"; DC="PySeismoSoil/class_damping_calibration.py"; SE="PySeismoSoil/class_site_effect_adjustment.py"; CR="PySeismoSoil/class_simulation_results.py"
inf="The input space is infinite (arbitrary lengths and real values); a test fixes one array."
# --- profiles
p("Thickness/depth conversion round trip","For every layer-thickness array thk (last entry 0, as the API stores half spaces), the depth array returned by thk2dep starts at 0, has the same length, is non-decreasing when the thicknesses are non-negative, its k-th entry is the sum of the thicknesses above layer k, and dep2thk(thk2dep(thk)) = thk. Conversely thk2dep(dep2thk(z)) = z for every depth array z starting at 0.","every finite array of real thicknesses / depths, any length",inf,[SR+":thk2dep",SR+":dep2thk"])
p("Query of Vs at a depth returns the velocity of the layer containing it","For every valid profile and every depth d>=0, querying Vs at d returns the Vs of the unique layer whose depth interval contains d (interface depths are resolved the same way for all interfaces), and for d at or below the bottom of the last finite layer the Vs of the last row; the vectorised query equals the scalar query element-wise, so the answer for one depth never depends on the other depths queried.","every profile (n layers), every list of depths",inf,[SR+":query_Vs_at_depth",VP+":Vs_Profile.query_Vs_at_depth"])
p("Query of Vs for a list of thicknesses samples the profile consistently","For every profile and every thickness array, query_Vs_given_thk returns the given thicknesses and the Vs of the profile layer containing the top (or, with at_midpoint, the mid-depth) of each requested layer; a scalar thickness needs a positive layer count (None raises TypeError, n<=0 ValueError) and behaves like the constant array. There is one Vs per thickness, except that with at_midpoint and a zero last thickness the Vs array is one shorter than the thickness array.","every profile, every thickness array or scalar/layer-count pair, both sampling modes",inf,[SR+":query_Vs_given_thk"])
p("Vs30 / VsZ is the travel-time average","For every valid profile with positive velocities and every Z>0, calc_VsZ equals Z divided by the vertical travel time through the top Z metres (the deepest given velocity being continued downwards, with the documented warning/option when the profile is shallower than Z); hence it lies between the smallest and the largest velocity met above Z, is exact for uniform profiles, and does not decrease when any layer velocity is increased.","every profile, every Z>0",inf,[SR+":calc_VsZ",SR+":calc_Vs30",VP+":Vs_Profile.get_Vs30"])
p("Basin depth is the shallowest depth reaching the bedrock velocity","For every profile and every bedrock velocity, calc_basin_depth returns the top depth of the first layer whose Vs is at least the bedrock velocity; every layer above that depth is slower, and when no layer is fast enough the total depth of the profile is returned.","every profile, every bedrock velocity",inf,[SR+":calc_basin_depth",SR+":calc_z1",VP+":Vs_Profile.get_basin_depth"])
p("Re-discretisation refines without changing the ground model","For every valid profile, stratify returns a profile in which every finite sub-layer is at most Vs/225 (1/9 of the wavelength at 25 Hz) thick, every sub-layer carries exactly the Vs, damping, density and material number of the layer it came from, the order of layers is kept, the half space is kept, and the total thickness of the sub-layers of each layer equals the thickness of that layer unless the layer thickness is within the allclose tolerance of a multiple of Vs/225; in that case the total is that multiple rounded up, so a layer of 3.00001 m at 225 m/s becomes 4 m (the total is never smaller than the layer and exceeds it by less than Vs/225).","every profile",inf,[SR+":stratify"])
p("Profile format validator is sound and complete","check_Vs_profile_format returns normally exactly for the 2-D finite non-negative numeric arrays with 2 or 5 columns whose thicknesses are positive (except the last, which may be zero), whose velocities are positive and, in the 5-column case, whose damping and density are positive and whose material numbers are integers, positive except the last which may be zero; every other input raises.","every array, including NaN/inf/negative/non-integer entries",inf,[G+":check_Vs_profile_format"])
p("A constructed Vs profile satisfies its documented invariants","Every successfully constructed Vs_Profile has a 5-column table whose last row is a half space of zero thickness when add_halfspace is requested, n_layer equal to the number of finite layers, z_max equal to the sum of thicknesses, depths consistent with thicknesses, and (2-column input) material numbers 1..n_layer with 0 for the half space.","every accepted input array and option combination",inf,[VP+":Vs_Profile.__init__"])
p("Effect of profile construction on the caller's array","Building a Vs_Profile leaves the caller's array unchanged exactly when it has two columns, or it has five columns and both units are already SI ('1' and 'kg/m^3'), or it is read from a file; with five columns and 'percent' or 'g/cm^3' units the caller's array is rewritten in place, so building a second profile from the same array yields damping 100 times smaller / densities 1000 times larger than the first.","every 5-column array and unit pair, every sequence of constructions",inf+" The aliasing effect only appears in histories with two constructions.",[VP+":Vs_Profile.__init__"])
p("Truncation of a profile","Vs_Profile.truncate(depth, Vs) returns a profile whose finite layers total exactly the requested depth, agree with the original above it, and end in a half space of the given Vs.","every profile, depth and Vs",inf,[VP+":Vs_Profile.truncate"])
p("Effect of truncation on the receiver","Vs_Profile.truncate changes the receiver's table: the row holding the truncation depth is overwritten through a view, so for a depth strictly inside a layer the receiver's table no longer equals its table before the call.","every profile and depth",inf+" Requires reasoning about aliasing over call histories.",[VP+":Vs_Profile.truncate"])
p("Estimated damping and density stay in their documented ranges","For every Vs array, get_xi_rho returns one damping and one density per layer; for positive Vs the damping of all three formulas is positive, formulas 1 and 3 never give a faster layer more damping or less density, formula 1 and the density rule take the documented step values with the documented side at each threshold, the default formula exceeds 100 % damping exactly below 25/3 m/s, and an unknown formula number is silently accepted and gives zero damping.","every Vs array, every formula selection",inf,[SR+":get_xi_rho"])
p("Array validators decide exactly their documented condition","check_numbers_valid returns 0 exactly for arrays of finite non-negative numbers and otherwise the code of the first violated condition in the order non-number, non-finite, negative; assert_array_length, extend_scalar and check_length_or_extend_to_array return arrays of exactly the requested length whose elements are the scalar or the given elements.","every array including NaN and infinities",inf,[G+":check_numbers_valid",G+":extend_scalar",G+":check_length_or_extend_to_array"])
p("Closest-index search is correct","For every non-empty array and value, find_closest_index returns an in-range index and its element, no element of the array is strictly closer to the value, and among equally close elements the first is returned; an empty array gives (None, None).","every array and value",inf,[G+":find_closest_index"])
# --- motion
p("Integration and differentiation are linear and mutually inverse","For every acceleration history and dt>0, num_int returns velocity and displacement histories of the same length that are linear in the acceleration; sample k of the velocity is dt times the sum of the first k+1 accelerations; for an evenly sampled record num_diff of the integrated velocity returns the original acceleration at every sample but the first, which becomes 0 (so the round trip is not the identity), and integrating a differentiated history returns it shifted by its first sample.","every record length, sample values, dt",inf,[SR+":num_int",SR+":num_diff"])
p("Arias intensity is non-negative, monotone and normalised","For every record, the cumulative Arias intensity starts at 0, never decreases, and its peak is positive exactly when a sample other than the last is non-zero; then the normalised curve rises from 0 to 1, T5_95 is the time between the first samples reaching 5 % and 95 %, and lies between 0 and the record duration; otherwise the normalised curve is all NaN and T5_95 is the last time. Scaling the record by c scales the intensity by c squared and leaves the normalised curve unchanged.","every record",inf,[GM+":Ground_Motion.Arias_Intensity",GO+":calc_AriasIntensity"])
p("Scaling a motion reaches the requested target","scale_motion with a target PGA returns a motion whose peak absolute acceleration is the target; with a factor it multiplies every sample (and the integrated velocity and displacement) by the factor, the PGA by its absolute value and the Arias intensity by its square; a target overrides a factor and the receiver is unchanged. For a motion built from velocity data the scaled velocity is the factor times the velocity minus its first sample, so the peak velocity need not scale.","every motion, factor and positive target",inf,[GM+":Ground_Motion.scale_motion"])
p("Truncating a motion keeps exactly the requested window","Truncating with limits t1<t2 and extensions e1,e2 keeps exactly the samples k with t1-e1 < (k+1)*dt <= t2+e2, unchanged and in order, on the time axis of the start of the record, and fails when there are fewer than two such samples; with Arias limits the window runs between the first samples that reach the two fractions; for a window ending a step or more before time zero the code does not raise but returns the record with its tail removed.","every record and every pair of limits",inf,[GM+":Ground_Motion.truncate"])
p("Unit conversions round-trip and agree with each other","For every pair of supported acceleration units, converting a record from one unit to another and back is the identity, conversion through a third unit equals direct conversion, and all units give the same record in m/s/s.","every record and unit pair",inf,[GM+":Ground_Motion._unit_convert",GM+":Ground_Motion.__init__"])
p("Effect of saving a motion","save_accel leaves the motion object unchanged exactly when the requested unit is m/s/s (or unrecognised); saving in 'g' or 'gal' rewrites the object's acceleration, so a second save, or any later use, sees rescaled data.","every motion and every sequence of save calls",inf+" Visible only in histories of several calls on the same object.",[GM+":Ground_Motion.save_accel"])
p("Peak picking for the fundamental frequency","find_f0 returns a frequency of the given array; it returns the frequency of the first sample not exceeded by its successor, whose amplitude exceeds all earlier ones, except when that sample is the last but one, where (as for an always rising spectrum) it returns the last frequency although its amplitude is smaller; spectra with fewer than two rows raise UnboundLocalError.","every amplitude spectrum",inf,[SR+":find_f0"])
p("Response spectra obey the oscillator identities","For every record, damping and period list: spectra are non-negative, pseudo-acceleration = omega^2 * SD and pseudo-velocity = omega * SD, spectra scale by |c| when the record is scaled by c, are zero for the zero record, do not depend on the sign of the record, and one period's value does not depend on the other periods; the parallel and the serial runs give the same spectra.","every record, period list, damping, core count",inf+" Parallel scheduling too.",[SR+":response_spectra",SR+":_time_stepping"])
# --- transfer functions
p("Linear site transfer functions are consistent","For every profile and frequency, the within (borehole) transfer function and the rock-outcrop transfer function returned by linear_tf are linked by the documented identities (incident = 2 x outcrop; borehole = outcrop for a rigid base), equal 1 (2 for incident) for a uniform undamped column equal to its half space at zero frequency, and every amplitude is the modulus of the returned complex function.","every profile and frequency",inf,[SR+":linear_tf"])
p("Every-layer wave propagation satisfies continuity and agrees with the surface transfer function","For every profile and frequency the layer recursion used by linear simulations keeps displacement and shear stress continuous across each interface, satisfies the free-surface condition, and its surface-to-outcrop ratio equals the transfer function of the analytic routine.","every layer count, thickness, velocity, damping, density, frequency",inf,[SI+":_lin_resp_every_layer",SR+":linear_tf"])
p("Rigid boundary reproduces the input at depth","With a rigid boundary the every-layer linear response at the bottom interface equals the input motion at every frequency, for every profile; with an elastic boundary the incident wave is half the outcrop motion.","every profile and every input spectrum",inf,[SI+":_lin_resp_every_layer",SI+":_prepare_inputs"])
p("Amplification and de-amplification are inverse in the frequency domain","When the transfer function has no zero, deconvolving the convolved motion returns the original spectrum, the double-sided transfer function has exactly the record's length, and it is conjugate-symmetric so that the output is a real motion.","every record length (even and odd) and transfer function",inf,[SR+":amplify_motion",SR+":linear_site_resp"])
p("Phase unwrapping preserves the phase modulo 2 pi","robust_unwrap returns, for every phase array, an array of the same length whose entries differ from the input by multiples of the wrap constant only.","every phase array",inf,[SR+":robust_unwrap"])
# --- site factors
p("Grid search brackets the query","For every sorted grid and every in-range query the site-factor lookup returns the two neighbouring grid values lo <= query <= hi that are consecutive in the grid; queries at grid points are bracketed by that point.","every query value",inf,[SF+":Site_Factors._search_sorted"])
p("Every accepted site-factor query finds its data files","For every (Vs30, z1, PGA) accepted by the constructor, every file name derived from the four neighbouring grid pairs exists in the shipped data set, for amplification and phase.","every real triple accepted",inf+" The accepted set is a continuum and the data set has holes.",[SF+":Site_Factors.__init__",SF+":Site_Factors._query"])
p("Site-factor interpolation stays between its neighbours","At a grid point the interpolated site factor equals the tabulated value; elsewhere it is a convex combination of the eight neighbouring tabulated values and therefore lies between their minimum and maximum.","every query and table",inf,[SF+":Site_Factors._get_results",SF+":Site_Factors._interpolate"])
p("Lenient mode clamps and strict mode rejects","With lenient=True any Vs30, z1, PGA passing the combination check is clamped to the nearest boundary of the grid; with lenient=False values outside the grid raise; NaN passes the range check in both modes.","every real triple and NaN",inf,[SF+":Site_Factors.__init__",SF+":Site_Factors._range_check"])
# --- signal
p("Fourier transform has the documented shape and symmetry","For every real record of length N the single-sided spectrum has ceil(N/2) rows, its frequencies are strictly increasing and evenly spaced, the full spectrum is conjugate symmetric, and the transform is linear.","every record length and values",inf,[SP+":fourier_transform"])
p("Filters dispatch to the documented response","Every filter call either raises for an inconsistent cutoff, returns the input unchanged for cutoffs that pass everything, or calls the filter design with the normalised cutoff inside (0,1) and the requested kind.","every filter kind, cutoff and sampling rate",inf,[SP+":_filter_kernel",SP+":lowpass",SP+":highpass",SP+":bandpass",SP+":bandstop"])
p("Tapering and de-trending","A Tukey taper multiplies each sample by a factor in [0,1] that is 0 at the ends and 1 in the middle, so no peak grows; removing the linear trend annihilates straight lines, is idempotent and linear.","every record",inf,[SP+":taper_Tukey",SP+":_remove_linear_trend"])
p("Smoothing preserves length and averages","Each smoothing routine returns a record of the same length, each output value is a weighted mean of input values with non-negative weights, so it stays between the minimum and maximum of the input and constants are fixed points.","every record and window",inf,[SP+":lin_smooth",SP+":log_smooth",SP+":sine_smooth"])
# --- curves
p("Merging and extracting curves round-trip","For all G/Gmax and damping curve matrices of the documented layout, merge_curve_matrices followed by extract_from_curve_format returns the original curves, layer by layer and in order; wrong layouts raise.","every number of layers and strains",inf,[G+":merge_curve_matrices",G+":extract_from_curve_format"])
p("Parameter matrices round-trip","extract_from_param_format returns one parameter vector per column in order, and re-stacking them gives the matrix back.","every matrix",inf,[G+":extract_from_param_format"])
p("Effect of curve construction on the caller's array","Constructing a curve with unit '1' (or a damping / stress curve with a non-default unit) rewrites the caller's array in place, so constructing twice from the same array scales the data twice; with default units the array is unchanged.","every data array, unit and sequence of constructions",inf+" Only visible over histories.",[CU+":Curve.__init__",CU+":Damping_Curve.__init__",CU+":Stress_Curve.__init__"])
p("Curve containers behave like typed lists","For every sequence of append / set / delete-one / get operations, a multi-layer curve or parameter container holds exactly the elements a plain list would, its n_layer equals its length, and curve containers never hold an element of the wrong class; deletion by slice breaks the n_layer invariant.","every finite sequence of operations",inf+" Must hold for every history.",[CU+":Multiple_Curves",PA+":Param_Multi_Layer"])
p("Parameter dictionaries keep exactly their allowed keys","For every sequence of item assignments, deletions and updates on an HH or MKZ parameter object the key set stays exactly the allowable keys; the in-place union operator bypasses the check.","every finite sequence of dictionary operations",inf,[PA+":Parameter",PA+":HH_Param",PA+":MKZ_Param"])
p("Parameter serialisation round-trips","Serialising then deserialising HH parameters returns the same parameters; for MKZ the in-memory round trip is exact while the file round trip restores everything except Gmax, which becomes 1.","every parameter value",inf,[HH+":serialize_params_to_array",HH+":deserialize_array_to_params",MK+":serialize_params_to_array",MK+":deserialize_array_to_params"])
# --- constitutive
p("MKZ stress-strain law","For positive parameters tau_MKZ is odd, zero at zero, bounded in modulus by Gmax*|strain|, and its secant modulus ratio is in (0,1] and non-increasing in |strain|.","every strain and parameter set",inf,[MK+":tau_MKZ",SR+":calc_GGmax_from_stress_strain"])
p("FKZ stress is bounded by the shear strength","For positive parameters and non-negative strain tau_FKZ is zero at zero, increasing and strictly below Tmax.","every strain and parameter set",inf,[HH+":tau_FKZ"])
p("HH stress lies between its two branches","The transition function is in [0,1], non-increasing in |strain|, and tau_HH is a convex combination of the MKZ and FKZ stresses.","every strain and parameter set",inf,[HH+":transition_function",HH+":tau_HH"])
p("Damping from a stress-strain curve","The Masing damping computed from any curve is zero at the smallest strain, never negative, and zero at all strains for a linear elastic curve.","every strain array and backbone",inf,[SR+":calc_damping_from_stress_strain",SR+":calc_damping_from_param"])
p("Effect of damping-curve fitting on the caller's data","Fitting HH_x or H4_x damping parameters subtracts the small-strain damping from the caller's data in place, so fitting the same curve a second time fits different data (unless the curve starts at zero damping).","every damping table, every sequence of fits",inf+" Only visible over histories.",[HH+":fit_HH_x_single_layer",MK+":fit_H4_x_single_layer"])
# --- HH calibration
p("Calibrated soil quantities stay in physical ranges","In the HH calibration, vertical stress is positive and strictly increasing with depth, density is at least 1650, plasticity index is one of 10/5/0, OCR does not exceed its limit, K0 and mean confining stress are positive and Gmax = rho Vs^2.","every profile with positive thickness and velocity",inf,[HC+":_calc_vertical_stress",HC+":_calc_rho",HC+":_calc_PI",HC+":_calc_OCR",HC+":_calc_K0",HC+":_calc_mean_confining_stress",HC+":_calc_Gmax"])
p("Darendeli modulus-reduction curves","Produced G/Gmax curves are in (0,1], strictly decreasing in strain and increasing with confining stress.","every strain array, profile and PI",inf,[HC+":produce_Darendeli_curves"])
p("HH optimisation kernel output ranges","For every input the transition strain and exponent selected by the calibration lie in their documented search ranges or take the documented fallback.","every MKZ parameter set and strength",inf,[HC+":_optimization_kernel"])
# --- GOF
p("Goodness-of-fit score function","For every pair of measurements the score is 0 exactly when they are equal, within [-10,10], positive for over-prediction, increasing in the prediction, and under-prediction can never score below -10 erf(1).","every pair of numbers",inf,[GO+":S_"])
p("Cross-correlation score","The d10 score is at least 0.1 for every pair of motions, equals 0.1 for proportional motions, and grows without bound as correlation vanishes.","every pair of records",inf,[GO+":d_10"])
p("GOF score slots","calc_scores fills exactly the slots of the requested score groups, returns exactly the calculated scores in order, and leaves the previously calculated ones in place.","every history of calls",inf,[CG+":GOF_Scores.calc_scores"])
# --- SVM
p("Velocity model profile generation","For every Vs30 and z1 the discretised profile is non-decreasing in Vs, no velocity exceeds the cap when one is set, and its total depth is z1.","every (Vs30, z1, cap, eta)",inf,[SV+":SVM"])
p("Randomised profiles keep z1","For any random draws the randomised profile has positive layer thicknesses, all layers but the last at least the minimum thickness, and thicknesses summing exactly to z1.","every outcome of the random number generator",inf+" Every random schedule.",[SV+":SVM._helper_get_rand_profile"])
# --- simulations
p("Equivalent-linear iteration","The equivalent-linear loop performs at most max_iter iterations and terminates; modulus reduction stays within (0,Gmax]; with verbose=True it may stop early at the tolerance, while with verbose=False it always performs max_iter iterations, so results may depend on verbosity.","every profile, motion, curve set, tolerance, max_iter",inf,[SI+":equiv_linear"])
p("Padding keeps the record length","For every record length the linear simulation pads even lengths by one sample, and the returned histories have exactly the input length.","every record length",inf,[SI+":_prepare_inputs",SI+":_post_processing"])
p("Density unit of re-discretised profiles","The re-discretised profile returned by linear and equivalent-linear simulations reports densities 1000 times those of the input profile; the nonlinear simulation reports them unchanged.","every profile",inf,[CS+":Linear_Simulation.run",CS+":Equiv_Linear_Simulation.run",CS+":Nonlinear_Simulation.run"])
p("Working directory over every exit of a nonlinear simulation","On normal completion the nonlinear simulation restores the working directory; at any failure between entering and leaving the simulation directory the process is left inside it.","every crash point of the run",inf+" All crash points.",[CS+":Nonlinear_Simulation.run"])
p("Simulation directory never overwrites an existing one","The nonlinear simulation never runs in a directory that already existed; if both the requested name and the fallback name exist it raises and leaves the file system unchanged.","every file-system state",inf,[CS+":Nonlinear_Simulation.run"])
p("Layer/material count check","check_layer_count accepts exactly when the material numbers used by the profile are all available in each parameter or curve set supplied.","every profile and parameter set",inf,[SI+":check_layer_count"])
p("Batch simulations keep order, isolation and distinct directories","For every batch, the i-th result is the result of the i-th simulation, parallel and serial runs agree, with catch_errors a ValueError in one simulation yields None at its position and leaves the others unaffected, and the output directories of different simulations are different and sort in order.","every batch, schedule and failure pattern",inf+" All failure patterns and schedules.",[BS+":Batch_Simulation.run",BS+":Batch_Simulation._run_single_sim"])
p("Batch run option dictionary","A serial batch run leaves the directory of the last simulation in the caller's options dictionary; a parallel run with figures raises when any simulation failed.","every batch and option dictionary",inf,[BS+":Batch_Simulation.run"])
p("Simulation result shape contract","A Simulation_Results object is constructed exactly when every supplied history has as many rows as the surface motion has samples and as many columns as the profile has boundaries (or mid-points); maxima are kept only when both are supplied.","every combination of optional arrays and shapes",inf,[CR+":Simulation_Results.__init__"])
p("Damping calibration dispatch","Damping_Calibration.get_H4_x_param returns the result of the HH calibration, not of the H4 calibration, for every profile and option.","every profile and option",inf,[DC+":Damping_Calibration.get_H4_x_param"])
p("Two-column data loader","read_two_column_stuff returns for one-column data with time step delta the time axis delta, 2 delta, ..., n delta; for two-column data the step is the difference of the first two entries; a two-column array with a single row is treated as one column.","every array",inf,[G+":read_two_column_stuff"])
p("Staircase arrays used for plotting a profile","For every thickness and Vs array of equal length, the plotted staircase has two points per layer, at the top and at the bottom of the layer, both at the layer's Vs; the last point is at the requested plotting depth.","every profile and plotting depth",inf,[SR+":_gen_profile_plot_array"])
p("Basin depth estimated from Vs30","The z1 estimated from Vs30 is positive, at most 140.511 m for non-negative Vs30, and strictly decreasing in Vs30.","every Vs30",inf,[SR+":calc_z1_from_Vs30"])
p("The depth array follows later writes to the caller's array","A Vs_Profile built without appending a half space keeps a view of the caller's thickness column: writing a new thickness into the caller's array later changes what get_depth_array returns, while the profile table (and z_max) stay as built; when a half space was appended the object is independent of the caller's array.","every array, written row and value",inf+" Only visible over a history of constructions and writes.",[VP+":Vs_Profile.__init__",VP+":Vs_Profile.get_depth_array"])
p("Profiles returned by queries answer the same query","For strictly increasing non-negative depths, query_Vs_at_depth(as_profile=True) returns a profile whose interfaces are exactly the requested depths (plus the surface) and which returns the same Vs at each requested depth; all other depth arrays raise ValueError. For a scalar thickness the inferred layer count is the least that covers the profile, and the returned profile has that many equal layers, each with the Vs of the original at its mid-point or top.","every profile, depth array and thickness",inf,[VP+":Vs_Profile.query_Vs_at_depth",VP+":Vs_Profile.query_Vs_given_thk"])
p("Profile exports","Kilometre output divides exactly the first two columns by 1000; slowness is the reciprocal of velocity with thicknesses kept; to_txt with its default precision always raises TypeError, and accepts exactly five-element lists.","every profile",inf,[VP+":Vs_Profile.output_as_km_unit",VP+":Vs_Profile.get_slowness",VP+":Vs_Profile.to_txt"])
p("Constructing a motion","The Ground_Motion constructor on a two-column array succeeds exactly when there are at least two rows, the unit and type are known, and g or gal is only used for acceleration; every failure leaves the caller's array untouched; on success the caller's array itself is converted to SI in place and becomes the history of the given type, so building a second motion from the same array converts twice (and changes the first motion too). The PGA/PGV/PGD attributes are attained maxima of absolute values and the RMS acceleration lies between 0 and the PGA.","every array, unit, motion type and history of constructions",inf+" The in-place conversion only shows in histories of constructions.",[GM+":Ground_Motion.__init__"])
p("Interpolating a curve","Resampling a table with strictly increasing abscissae to n >= 2 points between lo < hi (log-spaced when lo > 0, or linearly) returns n points with strictly increasing abscissae from exactly lo to exactly hi, each value being that of the piecewise-linear curve through the samples, held constant outside; values stay within the bounds of the samples, a non-increasing table stays non-increasing, and the samples themselves are reproduced; an empty table raises ValueError.","every table, range and number of points",inf,[G+":interpolate"])
p("HH calibration of any profile","For every profile with positive thicknesses and velocities (and no density formula dividing by zero), calibration returns exactly one parameter set per row except the last one, half space or not: transition strain between 0.001 % and 3 %, a = 100, d between 0.67 and 1.39, beta = 1, s = 0.919, Gmax = density times Vs squared, all parameters positive, so the HH stress is defined for every non-negative strain. A strength array of the wrong length raises ValueError.","every profile",inf,[HC+":hh_param_from_profile",HC+":produce_HH_G_param"])
p("Calibration from curves follows the material numbers","When calibrating from given curves, each layer gets the parameters fitted to the curve of its own material number, whatever the order and repetition of material numbers; a material number without a curve is an error.","every profile, curve matrix, material numbering and fitting routine",inf,[HC+":hh_param_from_curves"])
p("Mean absolute error","The mean absolute error of two equally long non-empty arrays is non-negative, zero exactly when the arrays are equal, symmetric, satisfies the triangle inequality and does not exceed the largest difference; arrays of different lengths (none of length one) raise ValueError.","every pair of arrays",inf,[G+":mean_absolute_error"])
p("A record scored against itself","For every record, frequency limits and correction routine, the peak-intensity and RMS scores of a record against itself are exactly 0, the four averaged scores are 0 or NaN (the first is 0 as soon as the filtered record carries energy), and the cross-correlation score of a non-zero record is 0.1.","every record, option and filter",inf,["PySeismoSoil/helper_gof_scores.py:"+x for x in ["d_1234","d_567","d_89","d_10"]])
p("A simulation proportional to the measurement","When the correction and filter routines are linear, a simulation equal to c times the measurement has shape scores 0, peak-intensity scores 10 erf(c^2-1) and RMS scores 10 erf(|c|-1) (above the numerical floor), whatever the sign of c.","every record, factor c <> 0 and linear correction",inf,["PySeismoSoil/helper_gof_scores.py:"+x for x in ["d_1234","d_567"]])
p("Batch scoring","A batch run returns the objects scored one by one, in order, in both modes; serially these are the caller's own objects, in parallel the caller's objects stay unscored; the first exception ends the run, and serially the earlier objects keep their scores.","every batch, option set and failure position",inf+" All failure positions.",["PySeismoSoil/class_gof_scores.py:Batch_GOF_Scores.run"])
p("Site-factor tables","Over complete data files every accepted finite site gets its tables without error: Fourier results have at most 140 rows in the order of the frequency file, response-spectrum results are indexed by the reciprocals of the tabulated periods in reversed (increasing-frequency) order, the combined query returns the same tables as the two single queries with the phase always from the equivalent linear method, and methods outside the documented ones raise ValueError.","every site, method and data set of the documented shape",inf,[SF+":Site_Factors.get_amplification",SF+":Site_Factors.get_phase_shift",SF+":Site_Factors.get_both_amplf_and_phase"])
p("Filtering is linear and one-sided","For every record and every accepted cutoff, filtering satisfies superposition (the same outcome for all values on the same times), never looks ahead (outputs up to a sample depend only on inputs up to it), keeps a quiet start quiet, and delaying the record delays the output; hence it is not the zero-phase filter the documentation promises.","every record, filter kind, cutoff, order and filter design",inf,[SP+":lowpass",SP+":highpass",SP+":bandpass",SP+":bandstop"])
p("Baseline correction","For every record of at least five samples and every positive cutoff below the Nyquist frequency, baseline correction returns a record with the same times and length; shorter records raise IndexError, cutoff 0 raises ZeroDivisionError, cutoffs from the Nyquist frequency on raise ValueError; the result scales with the record for positive factors; a record with one zero crossing only (after removing the pre-event mean) is returned as all zeros.","every record and cutoff",inf,[SP+":baseline"])
p("Transfer function of two records","Given two records the transfer function is computed exactly when steps agree and lengths are equal; each value is the quotient of the two spectra; a record against itself gives 1, gains multiply along a chain, scaling the output scales the values.","every pair of records",inf,[SP+":calc_transfer_function"])
p("Sine smoothing","sine_smooth returns as many values as given, non-negative and homogeneous in the magnitude of the input; the highest bins take values computed from lower bins, so they do not depend on their own input.","every spectrum",inf,[SP+":sine_smooth"])
p("Frequency spectrum attributes","A Frequency_Spectrum is constructed exactly from two or more samples (one column, with a non-zero frequency step) or from a two-column array of at least two rows; without interpolation it keeps frequencies k*df (k = 1, 2, ...) or the first column, amplitude and phase are the polar form of every sample with the phase in (-pi, pi], and the frequency bounds are attained; with interpolation the axis is the requested grid and each value is that of the piecewise-linear complex curve, never larger in magnitude than the samples. The documented zero phase of a real spectrum is false (negative samples have phase pi). Every rejection has a stated cause.","every data array, step and interpolation grid",inf,["PySeismoSoil/class_frequency_spectrum.py:Frequency_Spectrum.__init__",G+":interpolate"])
p("Unwrapped phase, peak and smoothing of a frequency spectrum","get_unwrapped_phase returns a spectrum whose phase is again wrapped to (-pi, pi] and equals the original phase unless the robust correction acts; amplitudes are kept and the frequency axis is replaced by the multiples of the raw step (kept exactly when it was that already). get_f0 returns a frequency of the axis at which the amplitude is largest. get_smoothed without a figure raises for every spectrum.","every spectrum and option",inf,["PySeismoSoil/class_frequency_spectrum.py:Frequency_Spectrum.get_unwrapped_phase","PySeismoSoil/class_frequency_spectrum.py:Frequency_Spectrum.get_f0","PySeismoSoil/class_frequency_spectrum.py:Frequency_Spectrum.get_smoothed"])

p("The run methods return a results object exactly for the inputs the simulation supports",
 "Linear_Simulation.run(every_layer=True) and (for curves with moduli in (0, 1] and no negative damping increase) Equiv_Linear_Simulation.run return a Simulation_Results exactly when the underlying simulation accepts the profile, motion, boundary and curves and the motion has at least three samples; the object then carries the motion given, the surface motion, the re-discretised profile, every history and every maximum of that simulation, and the name and directory asked for. With two samples an IndexError is raised. Linear_Simulation.run(every_layer=False) returns an object with the caller's own profile, no histories and no maxima, and drops the requested motion name and output directory, so runs within the same second share a directory.",
 "every profile, motion, boundary, curve matrix, flag, name and directory", inf, [CS+":Linear_Simulation.run", CS+":Equiv_Linear_Simulation.run", CR+":Simulation_Results.__init__"])
p("Non-linear post-processing returns the kernel's histories, except for a single-layer column",
 "When the kernel wrote one column per node of acceleration, velocity and displacement and one column per layer of strain and stress, Nonlinear_Simulation.run returns an object with exactly these histories and the surface motion made of the first acceleration column, provided the re-discretised profile has at least two layers; for a column that stays a single layer (thickness at most Vs/225) it raises TypeError after the kernel has run.",
 "every profile, motion and kernel output of matching shape", inf, [CS+":Nonlinear_Simulation.run", CR+":Simulation_Results.__init__"])
p("Constructors of the simulation classes",
 "The simulation classes accept their arguments exactly when the profile and the motion are of the right classes, the boundary is 'elastic' or 'rigid', the two parameter sets are of one class (and given, for the non-linear class), the curves are given (for the equivalent-linear class), and every material number of the profile is at most the number of curve or parameter sets; otherwise TypeError or ValueError is raised as documented.",
 "every combination of arguments", inf, [CS+":Simulation.__init__", CS+":Equiv_Linear_Simulation.__init__", CS+":Nonlinear_Simulation.__init__", SI+":check_layer_count"])
p("Damping curves of a profile", "Damping_Calibration.get_damping_curves returns one curve per soil layer when every damping it computes lies between 0 and 1, and raises ValueError otherwise. Each curve holds the requested strains with the Darendeli damping of the layer in per cent, shifted (unless use_Darendeli_Dmin) to start exactly at the profile's damping; it stays within 44 percentage points of that value. A damping of at most 56 % that is not tiny for the layer's overburden is always accepted. Every array is new and no earlier array changes. A profile without soil layers raises IndexError.",
 "every profile with positive thicknesses and densities above its last row, and every positive strain array", inf, [DC+":Damping_Calibration.get_damping_curves"])
p("A motion sent through a transfer function or a profile",
 "Ground_Motion.amplify_by_tf returns a motion exactly when the spectrum has as many values as frequencies, the record has two samples and a non-zero step and (with extrapolation, multiplying) the spectrum reaches or can be extended to the record's highest frequency; the motion is the object made of the record whose spectrum is the input's multiplied (divided, for deconvolution) by the transfer function, on the same times; every array that existed keeps its values. Deconvolving an amplified motion by the same spectrum, or the same profile and boundary, returns the original acceleration when no factor vanishes; a unit spectrum and bare rock leave the motion as it is; responses superpose. amplify succeeds on every valid profile and only there, and keeps times and mean. Anything that is not a spectrum or a profile raises TypeError, an unknown boundary ValueError, with nothing changed.",
 "every motion, spectrum, profile, boundary, flag and factor", inf, [GM+":Ground_Motion.amplify_by_tf", GM+":Ground_Motion.amplify", GM+":Ground_Motion.deconvolve"])
p("Site effect adjustment",
 "Site_Effect_Adjustment accepts exactly the two tabulated methods and, in strict mode, sites whose Vs30, z1 and the motion's PGA in g lie in the tables; in lenient mode it takes the factors of the nearest tabulated values while its attributes keep the values given; wrong types raise TypeError before anything else, all else ValueError. Without z1 the regional relation supplies a depth, which is never too deep for the velocity but is below the tables from 948 m/s on, so such sites are refused in strict mode. run multiplies the record's spectrum by the interpolated amplification and turns it by the interpolated phase, keeps the times, always succeeds for sites in complete tables, and returns the motion unchanged when every factor is one and every phase zero.",
 "every motion, Vs30, z1 (given or not), method and mode; every table content and every interpolation that is exact on linear data", inf, ["PySeismoSoil/class_site_effect_adjustment.py:Site_Effect_Adjustment.__init__","PySeismoSoil/class_site_effect_adjustment.py:Site_Effect_Adjustment.run"])
p("Filters, baseline correction and spectra of a motion object",
 "lowpass, highpass, bandpass, bandstop and baseline_correct of a Ground_Motion return a new motion on the same times with the documented filter applied, or raise TypeError/ValueError/IndexError/ZeroDivisionError in exactly the stated cases, leaving every array as it was. A lowpass at or above the Nyquist frequency (and a highpass at or below 0) returns a motion that shares the array of the original, so saving it in g rewrites the original motion. Filtering superposes and never looks ahead. get_Fourier_spectrum returns one value per bin, labelled one bin too high, refuses a two-sample motion one-sided, and real and complex spectra have the same amplitudes; response spectra scale with the motion.",
 "every motion with two samples or more, every cutoff, order, filter design and flag", inf, [GM+":Ground_Motion."+x for x in ["lowpass","highpass","bandpass","bandstop","baseline_correct","get_Fourier_spectrum","get_response_spectra"]])
p("Comparison of two motions",
 "Ground_Motion.compare succeeds exactly when the smaller step is below the later end (and 28 steps fit, with smoothing), and raises IndexError, ValueError or TypeError otherwise. Both records are put on the grid of multiples of the smaller step up to the later end; the returned curve is the ratio of the Fourier amplitudes, the smoothed curve lies within its range; exchanging the motions is the same as exchanging the role flag; comparing a motion with c times itself gives |c| at every finite ratio. Records whose times start at zero lose their first sample, and a shorter record is held at its last value.",
 "every pair of motions, role flag and smoothing option", inf, [GM+":Ground_Motion.compare", SP+":compare_two_accel"])
p("Spectra and fundamental frequencies of a velocity profile",
 "Vs_Profile.get_transfer_function returns the curves for rock outcrop, borehole and incident motion (the last twice the first) at the frequencies asked for, get_ampl_function their moduli; get_f0_RO and get_f0_BH return the first frequency of the 0.05 Hz grid that is not exceeded by the next one, and 30 Hz if there is none. For a uniform layer the borehole fundamental frequency lies within the stated band around Vs/(4H), whatever the rock below; for a profile with no impedance contrast the rock-outcrop method returns 0.05 Hz, the start of the grid. Basin depth and z1 are read off the layers from the bottom of the profile as stated. Wrong arguments raise the stated errors.",
 "every profile, resolution and upper frequency", inf, [VP+":Vs_Profile."+x for x in ["get_ampl_function","get_transfer_function","get_f0_RO","get_f0_BH","get_basin_depth","get_z1"]])
p("Which samples, periods and frequencies enter the goodness-of-fit scores",
 "Scores 1 to 7 depend on the two records only through what is left after dropping the first 14 and the last 15 samples, and use all of that; records of 29 samples or fewer are refused. Score 8 is the average of the single scores over the response periods from 1/fmax to 1/fmin, score 9 over the Fourier frequencies from fmin to fmax, both ends included; spectral values outside these bands have no influence.",
 "every pair of records, every filter and spectrum routine, every frequency band", inf, ["PySeismoSoil/helper_gof_scores.py:"+x for x in ["d_1234","d_567","d_89"]])
p("Wavelet baseline correction",
 "baseline_wavelet returns a record on the same times, at each sample the sum of the detail components of the periodically continued record; with orthogonal filters the components and the trend add up to the record exactly, with nearly orthogonal ones up to a stated multiple of the defect, and energy is preserved; the result has mean zero when the high-pass filter sums to zero, a constant record becomes zero, corrections superpose and commute with rotation. Because the record is continued periodically, the end of a record influences its beginning. With no levels everything is removed. Filters of odd length raise ValueError and an unknown wavelet its own error.",
 "every record, level and pair of wavelet filters", inf, ["PySeismoSoil/helper_gof_scores.py:"+x for x in ["baseline_wavelet","upArrow_op","period_list","circular_convolve_mra","circular_convolve_d","modwt","modwtmra","getAbsPeak"]])
p("Curve matrices",
 "get_curve_matrix returns as many rows as the longest curve and four columns per layer: the longest curves as they are, the others resampled between their first and last strain with interpolated values, the other property filled. It exists exactly when there is a curve and every shorter curve has samples and no zero strain (ValueError otherwise), so a curve starting at zero strain is usable alone but not beside a longer one. Writing and reading curves of one length returns the curves. Multiple_GGmax_Damping_Curves accepts exactly a pair of the two classes with as many layers or a two-dimensional array with a multiple of four columns; its matrix exists for a pair exactly when the longest lengths agree, its curve objects exist exactly when every cell is admissible, and going from one form to the other and back returns the original.",
 "every list of curves, array and argument combination", inf, [CU+":"+x for x in ["Multiple_GGmax_Curves.get_curve_matrix","Multiple_Damping_Curves.get_curve_matrix","Multiple_GGmax_Damping_Curves.__init__","Multiple_GGmax_Damping_Curves.get_curve_matrix","Multiple_GGmax_Damping_Curves.get_MGC_MDC_objects"]])
p("The HH calibration class",
 "HH_Calibration accepts exactly a Vs_Profile with nothing or one G/Gmax curve per layer and nothing or one strength per layer (TypeError or ValueError otherwise). fit returns one complete HH parameter set per layer of a profile with half space, with usable values, the given strengths where given, and for curves the modulus reduction fitted to the curve that carries the layer's material number, with strains as ratios and Gmax equal to density times Vs squared; saving writes one row per parameter and one column per layer and does not change the result, and without a directory raises ValueError. For a profile that does not end with a half space the constructor asks for one strength per row but fit then always raises ValueError, and without strengths the deepest layer gets no parameters.",
 "every profile, list of curves, strengths, file options and curve fitting routine", inf, ["PySeismoSoil/class_hh_calibration.py:HH_Calibration.__init__","PySeismoSoil/class_hh_calibration.py:HH_Calibration.fit"])
p("Fitting the MKZ model to modulus curves",
 "fit_MKZ returns one row (reference strain, 0, s, beta) per group of four columns, fitted to the strain and G/Gmax columns of that group only, and a matrix of fitted curves of 109 strains from 0.0001 to 10 per cent in constant ratio with as many columns as the input; it fails exactly when a curve fit fails or the argument is not a 2-D array. The fitted curve is the MKZ law of the fitted values: it lies between 0 and 1 and decreases for positive values; a zero reference strain (inside the search box) gives zero modulus everywhere. A row is in the documented single-material text format, but the transposed rows are not what the multi-layer parameter class reads: it takes 0 for s, s for beta and beta for the modulus without complaint.",
 "every curve matrix and curve fitting routine", inf, [MK+":fit_MKZ"])
p("The objective and the options of the damping fits",
 "For every candidate, the error of an HH or H4 damping fit is the mean absolute difference between the measured damping and the damping of the candidate's curve at the fitting strains, it is zero exactly when they agree, and candidates of the wrong size fail. The H4 error does not depend on the modulus and the HH error does not change when Gmax and strength are scaled together, so different candidates tie. scipy is called with one interval per logarithm of a parameter and the mapped options; options of the other algorithm are ignored. If the optimiser stays in its box, each parameter lies between ten to the lower and upper bound, and a best point is a best parameter set. Fitting all layers together returns what each layer's own serial fit returns; a pool of fewer than one process raises ValueError before anything is changed.",
 "every curve, option set and optimiser", inf, [HH+":fit_HH_x_single_layer", HH+":_damping_misfit", MK+":fit_H4_x_single_layer", MK+":damping_misfit", SR+":ga_optimization", SR+":fit_all_damping_curves"])
p("Files written by the damping fits",
 "get_all_HH_x_params and get_all_H4_x_params of an object read from '.../curve_SITE.ext' save by default to HH_x_SITE.txt/.png (H4_x_...) in the working directory; without 'curve_' in the name the whole stem is used; if 'curve_' is not at the beginning, the first six characters of the stem are dropped, so the name does not show the site. Names collide for equal file names in different directories. An object not read from a file needs explicit names, otherwise ValueError is raised before any fit. A figure is written exactly when it is both shown and saved, a text file exactly when asked for, with one column of parameters per layer; it can be read back as parameters of the same model, up to the printed precision, for two layers or more, and is refused (TypeError) for one layer; with no layers saving raises ValueError.",
 "every file name, option set, list of curves and optimiser", inf, [CU+":Multiple_Damping_Curves.get_all_HH_x_params", CU+":Multiple_Damping_Curves.get_all_H4_x_params", CU+":Multiple_Damping_Curves._produce_output_file_name", SR+":fit_all_damping_curves"])
p("The mean thickness of random layers",
 "The relation between thickness and middle depth on which the random layers are based has, at every depth, exactly one solution, it is positive and grows strictly with depth, and it is below the two-metre minimum exactly above the depth (16/9)^(50/31) - 1. These are the only zeros of the function handed to the solver, except that at the surface zero thickness is one too; the function is positive below and negative above the solution. The loop that keeps trying until the solver converges repeats the same call: it ends exactly when the first attempt converges, and returns that attempt's value; otherwise it never ends.",
 "every depth, thickness and equation solver", inf, [SV+":SVM._thk_depth_func", SV+":SVM.get_randomized_profile"])
p("Thicknesses and depths in double precision",
 "In IEEE double precision, thk2dep of thicknesses that are not negative gives depths that start at 0, are never NaN and never decrease (even on overflow); depth k is the exact sum of the k layers above up to the relative error of k roundings, and middle depths lie between the tops of their layer and of the next. The total depth (np.sum) has the same accuracy however numpy groups the additions. Thicknesses that are multiples of a power of two, with a total of at most 2^53 of them, give exact depths, an exact total and an exact round trip through dep2thk; depths that at most double from one interface to the next survive the trip through thicknesses exactly. In general a recovered thickness is finite, not negative and off by at most 2^-52 of the depth, not of the thickness: 0.1 m over 0.2 m does not come back, and a thin layer below a thick one can vanish.",
 "all lists of IEEE doubles, all groupings of the additions", inf, [SR+":thk2dep", SR+":dep2thk", VP+":Vs_Profile.__init__"])
p("Numbers of samples and layers in double precision",
 "truncate uses sample int(t/dt): the number of whole steps in t, or one more if t is within rounding of it; exactly k when t is exactly k steps; k or k-1 when t is the (rounded) time of sample k, and k-1 does occur: with steps of 0.01 s, cutting from 0.29 s starts at sample 28. The two sample numbers are ordered and inside the record; a NaN quotient raises ValueError and an infinite one OverflowError. The number of layers int(ceil(z/thk)) is such that the layers reach z up to rounding and one layer fewer would not. Querying a profile of k layers of one thickness with that thickness gives k layers when the sums are exact and k or k+1 in general: three layers of 0.1 m give four.",
 "all IEEE doubles, all groupings of the additions in the total depth", inf, [GM+":Ground_Motion.truncate", VP+":Vs_Profile.query_Vs_given_thk"])
p("Peaks, scaling and Arias intensity in double precision",
 "The peak acceleration is exact, and NaN if a sample is. The peak of a record scaled by a factor is the peak times the factor rounded once; scaling to a target PGA reaches the target up to 5 * 2^-53 relative error if nothing under- or overflows, but not always exactly (peak 11/1024, target 0.2 g); a value in gal comes back up to 3 * 2^-53, not exactly (0.23). Sample k of the integrated record is dt times the exact sum up to the relative error of k+1 roundings of the sum of absolute values plus half the smallest number. Arias intensity starts at 0 and never decreases; normalised it stays between 0 and 1, never decreases and ends with exactly 1 if the last value is finite and positive; if it is 0 everything is NaN, which also happens for non-zero records whose squares underflow.",
 "all lists of IEEE doubles, factors, targets and time steps", inf, [GM+":Ground_Motion.__init__", GM+":Ground_Motion.scale_motion", GM+":Ground_Motion.__calc_Arias", SR+":num_int"])
p("Evenly spaced time axes in double precision",
 "In IEEE double precision, for ordinary spacings and up to 2^48 samples: the attribute time starts at 0, ends at the rounded product of the spacing and the number of steps, increases strictly, and each entry is within seven units of roundoff of its multiple of the spacing; one-column data with a given spacing is always accepted (the internal check of the spacing cannot fail) and its times start at exactly one spacing, not at 0; with a spacing of m * 2^e (such as 1/64 s) all times are exact. A spacing of zero, infinity or NaN raises AssertionError and fewer than two samples IndexError; a negative spacing is accepted. The common time axis used to compare two records starts at the smaller step, is evenly spaced and just reaches the later end; for two records of one spacing it has as many samples as the longer record or one more, and one more does occur: three samples at 0.01 s compared with themselves give four. Such axes of up to 2^20 s pass the check for even spacing of the response spectra with any subsampling.",
 "all IEEE double spacings, numbers of samples, pairs of records and subsampling intervals", inf, [GM+":Ground_Motion.__init__", G+":read_two_column_stuff", SR+":_align_two_time_arrays", SR+":response_spectra"])
p("Velocities at depths in double precision",
 "In IEEE double precision, query_Vs_at_depth answers every array of depths without a negative one, for every nonempty profile, with the velocity of the one layer that holds each depth (its top inside, its bottom outside, in terms of the depths the library computes; the last layer has no bottom), for all thicknesses that are not negative; this is the exact layer unless the depth is within the rounding of the sums of an interface. A depth of NaN is accepted and gives the last velocity. A profile whose layers are not thinner than 20 units of roundoff of the depth of their bottom, queried with its own thickness array, returns its own velocities at the tops and at the middles; so does a profile of up to 2^48 equal layers queried with their thickness and number. A layer thinner than half a unit of roundoff of the depth of its top is never found, not even at its own top (1 m over 2^-55 m).",
 "all profiles, depths and thickness arrays of IEEE doubles", inf, [SR+":query_Vs_at_depth", SR+":query_Vs_given_thk", SR+":thk2dep", VP+":Vs_Profile.query_Vs_at_depth"])
p("The average velocity of the top Z metres in double precision",
 "In IEEE double precision, for every profile and depth without extreme numbers, calc_VsZ with either option is finite and equals the exact travel-time average up to a relative error of 50 n + 100 roundings (n layers) times the ratio of the largest to the smallest velocity times the ratio of profile depth plus Z to the depth that counts; so it lies between the extreme velocities, and is the velocity of a uniform profile, up to that error. It is not exactly the velocity of a uniform profile: three layers of 10 m and 200 m/s have a Vs30 below 200. What lies below Z has no influence at all, not even on the rounding. Options other than 1 and 2 raise UnboundLocalError.",
 "all profiles and depths of IEEE doubles", inf, [SR+":calc_VsZ", SR+":calc_Vs30", VP+":Vs_Profile.__init__"])
p("Figures and axes",
 "Every plotting method draws on the figure and axes it is given and creates what is missing; no axes other than the given ones are ever changed, whether the call succeeds or raises. The returned axes lie in the returned figure except when axes are given without their figure: then a new, empty figure is opened and returned next to the given axes, and methods that draw several curves ignore the given axes.",
 "every canvas of figures and axes, every combination of given and missing figure and axes, every plotting method and argument", inf, [G+":_process_fig_ax_objects", SR+":plot_motion", SR+":plot_Vs_profile", CU+":Curve.plot", CU+":Multiple_Curves.plot", VP+":Vs_Profile.plot"])
p("Plots of ground motions",
 "A plot of a motion succeeds exactly when there are two samples, the unit is m or cm, and the first peak is followed by at least round(n/40) samples; it then shows acceleration with the first peak marked, velocity and displacement as running sums, over the range of the times, in three new axes of one figure. A motion whose peak lies in its last fortieth raises IndexError (also from summary), with the acceleration already drawn; the documented unit g always raises ValueError and leaves an empty figure open. A file name is the title unless a nonempty title is given.",
 "every motion, unit, title, figure and axes", inf, [SR+":plot_motion", GM+":Ground_Motion.plot", GM+":Ground_Motion.summary"])
p("Plots of velocity profiles",
 "The drawn line has at every depth of a layer that layer's velocity, at an interface all velocities between the two layers, and no other points; without a maximum depth all of it lies inside the limits of the axes, which reach one first-layer thickness below the profile; a maximum depth of 0 counts as none. The title is the file name; giving a title to a profile read from a file, or to SVM.plot, raises TypeError. Queried points are drawn as given and the depth axis is extended to show them. Comparing an SVM profile with another draws the smooth profile first, with limits that ignore it. An invalid array leaves a new figure open.",
 "every profile, depth, title, label, figure and axes", inf, [SR+":plot_Vs_profile", SR+":_gen_profile_plot_array", VP+":Vs_Profile.plot", VP+":Vs_Profile._plot_queried_Vs", SV+":SVM.plot", SV+":SVM._plot_additional_profile"])
p("Plots of curves and spectra",
 "One curve is drawn as one line with the keyword arguments given; several curves are all drawn in order on one pair of axes, but keyword arguments are dropped; modulus and damping curves together give two new figures. Raw data given in strains of unit 1 are drawn in per cent if the curve was not interpolated, but as given, under the same axis label, if it was. A spectrum is drawn as its modulus or its real part.",
 "every curve, list of curves, spectrum, option, figure and axes", inf, [CU+":Curve.plot", CU+":Multiple_Curves.plot", CU+":Multiple_Damping_Curves.plot", CU+":Multiple_GGmax_Curves.plot", CU+":Multiple_GGmax_Damping_Curves.plot", FS+":Frequency_Spectrum.plot"])
p("Figures of simulation results",
 "Two motions whose times agree to 1e-4 s (and 1e-5 of the time) are drawn over the range of the times, the one with the smaller peak last (on equal peaks the input last), followed by the amplification (with its smoothed version and the line 1) and the phase when a transfer function is given, and always by both Fourier spectra; the axes are new, returned in this order and belong to one figure. Motions of different lengths raise ValueError, other times AssertionError, before anything is drawn. The maxima are drawn in a second figure, exactly when both tables are there, in five panels with displacement and velocity in cm, strain in per cent and stress in kPa, all with the greatest depth of the first table at the bottom.",
 "every pair of motions, transfer function, tables of maxima and existing figures", inf, [SR+":_plot_site_amp", SR+":compare_two_accel", CR+":Simulation_Results.plot"])
p("Image files of simulation results",
 "With save_fig the directory asked for is created and gets the first image; the image of the maxima goes to the directory of the results even when another directory was asked for, so a call that draws both fails with FileNotFoundError, after the first image was written, exactly when the directory of the results is neither the one asked for nor existing. Nothing else is created. Without save_fig, or when drawing fails, the disk is unchanged.",
 "every set of results, output directory, set of existing directories and files", inf, [CR+":Simulation_Results.plot"])
p("Figures of damping fits",
 "fit_all_damping_curves draws per layer the data and the fitted curve at 50 strains from 1e-4 to 10 per cent, raised by the first damping of the data drawn. Serial and parallel runs return the same parameters but draw different figures: the serial run has already subtracted the first damping from the arrays it draws. The figures agree exactly when all tables start with zero damping. No layers raises ValueError.",
 "every list of damping tables whose first damping is the smallest, every optimiser, stress model and existing figures", inf, [SR+":fit_all_damping_curves", SR+":_plot_damping_curve_fit"])
p("Linear interpolation in double precision",
 "np.interp as the library uses it, in IEEE double precision, for increasing finite abscissae: every data point is reproduced exactly, and so is the first or last ordinate for every query outside the data; a query of NaN gives NaN, except for a single data point, where it gives the ordinate. Between two data points of ordinary size the value is that of the straight line up to 2^-53 times its size plus six times the difference of the two ordinates; it changes monotonically with the query and never lies on the wrong side of the left ordinate, equal ordinates are returned exactly; so no interpolated value of falling data (modulus reduction) exceeds the first and no value of rising data (damping) falls below it. The right ordinate can be passed, however: between (0, 0.3) and (0.2, 0.9) a value is greater than 0.9. interpolate over the range of the data on a linear scale returns the first and the last ordinate exactly. Empty data or data of different lengths, and nothing else, raise ValueError.",
 "all lists of IEEE doubles with increasing abscissae, all queries, numbers of points up to 2^48", inf, [G+":interpolate", CU+":Curve.__init__", FS+":Frequency_Spectrum.__init__", SR+":_align_two_time_arrays"])
p("Numbers in text files",
 "A finite double written with %.pg denotes the nearest number with p significant decimal digits (ties to even), one written with %.pf the nearest number with p decimals; so it is off by at most 5 * 10^-p of its size, or half a unit of the last decimal, and the order of two numbers is never reversed. With up to 15 digits, a double that is the nearest to a number of at most p digits is written as that number and read back exactly, and what was read from a text is written as the same text again: saving, reading and saving changes nothing after the first time.",
 "all finite IEEE doubles and all numbers of digits", inf, [GM+":Ground_Motion.save_accel", VP+":Vs_Profile.to_txt", PA+":Param_Multi_Layer.save_txt", CR+":Simulation_Results.to_txt"])
p("Motions saved and read back",
 "A motion saved with save_accel (in m/s/s) and read again has as many samples, each time and acceleration off by at most half a unit of the last digit printed (relative error 5 * 10^-5 by default), times in the same order, and the peak that the text of its peak denotes. The time step read is the difference of the first two printed times, off by at most 5 * 10^-5 of the sum of these times: harmless for records that start near zero, but when the first two times agree in the digits printed it is 0, and otherwise at least about one unit of the last digit: a record that starts at 1000 s with a step of 0.01 s is read with a step of 0.",
 "all motions of finite doubles, all numbers of digits", inf, [GM+":Ground_Motion.save_accel", GM+":Ground_Motion.__init__", G+":read_two_column_stuff"])
p("Texts of objects",
 "The text of a Vs_Profile has a heading and one line per layer in order, all of the same width of 69 characters (so the columns are aligned) for thicknesses, velocities, densities and material numbers up to 10^6; it fails exactly when a material number is not finite. A layer thinner than 5 mm is printed with thickness 0.00, like the half space. The text of an SVM gives Vs30 of 100 m/s or more in scientific notation with two digits, off by up to five per cent (350 and 354 m/s give the same text).",
 "all profiles and velocities of doubles", inf, [VP+":Vs_Profile.__repr__", SV+":SVM.__repr__"])
p("Names made of the time",
 "The text of the current time has 19 characters, is different for different seconds and the same within one second, sorts like the times, and, for file names, contains no colon, blank or slash.",
 "all pairs of moments in the years 0 to 9999", inf, [G+":get_current_time"])
p("Curves of a set of soil parameters",
 "get_stress, get_GGmax and get_damping of MKZ or HH parameters (in any order of the dictionary, for positive strains in percent) return the stress of the law at strain/100, its secant modulus over Gmax (for MKZ 1 / (1 + beta (strain/gamma_ref)^s)), and the Masing damping of these stresses in percent. The ratios and dampings do not depend on the unit of stress (Gmax, for HH with Tmax). For MKZ with s at most 1 and increasing strains the ratios lie in (0, 1] and never increase, the dampings lie in [0, 200/pi] and the first is 0: a damping is not a function of its strain alone. A foreign or missing name gives TypeError, strains starting with 0 ValueError, no strains IndexError, for HH a transition strain that is not positive AssertionError. plot_curves draws both at 50 strains from 1e-4 to 10 percent on two new axes of one new figure, and draws nothing when a curve cannot be computed.",
 "all dictionaries of parameters, all arrays of strains, all existing figures", inf, [PA+":Parameter.get_stress", PA+":Parameter.get_GGmax", PA+":Parameter.get_damping", PA+":Parameter.plot_curves"])
p("Curves constructed from layers of parameters",
 "construct_curves returns, in the order of the layers, the curves of ratios and of dampings at the given strains, exactly when all ratios are in [0, 1] and all dampings in [0, 100] percent, and raises ValueError otherwise; with curve_type only the kind asked for is checked and returned, the other is None. It always succeeds for MKZ layers with s at most 1 and increasing strains. It does not for every accepted set: MKZ with s = 3 gives dampings above 100 percent, HH with all parameters positive gives ratios above 1. The first layer whose curves cannot be computed determines the error. Without layers the error is ValueError, or TypeError when one kind was asked for.",
 "all lists of layers of MKZ or HH parameters, all arrays of strains", inf, [PA+":Param_Multi_Layer.construct_curves", CU+":Multiple_GGmax_Damping_Curves.get_MGC_MDC_objects", G+":extract_from_curve_format"])
p("Figures of interpolated site factors",
 "Asking for the plots changes neither the tables nor the errors of get_amplification, get_phase_shift and get_both_amplf_and_phase, and without asking none is made. With plots there is one figure per table: eight lines with the tabulated factors of the neighbouring grid points, each labelled with its own Vs30, z1 and PGA (no two grid points have the same label), and last the returned factors, over frequencies or, for response spectra, over the periods whose reciprocals are returned. The last line lies everywhere between the eight others. The two figures of get_both_amplf_and_phase have the same axis labels and the same legend. The accelerations in the labels are exact except that 1.25 g reads 1.2g.",
 "all sites, methods, data files and interpolators that are linear on boxes", inf, [SF+":Site_Factors._plot_interp", SF+":Site_Factors._get_results", SF+":Site_Factors.get_both_amplf_and_phase"])
p("Figures and images of HH calibrations",
 "Showing or saving figures never changes the parameters that hh_param_from_profile and hh_param_from_curves return, nor their errors; save_fig without show_fig does nothing, whatever the directory. With show_fig there is one new figure of two panels per layer in order (stresses in kPa: the data, FKZ, the strength, HH; below the modulus reductions), after one figure with a panel for every MKZ fit when curves are given, each layer with the curve of its own material. With save_fig there is one image per layer, named after the number of the layer only (a second profile overwrites the images of the first). Without a directory the call raises ValueError, for a missing one FileNotFoundError, in both cases after drawing the first layer, with no image and no parameters. The HH line lies between the MKZ and FKZ lines at every strain but the first, where the data is shown as 0; FKZ stays below the strength; the HH ratios agree with the HH stresses. The FKZ line of the lower panel agrees with that of the upper panel only for d = 1 (or at 100 percent strain).",
 "all profiles, curves, strengths, fitting procedures, directories and existing figures", inf, ["PySeismoSoil/helper_hh_calibration.py:hh_param_from_profile", "PySeismoSoil/helper_hh_calibration.py:hh_param_from_curves", "PySeismoSoil/helper_hh_calibration.py:produce_HH_G_param", "PySeismoSoil/helper_mkz_model.py:fit_MKZ"])
p("Figures of truncations and response spectra",
 "truncate with show_fig returns the same motion and sample numbers as without, and additionally one new figure with three panels: acceleration, velocity and displacement of the record and of the returned motion; without it nothing is drawn and no figure returned. In the figure the truncated samples lie on the original acceleration (at the times of the window, although the returned motion keeps the first times of the record), and for a motion given as acceleration the truncated velocity is the original one less its value just before the window. When the window has fewer than two samples the call with show_fig raises IndexError, which for one sample differs from the error without it (ValueError), and leaves an unfinished figure. The figure of response spectra shows every sample used, the spectral and pseudo-spectral accelerations returned over their periods, with limits as asked for, and changes neither results nor errors, serially or in parallel.",
 "all motions, limits and extensions, all spectra and completion orders, all existing figures", inf, [GM+":Ground_Motion.truncate", GM+":Ground_Motion.get_response_spectra", SR+":response_spectra"])
p("Figures of filters and baseline correction",
 "Filtering with show_fig gives the same array or error as without, for every filter and cutoff and every signal of three samples or more. A call that fails, or hands the signal back unfiltered, draws nothing; any other opens one figure of four panels: the signal, the result at the same times, and their amplitude spectra. The cutoffs marked are those of the filter really applied: a band filter that falls back to a high-pass or low-pass filter marks one end only. Each mark spans all amplitudes, and the vertical axis ends at the largest amplitude other than the first. For two samples a filter that works fails with show_fig (ValueError), leaving three panels. Baseline correction with show_fig gives the same result and errors; its figure of seven panels shows the corrected acceleration with its own integrals, but above the uncorrected velocity an acceleration from which the mean of the first five samples is already subtracted: the two agree only if that mean is zero.",
 "all signals, cutoffs, filters, orders and filter designs, all limits matplotlib may choose, all existing figures", inf, [SP+":_filter_kernel", SP+":baseline", GM+":Ground_Motion.lowpass", GM+":Ground_Motion.baseline_correct"])
import os
exec(open('/tmp/w/over.py').read())
for x in P:
    if x['id'] in OV: x.update(OV[x['id']])
    if x['id'] in MORE: x['statement'] += ' ' + MORE[x['id']]
with open('/verif/properties.jsonl','w') as f:
    for x in P: f.write(json.dumps(x)+"\n")
print(len(P))
