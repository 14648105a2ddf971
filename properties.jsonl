{"id": "C01", "title": "Thickness/depth conversion round trip", "statement": "For every layer-thickness array thk (last entry 0, as the API stores half spaces), the depth array returned by thk2dep starts at 0, has the same length, is non-decreasing when the thicknesses are non-negative, its k-th entry is the sum of the thicknesses above layer k, and dep2thk(thk2dep(thk)) = thk. Conversely thk2dep(dep2thk(z)) = z for every depth array z starting at 0.", "quantifier": "every finite array of real thicknesses / depths, any length", "why_tests_cant": "The input space is infinite (arbitrary lengths and real values); a test fixes one array.", "anchors": ["PySeismoSoil/helper_site_response.py:thk2dep", "PySeismoSoil/helper_site_response.py:dep2thk"]}
{"id": "C02", "title": "Query of Vs at a depth returns the velocity of the layer containing it", "statement": "For every valid profile and every depth d>=0, querying Vs at d returns the Vs of the unique layer whose depth interval contains d (interface depths are resolved the same way for all interfaces), and for d at or below the bottom of the last finite layer the Vs of the last row; the vectorised query equals the scalar query element-wise, so the answer for one depth never depends on the other depths queried.", "quantifier": "every profile (n layers), every list of depths", "why_tests_cant": "The input space is infinite (arbitrary lengths and real values); a test fixes one array.", "anchors": ["PySeismoSoil/helper_site_response.py:query_Vs_at_depth", "PySeismoSoil/class_Vs_profile.py:Vs_Profile.query_Vs_at_depth"]}
{"id": "C03", "title": "Query of Vs for a list of thicknesses samples the profile consistently", "statement": "For every profile and every thickness array, query_Vs_given_thk returns the given thicknesses and the Vs of the profile layer containing the top (or, with at_midpoint, the mid-depth) of each requested layer; a scalar thickness needs a positive layer count (None raises TypeError, n<=0 ValueError) and behaves like the constant array. There is one Vs per thickness, except that with at_midpoint and a zero last thickness the Vs array is one shorter than the thickness array.", "quantifier": "every profile, every thickness array or scalar/layer-count pair, both sampling modes", "why_tests_cant": "The input space is infinite (arbitrary lengths and real values); a test fixes one array.", "anchors": ["PySeismoSoil/helper_site_response.py:query_Vs_given_thk"]}
{"id": "C04", "title": "Vs30 / VsZ is the travel-time average", "statement": "For every valid profile with positive velocities and every Z>0, calc_VsZ equals Z divided by the vertical travel time through the top Z metres (the deepest given velocity being continued downwards, with the documented warning/option when the profile is shallower than Z); hence it lies between the smallest and the largest velocity met above Z, is exact for uniform profiles, and does not decrease when any layer velocity is increased.", "quantifier": "every profile, every Z>0", "why_tests_cant": "The input space is infinite (arbitrary lengths and real values); a test fixes one array.", "anchors": ["PySeismoSoil/helper_site_response.py:calc_VsZ", "PySeismoSoil/helper_site_response.py:calc_Vs30", "PySeismoSoil/class_Vs_profile.py:Vs_Profile.get_Vs30"]}
{"id": "C05", "title": "Basin depth is the shallowest depth reaching the bedrock velocity", "statement": "For every profile and every bedrock velocity, calc_basin_depth returns the top depth of the first layer whose Vs is at least the bedrock velocity; every layer above that depth is slower, and when no layer is fast enough the total depth of the profile is returned.", "quantifier": "every profile, every bedrock velocity", "why_tests_cant": "The input space is infinite (arbitrary lengths and real values); a test fixes one array.", "anchors": ["PySeismoSoil/helper_site_response.py:calc_basin_depth", "PySeismoSoil/helper_site_response.py:calc_z1", "PySeismoSoil/class_Vs_profile.py:Vs_Profile.get_basin_depth"]}
{"id": "C06", "title": "Re-discretisation refines without changing the ground model", "statement": "For every valid profile, stratify returns a profile in which every finite sub-layer is at most Vs/225 (1/9 of the wavelength at 25 Hz) thick, every sub-layer carries exactly the Vs, damping, density and material number of the layer it came from, the order of layers is kept, the half space is kept, and the total thickness of the sub-layers of each layer equals the thickness of that layer unless the layer thickness is within the allclose tolerance of a multiple of Vs/225; in that case the total is that multiple rounded up, so a layer of 3.00001 m at 225 m/s becomes 4 m (the total is never smaller than the layer and exceeds it by less than Vs/225).", "quantifier": "every profile", "why_tests_cant": "The input space is infinite (arbitrary lengths and real values); a test fixes one array.", "anchors": ["PySeismoSoil/helper_site_response.py:stratify"]}
{"id": "C07", "title": "Profile format validator is sound and complete", "statement": "check_Vs_profile_format returns normally exactly for the 2-D finite non-negative numeric arrays with 2 or 5 columns whose thicknesses are positive (except the last, which may be zero), whose velocities are positive and, in the 5-column case, whose damping and density are positive and whose material numbers are integers, positive except the last which may be zero; every other input raises.", "quantifier": "every array, including NaN/inf/negative/non-integer entries", "why_tests_cant": "The input space is infinite (arbitrary lengths and real values); a test fixes one array.", "anchors": ["PySeismoSoil/helper_generic.py:check_Vs_profile_format"]}
{"id": "C08", "title": "A constructed Vs profile satisfies its documented invariants", "statement": "Every successfully constructed Vs_Profile has a 5-column table whose last row is a half space of zero thickness when add_halfspace is requested, n_layer equal to the number of finite layers, z_max equal to the sum of thicknesses, depths consistent with thicknesses, and (2-column input) material numbers 1..n_layer with 0 for the half space.", "quantifier": "every accepted input array and option combination", "why_tests_cant": "The input space is infinite (arbitrary lengths and real values); a test fixes one array.", "anchors": ["PySeismoSoil/class_Vs_profile.py:Vs_Profile.__init__"]}
{"id": "C09", "title": "Effect of profile construction on the caller's array", "statement": "Building a Vs_Profile leaves the caller's array unchanged exactly when it has two columns, or it has five columns and both units are already SI ('1' and 'kg/m^3'), or it is read from a file; with five columns and 'percent' or 'g/cm^3' units the caller's array is rewritten in place, so building a second profile from the same array yields damping 100 times smaller / densities 1000 times larger than the first.", "quantifier": "every 5-column array and unit pair, every sequence of constructions", "why_tests_cant": "The input space is infinite (arbitrary lengths and real values); a test fixes one array. The aliasing effect only appears in histories with two constructions.", "anchors": ["PySeismoSoil/class_Vs_profile.py:Vs_Profile.__init__"]}
{"id": "C10", "title": "Truncation of a profile", "statement": "Vs_Profile.truncate(depth, Vs) returns a profile whose finite layers total exactly the requested depth, agree with the original above it, and end in a half space of the given Vs.", "quantifier": "every profile, depth and Vs", "why_tests_cant": "The input space is infinite (arbitrary lengths and real values); a test fixes one array.", "anchors": ["PySeismoSoil/class_Vs_profile.py:Vs_Profile.truncate"]}
{"id": "C11", "title": "Effect of truncation on the receiver", "statement": "Vs_Profile.truncate changes the receiver's table: the row holding the truncation depth is overwritten through a view, so for a depth strictly inside a layer the receiver's table no longer equals its table before the call.", "quantifier": "every profile and depth", "why_tests_cant": "The input space is infinite (arbitrary lengths and real values); a test fixes one array. Requires reasoning about aliasing over call histories.", "anchors": ["PySeismoSoil/class_Vs_profile.py:Vs_Profile.truncate"]}
{"id": "C12", "title": "Estimated damping and density stay in their documented ranges", "statement": "For every Vs array, get_xi_rho returns one damping and one density per layer; for positive Vs the damping of all three formulas is positive, formulas 1 and 3 never give a faster layer more damping or less density, formula 1 and the density rule take the documented step values with the documented side at each threshold, the default formula exceeds 100 % damping exactly below 25/3 m/s, and an unknown formula number is silently accepted and gives zero damping.", "quantifier": "every Vs array, every formula selection", "why_tests_cant": "The input space is infinite (arbitrary lengths and real values); a test fixes one array.", "anchors": ["PySeismoSoil/helper_site_response.py:get_xi_rho"]}
{"id": "C13", "title": "Array validators decide exactly their documented condition", "statement": "check_numbers_valid returns 0 exactly for arrays of finite non-negative numbers and otherwise the code of the first violated condition in the order non-number, non-finite, negative; assert_array_length, extend_scalar and check_length_or_extend_to_array return arrays of exactly the requested length whose elements are the scalar or the given elements.", "quantifier": "every array including NaN and infinities", "why_tests_cant": "The input space is infinite (arbitrary lengths and real values); a test fixes one array.", "anchors": ["PySeismoSoil/helper_generic.py:check_numbers_valid", "PySeismoSoil/helper_generic.py:extend_scalar", "PySeismoSoil/helper_generic.py:check_length_or_extend_to_array"]}
{"id": "C14", "title": "Closest-index search is correct", "statement": "For every non-empty array and value, find_closest_index returns an in-range index and its element, no element of the array is strictly closer to the value, and among equally close elements the first is returned; an empty array gives (None, None).", "quantifier": "every array and value", "why_tests_cant": "The input space is infinite (arbitrary lengths and real values); a test fixes one array.", "anchors": ["PySeismoSoil/helper_generic.py:find_closest_index"]}
{"id": "C15", "title": "Integration and differentiation are linear and mutually inverse", "statement": "For every acceleration history and dt>0, num_int returns velocity and displacement histories of the same length that are linear in the acceleration; sample k of the velocity is dt times the sum of the first k+1 accelerations; for an evenly sampled record num_diff of the integrated velocity returns the original acceleration at every sample but the first, which becomes 0 (so the round trip is not the identity), and integrating a differentiated history returns it shifted by its first sample.", "quantifier": "every record length, sample values, dt", "why_tests_cant": "The input space is infinite (arbitrary lengths and real values); a test fixes one array.", "anchors": ["PySeismoSoil/helper_site_response.py:num_int", "PySeismoSoil/helper_site_response.py:num_diff"]}
{"id": "C16", "title": "Arias intensity is non-negative, monotone and normalised", "statement": "For every record, the cumulative Arias intensity starts at 0, never decreases, and its peak is positive exactly when a sample other than the last is non-zero; then the normalised curve rises from 0 to 1, T5_95 is the time between the first samples reaching 5 % and 95 %, and lies between 0 and the record duration; otherwise the normalised curve is all NaN and T5_95 is the last time. Scaling the record by c scales the intensity by c squared and leaves the normalised curve unchanged.", "quantifier": "every record", "why_tests_cant": "The input space is infinite (arbitrary lengths and real values); a test fixes one array.", "anchors": ["PySeismoSoil/class_ground_motion.py:Ground_Motion.Arias_Intensity", "PySeismoSoil/helper_gof_scores.py:calc_AriasIntensity"]}
{"id": "C17", "title": "Scaling a motion reaches the requested target", "statement": "scale_motion with a target PGA returns a motion whose peak absolute acceleration is the target; with a factor it multiplies every sample (and the integrated velocity and displacement) by the factor, the PGA by its absolute value and the Arias intensity by its square; a target overrides a factor and the receiver is unchanged. For a motion built from velocity data the scaled velocity is the factor times the velocity minus its first sample, so the peak velocity need not scale.", "quantifier": "every motion, factor and positive target", "why_tests_cant": "The input space is infinite (arbitrary lengths and real values); a test fixes one array.", "anchors": ["PySeismoSoil/class_ground_motion.py:Ground_Motion.scale_motion"]}
{"id": "C18", "title": "Truncating a motion keeps exactly the requested window", "statement": "Truncating with limits t1<t2 and extensions e1,e2 keeps exactly the samples k with t1-e1 < (k+1)*dt <= t2+e2, unchanged and in order, on the time axis of the start of the record, and fails when there are fewer than two such samples; with Arias limits the window runs between the first samples that reach the two fractions; for a window ending a step or more before time zero the code does not raise but returns the record with its tail removed.", "quantifier": "every record and every pair of limits", "why_tests_cant": "The input space is infinite (arbitrary lengths and real values); a test fixes one array.", "anchors": ["PySeismoSoil/class_ground_motion.py:Ground_Motion.truncate"]}
{"id": "C19", "title": "Unit conversions round-trip and agree with each other", "statement": "For every pair of supported acceleration units, converting a record from one unit to another and back is the identity, conversion through a third unit equals direct conversion, and all units give the same record in m/s/s.", "quantifier": "every record and unit pair", "why_tests_cant": "The input space is infinite (arbitrary lengths and real values); a test fixes one array.", "anchors": ["PySeismoSoil/class_ground_motion.py:Ground_Motion._unit_convert", "PySeismoSoil/class_ground_motion.py:Ground_Motion.__init__"]}
{"id": "C20", "title": "Effect of saving a motion", "statement": "save_accel leaves the motion object unchanged exactly when the requested unit is m/s/s (or unrecognised); saving in 'g' or 'gal' rewrites the object's acceleration, so a second save, or any later use, sees rescaled data.", "quantifier": "every motion and every sequence of save calls", "why_tests_cant": "The input space is infinite (arbitrary lengths and real values); a test fixes one array. Visible only in histories of several calls on the same object.", "anchors": ["PySeismoSoil/class_ground_motion.py:Ground_Motion.save_accel"]}
{"id": "C21", "title": "Peak picking for the fundamental frequency", "statement": "find_f0 returns a frequency of the given array; it returns the frequency of the first sample not exceeded by its successor, whose amplitude exceeds all earlier ones, except when that sample is the last but one, where (as for an always rising spectrum) it returns the last frequency although its amplitude is smaller; spectra with fewer than two rows raise UnboundLocalError.", "quantifier": "every amplitude spectrum", "why_tests_cant": "The input space is infinite (arbitrary lengths and real values); a test fixes one array.", "anchors": ["PySeismoSoil/helper_site_response.py:find_f0"]}
{"id": "C22", "title": "Response spectra obey the oscillator identities", "statement": "For every record, damping in [0,1) and period list: the call is accepted exactly when the subsampled record has two samples, no time step exceeds the first by 1e-7 s or more and a period is asked for (a record whose steps shrink passes the even-spacing check); the ordinates are the largest sampled displacement, velocity and total acceleration of the exact motion of the oscillator under the polygonal ground acceleration, which exists and whose samples are unique; spectra are non-negative, PSA = omega^2 SD, PSV = omega SD; they scale by |c| with the record, vanish for the zero record, ignore its sign, never decrease when the record is longer; one period's row is what a call for that period alone returns; the pool and the serial loop agree for every completion order; as the period tends to zero SA tends to the largest sample other than the first.", "quantifier": "every record, period list, damping, core count", "why_tests_cant": "The input space is infinite (arbitrary lengths and real values); a test fixes one array. Parallel scheduling too.", "anchors": ["PySeismoSoil/helper_site_response.py:response_spectra", "PySeismoSoil/helper_site_response.py:_time_stepping"]}
{"id": "C23", "title": "Linear transfer functions solve the layered wave equation", "statement": "For every profile linear_tf accepts and every positive frequency: any harmonic motion of the column that satisfies momentum balance in each layer, a traction-free surface and continuity of displacement and traction at each interface has a surface displacement equal to TF_ro times the outcrop motion (twice the upgoing wave), TF_in times the upgoing wave and TF_bh times the motion at the top of the half space, and such a motion exists for every incident wave; no denominator vanishes; TF_in = 2 TF_ro; amplitudes are moduli; TF_bh does not depend on the half space and TF_ro tends to it as the half space becomes rigid; cutting or stratifying layers and changing the density unit change nothing; amplitudes tend to 1, 2, 1 at zero frequency; accepted inputs, errors and the frequency grid are exactly characterised.", "quantifier": "every valid profile (2 or 5 columns, any number of layers), frequency, resolution and maximum frequency, and every wave field", "why_tests_cant": "The input space is infinite (arbitrary lengths and real values); a test fixes one array.", "anchors": ["PySeismoSoil/helper_site_response.py:linear_tf"]}
{"id": "C24", "title": "Every-layer linear simulation solves the layered wave equation", "statement": "For every accepted profile, record and boundary, the accelerations returned for each layer are, harmonic by harmonic, those of a motion of the re-discretised column satisfying the wave equation, a free surface and continuity at each interface, driven by the record; the returned transfer function is that of the analytic routine at the frequency (m+1/15)/(N dt) although it is reported at (m+1)/(N dt), and the two differ; velocities are running sums of accelerations, displacements running sums of velocities less a straight line, strains differences of displacements over the thickness, stress spectra the complex modulus times strain spectra; peak tables hold the peaks; all histories are linear in the record and the transfer function does not depend on it.", "quantifier": "every accepted profile, record (odd or even length), boundary type, layer and harmonic", "why_tests_cant": "The input space is infinite (arbitrary lengths and real values); a test fixes one array.", "anchors": ["PySeismoSoil/helper_simulations.py:_lin_resp_every_layer", "PySeismoSoil/helper_site_response.py:linear_tf"]}
{"id": "C25", "title": "Rigid boundary reproduces the input at depth; bare rock moves as the record", "statement": "With a rigid boundary the acceleration returned for the bottom row is the input record, sample for sample, for every profile; with an elastic boundary and no soil above the half space the returned surface motion is the record (the incident wave is half the outcrop motion).", "quantifier": "every profile and every input spectrum", "why_tests_cant": "The input space is infinite (arbitrary lengths and real values); a test fixes one array.", "anchors": ["PySeismoSoil/helper_simulations.py:_lin_resp_every_layer", "PySeismoSoil/helper_simulations.py:_prepare_inputs"]}
{"id": "C26", "title": "Amplification and de-amplification are inverse in the frequency domain", "statement": "amplify_motion returns exactly the record with the input's times whose discrete spectrum is the input's spectrum times (or, deconvolving, divided by) a conjugate-symmetric double-sided transfer function of the record's length; amplifying and then deconvolving (or vice versa) returns the record exactly when no factor vanishes, and the result is not finite otherwise; the table is completed or the record thinned out as documented; a unit transfer function is the identity, records superpose, and every exception is characterised. Harmonic m is multiplied by the value at (m+1) df, not m df (refuted claim). linear_site_resp uses the surface/outcrop or surface/base function of the layered column, keeps the mean of the record and returns the record itself on bare rock.", "quantifier": "every record length (even and odd), sampling, transfer function table or complex array, taper/extrapolation/deconvolution option, and profile", "why_tests_cant": "The input space is infinite (arbitrary lengths and real values); a test fixes one array.", "anchors": ["PySeismoSoil/helper_site_response.py:amplify_motion", "PySeismoSoil/helper_site_response.py:linear_site_resp"]}
{"id": "C27", "title": "Phase unwrapping preserves the phase modulo 2 pi", "statement": "robust_unwrap returns an array of the same length whose steps are at most pi (or below discont), each entry the same angle as the rewritten input; the rewriting changes exactly the climbs of two or more steps between two falls and any opening climb followed by a fall; a phase that decreases by less than pi per sample is recovered exactly from its wrapped values. The claim that entries differ from the input by whole turns only holds exactly when the rewritten samples agree modulo 2 pi, and is refuted by [0, 1, 0].", "quantifier": "every phase array", "why_tests_cant": "The input space is infinite (arbitrary lengths and real values); a test fixes one array.", "anchors": ["PySeismoSoil/helper_site_response.py:robust_unwrap"]}
{"id": "C28", "title": "Grid search brackets the query", "statement": "For every grid value range and every finite query between the first and last grid value, the grid search returns consecutive grid values bracketing the query; a query equal to the first value gets the first pair; queries outside the grid raise ValueError; a NaN query is not refused but gets an index past the end of the grid.", "quantifier": "every query value", "why_tests_cant": "The input space is infinite (arbitrary lengths and real values); a test fixes one array.", "anchors": ["PySeismoSoil/class_site_factors.py:Site_Factors._search_sorted"]}
{"id": "C29", "title": "Every accepted site-factor query finds its data files", "statement": "For every site the constructor accepts with finite coordinates, in strict or lenient mode, every file name derived from its neighbouring grid points exists in the shipped data set, for amplification and phase, and different grid pairs use different files. A NaN coordinate passes the constructor but no later query ever returns a table. Fourier factors depend only on the Fourier tables of the method asked for and the frequency files, response-spectrum factors only on the response-spectrum tables and period files, phase shifts only on the phase tables.", "quantifier": "every real triple accepted", "why_tests_cant": "The input space is infinite (arbitrary lengths and real values); a test fixes one array. The accepted set is a continuum and the data set has holes.", "anchors": ["PySeismoSoil/class_site_factors.py:Site_Factors.__init__", "PySeismoSoil/class_site_factors.py:Site_Factors._query"]}
{"id": "C30", "title": "Site-factor interpolation stays between its neighbours", "statement": "With a routine that interpolates linearly inside a box of points, each returned value is a convex combination of the eight neighbouring tabulated values: it lies between their minimum and maximum, equals the tabulated value at a grid point, and is exact for factors varying linearly between the neighbours.", "quantifier": "every query and table", "why_tests_cant": "The input space is infinite (arbitrary lengths and real values); a test fixes one array.", "anchors": ["PySeismoSoil/class_site_factors.py:Site_Factors._get_results", "PySeismoSoil/class_site_factors.py:Site_Factors._interpolate"]}
{"id": "C31", "title": "Lenient mode clamps and strict mode rejects", "statement": "Strict construction succeeds exactly for sites within the grid and an allowed combination; lenient construction gives the same result as strict construction on the coordinates clamped to the grid; NaN passes in both modes, infinities and non-numbers have the stated outcomes.", "quantifier": "every real triple and NaN", "why_tests_cant": "The input space is infinite (arbitrary lengths and real values); a test fixes one array.", "anchors": ["PySeismoSoil/class_site_factors.py:Site_Factors.__init__", "PySeismoSoil/class_site_factors.py:Site_Factors._range_check"]}
{"id": "C32", "title": "Fourier transform has the documented shape and symmetry", "statement": "For every real record of at least two samples with a positive time step the single-sided spectrum has ceil(N/2) rows and the double-sided N rows, frequencies strictly increase in steps of 1/(N dt) and start at 1/(N dt), so each row is labelled one bin above the harmonic it measures (the first row is the sum of the samples); the double-sided spectrum is conjugate symmetric, determines the record, preserves energy (Parseval), and the transform is linear.", "quantifier": "every record length and values", "why_tests_cant": "The input space is infinite (arbitrary lengths and real values); a test fixes one array.", "anchors": ["PySeismoSoil/helper_signal_processing.py:fourier_transform"]}
{"id": "C33", "title": "Filters dispatch to the documented response", "statement": "Every filter call either raises for an inconsistent cutoff or argument, returns the very array passed in for cutoffs that pass everything, or filters with a design of normalised cutoffs inside (0,1), of the requested kind, or of the one-sided kind when a band corner is within 0.01 % of the Nyquist frequency or at most one frequency bin; results keep times and length. Each section obeys the second-order difference equation with its coefficients, at rest before the start, one section after the other, and this determines the output.", "quantifier": "every filter kind, cutoff and sampling rate", "why_tests_cant": "The input space is infinite (arbitrary lengths and real values); a test fixes one array.", "anchors": ["PySeismoSoil/helper_signal_processing.py:_filter_kernel", "PySeismoSoil/helper_signal_processing.py:lowpass", "PySeismoSoil/helper_signal_processing.py:highpass", "PySeismoSoil/helper_signal_processing.py:bandpass", "PySeismoSoil/helper_signal_processing.py:bandstop"]}
{"id": "C34", "title": "Tapering and de-trending", "statement": "A Tukey taper of width w in (0,2) multiplies sample k of a 1-D record by the cosine-tapered window of total tapered fraction w/2 at position k/(n-1): no sample grows or changes sign, the ends become 0, the middle is unchanged; a two-column record always raises TypeError. Removing the linear trend (times not all equal) keeps times and length, leaves a residual of zero mean and zero correlation with time, is the least-squares optimum over all lines, annihilates straight lines, is idempotent and linear.", "quantifier": "every record", "why_tests_cant": "The input space is infinite (arbitrary lengths and real values); a test fixes one array.", "anchors": ["PySeismoSoil/helper_signal_processing.py:taper_Tukey", "PySeismoSoil/helper_signal_processing.py:_remove_linear_trend"]}
{"id": "C35", "title": "Smoothing preserves length and averages", "statement": "Linear smoothing keeps the length, is linear, and away from the ends each value is the weighted mean (non-negative weights of the chosen window) of its window, hence between the least and greatest sample in it; near the ends missing samples count as zero, so constants are not kept there. Logarithmic smoothing with fixed ends keeps the length, keeps every value between the least and greatest input value and keeps constants; missing limits, a different n_pts or weights outside [0,1] raise ValueError. Every window is symmetric, starts and ends at its documented edge weight (0, 0.08 for Hamming, 1 for flat), grows strictly towards the middle (except flat) and is 1 in the middle for odd lengths.", "quantifier": "every record and window", "why_tests_cant": "The input space is infinite (arbitrary lengths and real values); a test fixes one array.", "anchors": ["PySeismoSoil/helper_signal_processing.py:lin_smooth", "PySeismoSoil/helper_signal_processing.py:log_smooth"]}
{"id": "C36", "title": "Merging and extracting curves round-trip", "statement": "For all G/Gmax and damping curve matrices of the documented layout, merge_curve_matrices followed by extract_from_curve_format returns the original curves, layer by layer and in order; wrong layouts raise.", "quantifier": "every number of layers and strains", "why_tests_cant": "The input space is infinite (arbitrary lengths and real values); a test fixes one array.", "anchors": ["PySeismoSoil/helper_generic.py:merge_curve_matrices", "PySeismoSoil/helper_generic.py:extract_from_curve_format"]}
{"id": "C37", "title": "Parameter matrices round-trip", "statement": "extract_from_param_format returns one parameter vector per column in order, and re-stacking them gives the matrix back.", "quantifier": "every matrix", "why_tests_cant": "The input space is infinite (arbitrary lengths and real values); a test fixes one array.", "anchors": ["PySeismoSoil/helper_generic.py:extract_from_param_format"]}
{"id": "C38", "title": "Effect of curve construction on the caller's array", "statement": "Without interpolation a curve object uses the caller's own array: on success its strains are multiplied by 100 for unit '1', damping by 100 for unit '1', stress by 1e-3, 1e3 or 1e6 for Pa, MPa, GPa, and nothing else changes; n constructions in unit '1' multiply the strains of the array (and of every curve built from it) by 100^n. Construction succeeds exactly for known units, non-negative cells and (G/Gmax) values in [0,1], (damping) percentages in [0,100] when checking is on. Negative cells or a bad strain unit leave the array untouched; a bad damping or stress unit or an out-of-range value raises ValueError after the array was already rescaled. With interpolation no existing array ever changes.", "quantifier": "every data array, unit and sequence of constructions", "why_tests_cant": "The input space is infinite (arbitrary lengths and real values); a test fixes one array. Only visible over histories.", "anchors": ["PySeismoSoil/class_curves.py:Curve.__init__", "PySeismoSoil/class_curves.py:Damping_Curve.__init__", "PySeismoSoil/class_curves.py:Stress_Curve.__init__"]}
{"id": "C39", "title": "Curve containers behave like typed lists", "statement": "For every sequence of append / set / delete-one / get operations, a multi-layer curve or parameter container holds exactly the elements a plain list would, with the exact error outcomes, its n_layer equals its length, and curve containers never hold an element of the wrong class; deletion by slice breaks the n_layer invariant and is the only way to break it; parameter containers do not check the class of assigned elements.", "quantifier": "every finite sequence of operations", "why_tests_cant": "The input space is infinite (arbitrary lengths and real values); a test fixes one array. Must hold for every history.", "anchors": ["PySeismoSoil/class_curves.py:Multiple_Curves", "PySeismoSoil/class_parameters.py:Param_Multi_Layer"]}
{"id": "C40", "title": "Parameter dictionaries keep exactly their allowed keys", "statement": "For every sequence of item assignments, deletions, updates and unions on an HH or MKZ parameter object the key set stays exactly the allowable keys, with the exact error outcome of each operation; a failing update keeps the assignments made before the failure; the in-place union operator bypasses the check.", "quantifier": "every finite sequence of dictionary operations", "why_tests_cant": "The input space is infinite (arbitrary lengths and real values); a test fixes one array.", "anchors": ["PySeismoSoil/class_parameters.py:Parameter", "PySeismoSoil/class_parameters.py:HH_Param", "PySeismoSoil/class_parameters.py:MKZ_Param"]}
{"id": "C41", "title": "Parameter serialisation round-trips", "statement": "Serialising then deserialising HH parameters returns the same parameters; for MKZ the in-memory round trip is exact while the file round trip restores everything except Gmax, which becomes 1; reading a file-layout array as an in-memory one mixes up the parameters; multi-layer parameter files with at least two layers restore the parameters up to the printed precision, while a one-layer file raises TypeError.", "quantifier": "every parameter value", "why_tests_cant": "The input space is infinite (arbitrary lengths and real values); a test fixes one array.", "anchors": ["PySeismoSoil/helper_hh_model.py:serialize_params_to_array", "PySeismoSoil/helper_hh_model.py:deserialize_array_to_params", "PySeismoSoil/helper_mkz_model.py:serialize_params_to_array", "PySeismoSoil/helper_mkz_model.py:deserialize_array_to_params", "PySeismoSoil/class_parameters.py:Param_Multi_Layer", "PySeismoSoil/class_parameters.py:HH_Param_Multi_Layer", "PySeismoSoil/class_parameters.py:MKZ_Param_Multi_Layer"]}
{"id": "C42", "title": "MKZ stress-strain law", "statement": "For positive parameters (beta may be 0) and every strain, tau_MKZ is finite, odd, zero at zero, bounded in modulus by Gmax*|strain|; its secant modulus ratio is in (0,1], non-increasing in |strain|, equal to 1/(1+beta) at the reference strain and tends to 1 at zero strain. For s <= 1 the stress is strictly increasing in strain; for s > 1 it can decrease.", "quantifier": "every strain and parameter set", "why_tests_cant": "The input space is infinite (arbitrary lengths and real values); a test fixes one array.", "anchors": ["PySeismoSoil/helper_mkz_model.py:tau_MKZ", "PySeismoSoil/helper_site_response.py:calc_GGmax_from_stress_strain"]}
{"id": "C43", "title": "FKZ stress is bounded by the shear strength", "statement": "For positive parameters tau_FKZ is finite, zero at zero, strictly increasing and strictly below Tmax for all non-negative strains, and Tmax is its least upper bound. For negative strain and non-integer exponent d the stress is NaN.", "quantifier": "every strain and parameter set", "why_tests_cant": "The input space is infinite (arbitrary lengths and real values); a test fixes one array.", "anchors": ["PySeismoSoil/helper_hh_model.py:tau_FKZ"]}
{"id": "C44", "title": "HH stress lies between its two branches", "statement": "The transition function raises AssertionError exactly for gamma_t <= 0; otherwise it is 1 at zero strain, even, in [0,1], non-increasing in |strain|, exactly 1 below some positive strain and exactly 0 above some larger strain. For non-negative strain tau_HH is finite and between the MKZ and FKZ stresses, equal to MKZ at small strain and to FKZ at large strain; for negative strain and non-integer d it is NaN.", "quantifier": "every strain and parameter set", "why_tests_cant": "The input space is infinite (arbitrary lengths and real values); a test fixes one array.", "anchors": ["PySeismoSoil/helper_hh_model.py:transition_function", "PySeismoSoil/helper_hh_model.py:tau_HH"]}
{"id": "C45", "title": "Damping from a stress-strain curve", "statement": "The damping computed from a stress-strain curve is the Masing damping of the polygon through the origin and the given points, clipped at 0: it does not depend on Gmax, is zero at the first strain, never negative, zero everywhere for a linear elastic curve, at most 2/pi for a non-decreasing stress, and unclipped when the secant modulus does not increase; both hold for MKZ curves with s <= 1. A strain array starting at zero raises ValueError.", "quantifier": "every strain array and backbone", "why_tests_cant": "The input space is infinite (arbitrary lengths and real values); a test fixes one array.", "anchors": ["PySeismoSoil/helper_site_response.py:calc_damping_from_stress_strain", "PySeismoSoil/helper_site_response.py:calc_damping_from_param"]}
{"id": "C46", "title": "Effect of damping-curve fitting on the caller's data", "statement": "Fitting HH_x or H4_x damping parameters subtracts the first (small-strain) damping from the caller's data in place. A second fit of the same table returns the same parameters when no damping is below the first one and raises ValueError otherwise. Fitted values are positive with the complete key set. Serial and parallel fitting of all layers return the same parameters when the first damping of each table is its smallest (the parallel run leaves the caller's arrays unchanged), and may differ otherwise. A curve built with interpolation from strains in unit '1' is fitted on raw strains that are a hundred times too small.", "quantifier": "every damping table, every sequence of fits", "why_tests_cant": "The input space is infinite (arbitrary lengths and real values); a test fixes one array. Only visible over histories.", "anchors": ["PySeismoSoil/helper_hh_model.py:fit_HH_x_single_layer", "PySeismoSoil/helper_mkz_model.py:fit_H4_x_single_layer", "PySeismoSoil/helper_site_response.py:fit_all_damping_curves", "PySeismoSoil/class_curves.py:Damping_Curve.get_HH_x_param"]}
{"id": "C47", "title": "Calibrated soil quantities stay in physical ranges", "statement": "In the HH calibration the vertical stress at mid-layer is the weight of the layers above plus half the layer, hence positive and strictly increasing with depth (a zero last thickness is rewritten to 1 m in the caller's array); density is at least 1650 and, for mid-depths of at least 8.04 cm, at most 2629, but unbounded for thinner top layers; OCR is positive, at most its limit, decreasing in stress and increasing in Vs; K0 is positive and increasing in OCR; the plasticity index is 10/5/0 by velocity class; the mean stress lies between vertical and horizontal stress; the shear strength is positive and in stiff layers between the Mohr-Coulomb values of the two principal stresses; mu is positive, never reduced and unchanged above 4 %, but the adjustment is not monotone; Gmax = rho Vs^2.", "quantifier": "every profile with positive thickness and velocity", "why_tests_cant": "The input space is infinite (arbitrary lengths and real values); a test fixes one array.", "anchors": ["PySeismoSoil/helper_hh_calibration.py:_calc_vertical_stress", "PySeismoSoil/helper_hh_calibration.py:_calc_rho", "PySeismoSoil/helper_hh_calibration.py:_calc_PI", "PySeismoSoil/helper_hh_calibration.py:_calc_OCR", "PySeismoSoil/helper_hh_calibration.py:_calc_K0", "PySeismoSoil/helper_hh_calibration.py:_calc_mean_confining_stress", "PySeismoSoil/helper_hh_calibration.py:_calc_shear_strength", "PySeismoSoil/helper_hh_calibration.py:_calc_Gmax", "PySeismoSoil/helper_hh_calibration.py:produce_HH_G_param"]}
{"id": "C48", "title": "Darendeli modulus-reduction curves", "statement": "For positive stresses and strains the produced G/Gmax curves are in (0,1), strictly decreasing in strain, exactly 1/2 at the reference strain, equal to the MKZ curve with beta = 1 and s = 0.919, and pointwise higher for more confining stress, plasticity or over-consolidation; damping is positive; omitting the strain array raises TypeError.", "quantifier": "every strain array, profile and PI", "why_tests_cant": "The input space is infinite (arbitrary lengths and real values); a test fixes one array.", "anchors": ["PySeismoSoil/helper_hh_calibration.py:produce_Darendeli_curves"]}
{"id": "C49", "title": "HH optimisation kernel output ranges", "statement": "For every input the calibration returns a = 100, an exponent d in [0.67, 1.39] minimising the area between the branches over the search grid, and a transition strain that is the sample strain where the branches are closest and lies between one of the three lower bounds and 3 %, or the fallback pair (0.001 %, 1.03). The third, 'relaxed', search never accepts an exponent the first two would have refused when the lower bound was 0.001 %.", "quantifier": "every MKZ parameter set and strength", "why_tests_cant": "The input space is infinite (arbitrary lengths and real values); a test fixes one array.", "anchors": ["PySeismoSoil/helper_hh_calibration.py:_optimization_kernel"]}
{"id": "C50", "title": "Goodness-of-fit score function", "statement": "For every pair of numbers, floored at machine epsilon, the score is 0 exactly when they are equal, positive exactly for over-prediction, increasing in the prediction, below 10 and above -10 erf(1); above the floor it depends on the ratio only. Arrays are scored element by element and floored in the caller's memory; an integer measurement raises TypeError; all scores of the first three groups are NaN or within (-10,10); records of different length cannot be scored; without baseline correction the frequency limits do not affect the RMS scores.", "quantifier": "every pair of numbers", "why_tests_cant": "The input space is infinite (arbitrary lengths and real values); a test fixes one array.", "anchors": ["PySeismoSoil/helper_gof_scores.py:S_", "PySeismoSoil/helper_gof_scores.py:d_1234", "PySeismoSoil/helper_gof_scores.py:d_567", "PySeismoSoil/helper_gof_scores.py:d_89"]}
{"id": "C51", "title": "Cross-correlation score", "statement": "For records of equal length and time step with non-zero correlation the d10 score is at least 0.1, with equality exactly for proportional records, and is not bounded above; with different time steps it is scaled by the square root of their ratio and can be below 0.1; a zero record gives NaN, uncorrelated records give infinity, missing limits or different lengths raise TypeError.", "quantifier": "every pair of records", "why_tests_cant": "The input space is infinite (arbitrary lengths and real values); a test fixes one array.", "anchors": ["PySeismoSoil/helper_gof_scores.py:d_10"]}
{"id": "C52", "title": "GOF score slots", "statement": "A call to calc_scores returns exactly the requested groups in order (or the first exception) and overwrites exactly the slots of the groups computed before any exception, with single-precision values; records are never changed. Over every history of calls a slot holds the value of the last call that computed it, NaN if none did. The printed average raises ZeroDivisionError exactly when no slot is scored.", "quantifier": "every history of calls", "why_tests_cant": "The input space is infinite (arbitrary lengths and real values); a test fixes one array.", "anchors": ["PySeismoSoil/class_gof_scores.py:GOF_Scores.calc_scores", "PySeismoSoil/class_gof_scores.py:GOF_Scores.__init__", "PySeismoSoil/class_gof_scores.py:GOF_Scores.__str__"]}
{"id": "C53", "title": "Sediment velocity model: smooth and discretised profiles", "statement": "For every Vs30, z1 above 2.5 m, cap and ramp start in (0,1], construction gives a 2.4 m layer, 0.1 m layers and a half space whose velocities start at the fitted surface velocity, follow the analytical curve up to the ramp, are all positive, end at the cap, never exceed it exactly when the surface velocity does not, and are non-decreasing exactly when the ramp does not start below the surface velocity. Every profile discretised from a non-decreasing capped one, by thickness or by velocity increment, has total depth exactly z1, reads its velocities from the smooth one, is non-decreasing up to the cap, and leaves the model unchanged; all failures of the increment form are classified. Uncapped models cannot be discretised; shallow sites with the default cap get a 1 m/s half space (defect). A finished iteration is within 10 m/s of the target or was stopped by the range 130-1000.", "quantifier": "every (Vs30, z1, cap, eta), discretisation argument, iteration history and heap", "why_tests_cant": "The input space is infinite (arbitrary lengths and real values); a test fixes one array.", "anchors": ["PySeismoSoil/class_svm.py:SVM.__init__", "PySeismoSoil/class_svm.py:SVM.get_discretized_profile", "PySeismoSoil/class_Vs_profile.py:Vs_Profile.truncate"]}
{"id": "C54", "title": "Sediment velocity model: randomised profiles", "statement": "For any outcome of the random generators the layering stops, all layers but the last are at least 2 m, the last is positive, and thicknesses sum exactly to z1; the interlayer correlation lies in [0,1]; each velocity is the closest smooth velocity times the exponential of a correlated normal deviate; a 1000 m/s half space is added exactly when the last velocity is below 1000; the result is accepted as a profile for every seed in the generator's range and rejected for every other. With compliance on, the profile returned is that of the first seed offset meeting the three criteria; the bottom-velocity criterion never looks at the soil when the half space was added (defect).", "quantifier": "every outcome of the random number generator, seed, site class and number of retries", "why_tests_cant": "The input space is infinite (arbitrary lengths and real values); a test fixes one array. Every random schedule.", "anchors": ["PySeismoSoil/class_svm.py:SVM.get_randomized_profile", "PySeismoSoil/class_svm.py:SVM._helper_get_rand_profile", "PySeismoSoil/class_svm.py:SVM._find_index_closest"]}
{"id": "C55", "title": "Equivalent-linear iteration", "statement": "The equivalent-linear simulation is accepted exactly for inputs the linear simulation accepts, with at least one soil layer, at least one iteration, and non-empty curves for every material number; every other case raises the stated exception. A run is a sequence of m passes, 1 <= m <= max_iter: each the linear response of the column with the current moduli, after which every soil layer takes the piecewise-linear point of its curves at R_gamma times its peak strain (damping shifted to start at that of the profile) and the rock is unchanged; a silent run makes max_iter passes whatever the tolerance, a verbose one stops at the first stable pass, so the result can depend on verbosity. With sensible curves every modulus stays in (0, Gmax] and no damping falls below that of the profile. Motions and transfer function belong to the moduli before the last update, stresses and the damping column of the returned profile to those after it. Flat curves, or a record at rest, give the linear result.", "quantifier": "every profile, record, curve matrix, boundary, tolerance, strain ratio and max_iter, verbose or not", "why_tests_cant": "The input space is infinite (arbitrary lengths and real values); a test fixes one array.", "anchors": ["PySeismoSoil/helper_simulations.py:equiv_linear"]}
{"id": "C56", "title": "Acceptance, errors and shapes of the every-layer linear simulation", "statement": "The every-layer linear simulation is accepted exactly for a valid five-column profile ending in a half-space row (with at least one soil layer when the boundary is rigid) and a record of at least two samples; a two-column profile raises IndexError, a missing half-space row ValueError after the computation; for every record length, even lengths being padded by one sample, the returned histories have exactly the input length and times, one column per re-discretised layer (one less for strains and stresses).", "quantifier": "every table, record length and boundary", "why_tests_cant": "The input space is infinite (arbitrary lengths and real values); a test fixes one array.", "anchors": ["PySeismoSoil/helper_simulations.py:_prepare_inputs", "PySeismoSoil/helper_simulations.py:_post_processing"]}
{"id": "C57", "title": "Density unit of re-discretised profiles", "statement": "The re-discretised profile returned by linear and equivalent-linear simulations reports densities 1000 times those of the input profile; the nonlinear simulation reports them unchanged.", "quantifier": "every profile", "why_tests_cant": "The input space is infinite (arbitrary lengths and real values); a test fixes one array.", "anchors": ["PySeismoSoil/class_simulation.py:Linear_Simulation.run", "PySeismoSoil/class_simulation.py:Equiv_Linear_Simulation.run", "PySeismoSoil/class_simulation.py:Nonlinear_Simulation.run"]}
{"id": "C58", "title": "Working directory over every exit of a nonlinear simulation", "statement": "For every point at which a nonlinear simulation can fail: when run returns normally the working directory is the one it had before; otherwise it is the same one, or the simulation directory exactly when the failure lies between the change into and the change back out of that directory. A failing kernel therefore leaves the process in the simulation directory.", "quantifier": "every file-system state, request and failure at any step of the run", "why_tests_cant": "The input space is infinite (arbitrary lengths and real values); a test fixes one array. All crash points.", "anchors": ["PySeismoSoil/class_simulation.py:Nonlinear_Simulation.run"]}
{"id": "C59", "title": "The nonlinear simulation's directory is fresh, and what is left on disk", "statement": "The nonlinear simulation works only in a directory that did not exist; if the requested and the fallback name both exist it raises FileExistsError and changes nothing. No file that existed is removed or replaced; all that is added lies directly in the simulation directory or is one of its parents. On success the directory holds exactly what was asked to be saved and the kernel's files that are not *.dat; when it is to be removed it is gone, but a further file left by the kernel makes the removal raise and the results are lost. Removing it can also remove directories that existed before, even the caller's working directory, when they held nothing else (defect). Of the files the kernel leaves, exactly the visible ones ending in .dat (and the kernel) are removed.", "quantifier": "every file-system state, request and failure at any step of the run", "why_tests_cant": "The input space is infinite (arbitrary lengths and real values); a test fixes one array.", "anchors": ["PySeismoSoil/class_simulation.py:Nonlinear_Simulation.run"]}
{"id": "C60", "title": "Layer/material count check", "statement": "check_layer_count accepts exactly when the profile has a row and every argument given has at least as many sets as the largest material number; otherwise it raises ValueError. After it accepted a set of curves, an equivalent-linear simulation that the linear simulation would accept cannot fail for want of a curve.", "quantifier": "every profile and parameter set", "why_tests_cant": "The input space is infinite (arbitrary lengths and real values); a test fixes one array.", "anchors": ["PySeismoSoil/helper_simulations.py:check_layer_count"]}
{"id": "C61", "title": "Batch simulations keep order, isolation and distinct directories", "statement": "For every batch accepted, of simulations without effects on one another, the i-th result is that of the i-th simulation run with its own directory, in serial and in parallel and for every schedule; with catch_errors a ValueError yields None at its place and nothing else changes; without it the first error is raised. Directory names have equal length, differ, and sort in the order of the simulations. A batch is accepted exactly when it is a non-empty list whose members are instances of the first one's class, which is one of the three or derived from them. A subclass of the nonlinear simulation is accepted, and every run of it raises TypeError. After a caught failure of a nonlinear simulation the following ones run below the failed one's directory when the base directory is relative (defect).", "quantifier": "every batch, class, schedule, number of workers, failure pattern and file-system state", "why_tests_cant": "The input space is infinite (arbitrary lengths and real values); a test fixes one array. All failure patterns and schedules.", "anchors": ["PySeismoSoil/class_batch_simulation.py:Batch_Simulation.run", "PySeismoSoil/class_batch_simulation.py:Batch_Simulation._run_single_sim"]}
{"id": "C62", "title": "Batch run option dictionary", "statement": "A serial batch run leaves in the caller's options dictionary the directory of the last simulation started, and nothing else changed; a parallel run leaves the dictionary unchanged. A parallel run with figures raises AttributeError, losing all results, exactly when a simulation was caught failing.", "quantifier": "every batch and option dictionary", "why_tests_cant": "The input space is infinite (arbitrary lengths and real values); a test fixes one array.", "anchors": ["PySeismoSoil/class_batch_simulation.py:Batch_Simulation.run"]}
{"id": "C63", "title": "Simulation result shape contract", "statement": "A Simulation_Results object is constructed exactly when every supplied history has as many rows as the surface motion has samples and as many columns as the profile has boundaries (or mid-points); maxima are kept only when both are supplied.", "quantifier": "every combination of optional arrays and shapes", "why_tests_cant": "The input space is infinite (arbitrary lengths and real values); a test fixes one array.", "anchors": ["PySeismoSoil/class_simulation_results.py:Simulation_Results.__init__"]}
{"id": "C64", "title": "Damping calibration dispatch", "statement": "Damping_Calibration.get_H4_x_param returns the result of the HH calibration, not of the H4 calibration, for every profile and option: nine-name HH parameters which an MKZ parameter object refuses. Both methods succeed exactly when the damping curves are accepted; the parameters do not depend on the damping column of the profile nor on serial or parallel execution, and no earlier array changes.", "quantifier": "every profile and option", "why_tests_cant": "The input space is infinite (arbitrary lengths and real values); a test fixes one array.", "anchors": ["PySeismoSoil/class_damping_calibration.py:Damping_Calibration.get_H4_x_param"]}
{"id": "C65", "title": "Two-column data loader", "statement": "read_two_column_stuff returns for one-column data with time step delta the time axis delta, 2 delta, ..., n delta; for two-column data the step is the difference of the first two entries; a two-column array with a single row is treated as one column.", "quantifier": "every array", "why_tests_cant": "The input space is infinite (arbitrary lengths and real values); a test fixes one array.", "anchors": ["PySeismoSoil/helper_generic.py:read_two_column_stuff"]}
{"id": "C66", "title": "Staircase arrays used for plotting a profile", "statement": "For every thickness and Vs array of equal length, the plotted staircase has two points per layer, at the top and at the bottom of the layer, both at the layer's Vs; the last point is at the requested plotting depth.", "quantifier": "every profile and plotting depth", "why_tests_cant": "The input space is infinite (arbitrary lengths and real values); a test fixes one array.", "anchors": ["PySeismoSoil/helper_site_response.py:_gen_profile_plot_array"]}
{"id": "C67", "title": "Basin depth estimated from Vs30", "statement": "The z1 estimated from Vs30 is positive, at most 140.511 m for non-negative Vs30, and strictly decreasing in Vs30.", "quantifier": "every Vs30", "why_tests_cant": "The input space is infinite (arbitrary lengths and real values); a test fixes one array.", "anchors": ["PySeismoSoil/helper_site_response.py:calc_z1_from_Vs30"]}
{"id": "C68", "title": "The depth array follows later writes to the caller's array", "statement": "A Vs_Profile built without appending a half space keeps a view of the caller's thickness column: writing a new thickness into the caller's array later changes what get_depth_array returns, while the profile table (and z_max) stay as built; when a half space was appended the object is independent of the caller's array.", "quantifier": "every array, written row and value", "why_tests_cant": "The input space is infinite (arbitrary lengths and real values); a test fixes one array. Only visible over a history of constructions and writes.", "anchors": ["PySeismoSoil/class_Vs_profile.py:Vs_Profile.__init__", "PySeismoSoil/class_Vs_profile.py:Vs_Profile.get_depth_array"]}
{"id": "C69", "title": "Profiles returned by queries answer the same query", "statement": "For strictly increasing non-negative depths, query_Vs_at_depth(as_profile=True) returns a profile whose interfaces are exactly the requested depths (plus the surface) and which returns the same Vs at each requested depth; all other depth arrays raise ValueError. For a scalar thickness the inferred layer count is the least that covers the profile, and the returned profile has that many equal layers, each with the Vs of the original at its mid-point or top.", "quantifier": "every profile, depth array and thickness", "why_tests_cant": "The input space is infinite (arbitrary lengths and real values); a test fixes one array.", "anchors": ["PySeismoSoil/class_Vs_profile.py:Vs_Profile.query_Vs_at_depth", "PySeismoSoil/class_Vs_profile.py:Vs_Profile.query_Vs_given_thk"]}
{"id": "C70", "title": "Profile exports", "statement": "Kilometre output divides exactly the first two columns by 1000; slowness is the reciprocal of velocity with thicknesses kept; to_txt with its default precision always raises TypeError, and accepts exactly five-element lists.", "quantifier": "every profile", "why_tests_cant": "The input space is infinite (arbitrary lengths and real values); a test fixes one array.", "anchors": ["PySeismoSoil/class_Vs_profile.py:Vs_Profile.output_as_km_unit", "PySeismoSoil/class_Vs_profile.py:Vs_Profile.get_slowness", "PySeismoSoil/class_Vs_profile.py:Vs_Profile.to_txt"]}
{"id": "C71", "title": "Constructing a motion", "statement": "The Ground_Motion constructor on a two-column array succeeds exactly when there are at least two rows, the unit and type are known, and g or gal is only used for acceleration; every failure leaves the caller's array untouched; on success the caller's array itself is converted to SI in place and becomes the history of the given type, so building a second motion from the same array converts twice (and changes the first motion too). The PGA/PGV/PGD attributes are attained maxima of absolute values and the RMS acceleration lies between 0 and the PGA.", "quantifier": "every array, unit, motion type and history of constructions", "why_tests_cant": "The input space is infinite (arbitrary lengths and real values); a test fixes one array. The in-place conversion only shows in histories of constructions.", "anchors": ["PySeismoSoil/class_ground_motion.py:Ground_Motion.__init__"]}
{"id": "C72", "title": "Interpolating a curve", "statement": "Resampling a table with strictly increasing abscissae to n >= 2 points between lo < hi (log-spaced when lo > 0, or linearly) returns n points with strictly increasing abscissae from exactly lo to exactly hi, each value being that of the piecewise-linear curve through the samples, held constant outside; values stay within the bounds of the samples, a non-increasing table stays non-increasing, and the samples themselves are reproduced; an empty table raises ValueError.", "quantifier": "every table, range and number of points", "why_tests_cant": "The input space is infinite (arbitrary lengths and real values); a test fixes one array.", "anchors": ["PySeismoSoil/helper_generic.py:interpolate"]}
{"id": "C73", "title": "HH calibration of any profile", "statement": "For every profile with positive thicknesses and velocities (and no density formula dividing by zero), calibration returns exactly one parameter set per row except the last one, half space or not: transition strain between 0.001 % and 3 %, a = 100, d between 0.67 and 1.39, beta = 1, s = 0.919, Gmax = density times Vs squared, all parameters positive, so the HH stress is defined for every non-negative strain. A strength array of the wrong length raises ValueError.", "quantifier": "every profile", "why_tests_cant": "The input space is infinite (arbitrary lengths and real values); a test fixes one array.", "anchors": ["PySeismoSoil/helper_hh_calibration.py:hh_param_from_profile", "PySeismoSoil/helper_hh_calibration.py:produce_HH_G_param"]}
{"id": "C74", "title": "Calibration from curves follows the material numbers", "statement": "When calibrating from given curves, each layer gets the parameters fitted to the curve of its own material number, whatever the order and repetition of material numbers; a material number without a curve is an error.", "quantifier": "every profile, curve matrix, material numbering and fitting routine", "why_tests_cant": "The input space is infinite (arbitrary lengths and real values); a test fixes one array.", "anchors": ["PySeismoSoil/helper_hh_calibration.py:hh_param_from_curves"]}
{"id": "C75", "title": "Mean absolute error", "statement": "The mean absolute error of two equally long non-empty arrays is non-negative, zero exactly when the arrays are equal, symmetric, satisfies the triangle inequality and does not exceed the largest difference; arrays of different lengths (none of length one) raise ValueError.", "quantifier": "every pair of arrays", "why_tests_cant": "The input space is infinite (arbitrary lengths and real values); a test fixes one array.", "anchors": ["PySeismoSoil/helper_generic.py:mean_absolute_error"]}
{"id": "C76", "title": "A record scored against itself", "statement": "For every record, frequency limits and correction routine, the peak-intensity and RMS scores of a record against itself are exactly 0, the four averaged scores are 0 or NaN (the first is 0 as soon as the filtered record carries energy), and the cross-correlation score of a non-zero record is 0.1.", "quantifier": "every record, option and filter", "why_tests_cant": "The input space is infinite (arbitrary lengths and real values); a test fixes one array.", "anchors": ["PySeismoSoil/helper_gof_scores.py:d_1234", "PySeismoSoil/helper_gof_scores.py:d_567", "PySeismoSoil/helper_gof_scores.py:d_89", "PySeismoSoil/helper_gof_scores.py:d_10"]}
{"id": "C77", "title": "A simulation proportional to the measurement", "statement": "When the correction and filter routines are linear, a simulation equal to c times the measurement has shape scores 0, peak-intensity scores 10 erf(c^2-1) and RMS scores 10 erf(|c|-1) (above the numerical floor), whatever the sign of c.", "quantifier": "every record, factor c <> 0 and linear correction", "why_tests_cant": "The input space is infinite (arbitrary lengths and real values); a test fixes one array.", "anchors": ["PySeismoSoil/helper_gof_scores.py:d_1234", "PySeismoSoil/helper_gof_scores.py:d_567"]}
{"id": "C78", "title": "Batch scoring", "statement": "A batch run returns the objects scored one by one, in order, in both modes; serially these are the caller's own objects, in parallel the caller's objects stay unscored; the first exception ends the run, and serially the earlier objects keep their scores.", "quantifier": "every batch, option set and failure position", "why_tests_cant": "The input space is infinite (arbitrary lengths and real values); a test fixes one array. All failure positions.", "anchors": ["PySeismoSoil/class_gof_scores.py:Batch_GOF_Scores.run"]}
{"id": "C79", "title": "Site-factor tables", "statement": "Over complete data files every accepted finite site gets its tables without error: Fourier results have at most 140 rows in the order of the frequency file, response-spectrum results are indexed by the reciprocals of the tabulated periods in reversed (increasing-frequency) order, the combined query returns the same tables as the two single queries with the phase always from the equivalent linear method, and methods outside the documented ones raise ValueError.", "quantifier": "every site, method and data set of the documented shape", "why_tests_cant": "The input space is infinite (arbitrary lengths and real values); a test fixes one array.", "anchors": ["PySeismoSoil/class_site_factors.py:Site_Factors.get_amplification", "PySeismoSoil/class_site_factors.py:Site_Factors.get_phase_shift", "PySeismoSoil/class_site_factors.py:Site_Factors.get_both_amplf_and_phase"]}
{"id": "C80", "title": "Filtering is linear and one-sided", "statement": "For every record and every accepted cutoff, filtering satisfies superposition (the same outcome for all values on the same times), never looks ahead (outputs up to a sample depend only on inputs up to it), keeps a quiet start quiet, and delaying the record delays the output; hence it is not the zero-phase filter the documentation promises.", "quantifier": "every record, filter kind, cutoff, order and filter design", "why_tests_cant": "The input space is infinite (arbitrary lengths and real values); a test fixes one array.", "anchors": ["PySeismoSoil/helper_signal_processing.py:lowpass", "PySeismoSoil/helper_signal_processing.py:highpass", "PySeismoSoil/helper_signal_processing.py:bandpass", "PySeismoSoil/helper_signal_processing.py:bandstop"]}
{"id": "C81", "title": "Baseline correction", "statement": "For every record of at least five samples with a positive step and every non-zero cutoff below the Nyquist frequency, baseline correction returns a record with the same times and length and a zero first sample; shorter records raise IndexError, cutoff 0 raises ZeroDivisionError, cutoffs from the Nyquist frequency on raise ValueError; on evenly spaced records the doubly integrated result starts at zero and its least-squares line has slope zero; the result scales with the record for positive factors; a record with one sign change only (after removing the pre-event mean) is returned as all zeros, and the trimmed record re-enters one sample late.", "quantifier": "every record and cutoff", "why_tests_cant": "The input space is infinite (arbitrary lengths and real values); a test fixes one array.", "anchors": ["PySeismoSoil/helper_signal_processing.py:baseline"]}
{"id": "C82", "title": "Transfer function of two records", "statement": "Given two records the transfer function is computed exactly when steps agree and lengths are equal; each value is the quotient of the two spectra; a record against itself gives 1, gains multiply along a chain, scaling the output scales the values.", "quantifier": "every pair of records", "why_tests_cant": "The input space is infinite (arbitrary lengths and real values); a test fixes one array.", "anchors": ["PySeismoSoil/helper_signal_processing.py:calc_transfer_function"]}
{"id": "C83", "title": "Sine smoothing", "statement": "For an increasing spectrum of at least two rows and a positive span, sine_smooth returns as many non-negative values as given, proportional to the magnitude of the input; away from both ends the squared value is the weighted sum of squares over the window; one bin near the top is zero whatever the input; long spectra with a window of at most two one-sided points raise IndexError.", "quantifier": "every spectrum", "why_tests_cant": "The input space is infinite (arbitrary lengths and real values); a test fixes one array.", "anchors": ["PySeismoSoil/helper_signal_processing.py:sine_smooth"]}
{"id": "C84", "title": "Frequency spectrum attributes", "statement": "A Frequency_Spectrum is constructed exactly from two or more samples (one column, with a non-zero frequency step) or from a two-column array of at least two rows; without interpolation it keeps frequencies k*df (k = 1, 2, ...) or the first column, amplitude and phase are the polar form of every sample with the phase in (-pi, pi], and the frequency bounds are attained; with interpolation the axis is the requested grid and each value is that of the piecewise-linear complex curve, never larger in magnitude than the samples. The documented zero phase of a real spectrum is false (negative samples have phase pi). Every rejection has a stated cause.", "quantifier": "every data array, step and interpolation grid", "why_tests_cant": "The input space is infinite (arbitrary lengths and real values); a test fixes one array.", "anchors": ["PySeismoSoil/class_frequency_spectrum.py:Frequency_Spectrum.__init__", "PySeismoSoil/helper_generic.py:interpolate"]}
{"id": "C85", "title": "Unwrapped phase, peak and smoothing of a frequency spectrum", "statement": "get_unwrapped_phase returns a spectrum whose phase is again wrapped to (-pi, pi] and equals the original phase unless the robust correction acts; amplitudes are kept and the frequency axis is replaced by the multiples of the raw step (kept exactly when it was that already). get_f0 returns a frequency of the axis at which the amplitude is largest. get_smoothed without a figure raises for every spectrum.", "quantifier": "every spectrum and option", "why_tests_cant": "The input space is infinite (arbitrary lengths and real values); a test fixes one array.", "anchors": ["PySeismoSoil/class_frequency_spectrum.py:Frequency_Spectrum.get_unwrapped_phase", "PySeismoSoil/class_frequency_spectrum.py:Frequency_Spectrum.get_f0", "PySeismoSoil/class_frequency_spectrum.py:Frequency_Spectrum.get_smoothed"]}
{"id": "C86", "title": "The run methods return a results object exactly for the inputs the simulation supports", "statement": "Linear_Simulation.run(every_layer=True) and (for curves with moduli in (0, 1] and no negative damping increase) Equiv_Linear_Simulation.run return a Simulation_Results exactly when the underlying simulation accepts the profile, motion, boundary and curves and the motion has at least three samples; the object then carries the motion given, the surface motion, the re-discretised profile, every history and every maximum of that simulation, and the name and directory asked for. With two samples an IndexError is raised. Linear_Simulation.run(every_layer=False) returns an object with the caller's own profile, no histories and no maxima, and drops the requested motion name and output directory, so runs within the same second share a directory.", "quantifier": "every profile, motion, boundary, curve matrix, flag, name and directory", "why_tests_cant": "The input space is infinite (arbitrary lengths and real values); a test fixes one array.", "anchors": ["PySeismoSoil/class_simulation.py:Linear_Simulation.run", "PySeismoSoil/class_simulation.py:Equiv_Linear_Simulation.run", "PySeismoSoil/class_simulation_results.py:Simulation_Results.__init__"]}
{"id": "C87", "title": "Non-linear post-processing returns the kernel's histories, except for a single-layer column", "statement": "When the kernel wrote one column per node of acceleration, velocity and displacement and one column per layer of strain and stress, Nonlinear_Simulation.run returns an object with exactly these histories and the surface motion made of the first acceleration column, provided the re-discretised profile has at least two layers; for a column that stays a single layer (thickness at most Vs/225) it raises TypeError after the kernel has run. The tables of maxima hold, per node, the largest absolute acceleration, velocity and displacement and, per layer, the largest absolute strain and stress.", "quantifier": "every profile, motion and kernel output of matching shape", "why_tests_cant": "The input space is infinite (arbitrary lengths and real values); a test fixes one array.", "anchors": ["PySeismoSoil/class_simulation.py:Nonlinear_Simulation.run", "PySeismoSoil/class_simulation_results.py:Simulation_Results.__init__"]}
{"id": "C88", "title": "Constructors of the simulation classes", "statement": "The simulation classes accept their arguments exactly when the profile and the motion are of the right classes, the boundary is 'elastic' or 'rigid', the two parameter sets are of one class (and given, for the non-linear class), the curves are given (for the equivalent-linear class), and every material number of the profile is at most the number of curve or parameter sets; otherwise TypeError or ValueError is raised as documented.", "quantifier": "every combination of arguments", "why_tests_cant": "The input space is infinite (arbitrary lengths and real values); a test fixes one array.", "anchors": ["PySeismoSoil/class_simulation.py:Simulation.__init__", "PySeismoSoil/class_simulation.py:Equiv_Linear_Simulation.__init__", "PySeismoSoil/class_simulation.py:Nonlinear_Simulation.__init__", "PySeismoSoil/helper_simulations.py:check_layer_count"]}
{"id": "C89", "title": "Damping curves of a profile", "statement": "Damping_Calibration.get_damping_curves returns one curve per soil layer when every damping it computes lies between 0 and 1, and raises ValueError otherwise. Each curve holds the requested strains with the Darendeli damping of the layer in per cent, shifted (unless use_Darendeli_Dmin) to start exactly at the profile's damping; it stays within 44 percentage points of that value. A damping of at most 56 % that is not tiny for the layer's overburden is always accepted. Every array is new and no earlier array changes. A profile without soil layers raises IndexError.", "quantifier": "every profile with positive thicknesses and densities above its last row, and every positive strain array", "why_tests_cant": "The input space is infinite (arbitrary lengths and real values); a test fixes one array.", "anchors": ["PySeismoSoil/class_damping_calibration.py:Damping_Calibration.get_damping_curves"]}
{"id": "C90", "title": "A motion sent through a transfer function or a profile", "statement": "Ground_Motion.amplify_by_tf returns a motion exactly when the spectrum has as many values as frequencies, the record has two samples and a non-zero step and (with extrapolation, multiplying) the spectrum reaches or can be extended to the record's highest frequency; the motion is the object made of the record whose spectrum is the input's multiplied (divided, for deconvolution) by the transfer function, on the same times; every array that existed keeps its values. Deconvolving an amplified motion by the same spectrum, or the same profile and boundary, returns the original acceleration when no factor vanishes; a unit spectrum and bare rock leave the motion as it is; responses superpose. amplify succeeds on every valid profile and only there, and keeps times and mean. Anything that is not a spectrum or a profile raises TypeError, an unknown boundary ValueError, with nothing changed.", "quantifier": "every motion, spectrum, profile, boundary, flag and factor", "why_tests_cant": "The input space is infinite (arbitrary lengths and real values); a test fixes one array.", "anchors": ["PySeismoSoil/class_ground_motion.py:Ground_Motion.amplify_by_tf", "PySeismoSoil/class_ground_motion.py:Ground_Motion.amplify", "PySeismoSoil/class_ground_motion.py:Ground_Motion.deconvolve"]}
{"id": "C91", "title": "Site effect adjustment", "statement": "Site_Effect_Adjustment accepts exactly the two tabulated methods and, in strict mode, sites whose Vs30, z1 and the motion's PGA in g lie in the tables; in lenient mode it takes the factors of the nearest tabulated values while its attributes keep the values given; wrong types raise TypeError before anything else, all else ValueError. Without z1 the regional relation supplies a depth, which is never too deep for the velocity but is below the tables from 948 m/s on, so such sites are refused in strict mode. run multiplies the record's spectrum by the interpolated amplification and turns it by the interpolated phase, keeps the times, always succeeds for sites in complete tables, and returns the motion unchanged when every factor is one and every phase zero.", "quantifier": "every motion, Vs30, z1 (given or not), method and mode; every table content and every interpolation that is exact on linear data", "why_tests_cant": "The input space is infinite (arbitrary lengths and real values); a test fixes one array.", "anchors": ["PySeismoSoil/class_site_effect_adjustment.py:Site_Effect_Adjustment.__init__", "PySeismoSoil/class_site_effect_adjustment.py:Site_Effect_Adjustment.run"]}
{"id": "C92", "title": "Filters, baseline correction and spectra of a motion object", "statement": "lowpass, highpass, bandpass, bandstop and baseline_correct of a Ground_Motion return a new motion on the same times with the documented filter applied, or raise TypeError/ValueError/IndexError/ZeroDivisionError in exactly the stated cases, leaving every array as it was. A lowpass at or above the Nyquist frequency (and a highpass at or below 0) returns a motion that shares the array of the original, so saving it in g rewrites the original motion. Filtering superposes and never looks ahead. get_Fourier_spectrum returns one value per bin, labelled one bin too high, refuses a two-sample motion one-sided, and real and complex spectra have the same amplitudes; response spectra scale with the motion.", "quantifier": "every motion with two samples or more, every cutoff, order, filter design and flag", "why_tests_cant": "The input space is infinite (arbitrary lengths and real values); a test fixes one array.", "anchors": ["PySeismoSoil/class_ground_motion.py:Ground_Motion.lowpass", "PySeismoSoil/class_ground_motion.py:Ground_Motion.highpass", "PySeismoSoil/class_ground_motion.py:Ground_Motion.bandpass", "PySeismoSoil/class_ground_motion.py:Ground_Motion.bandstop", "PySeismoSoil/class_ground_motion.py:Ground_Motion.baseline_correct", "PySeismoSoil/class_ground_motion.py:Ground_Motion.get_Fourier_spectrum", "PySeismoSoil/class_ground_motion.py:Ground_Motion.get_response_spectra"]}
{"id": "C93", "title": "Comparison of two motions", "statement": "Ground_Motion.compare succeeds exactly when the smaller step is below the later end (and 28 steps fit, with smoothing), and raises IndexError, ValueError or TypeError otherwise. Both records are put on the grid of multiples of the smaller step up to the later end; the returned curve is the ratio of the Fourier amplitudes, the smoothed curve lies within its range; exchanging the motions is the same as exchanging the role flag; comparing a motion with c times itself gives |c| at every finite ratio. Records whose times start at zero lose their first sample, and a shorter record is held at its last value.", "quantifier": "every pair of motions, role flag and smoothing option", "why_tests_cant": "The input space is infinite (arbitrary lengths and real values); a test fixes one array.", "anchors": ["PySeismoSoil/class_ground_motion.py:Ground_Motion.compare", "PySeismoSoil/helper_signal_processing.py:compare_two_accel"]}
{"id": "C94", "title": "Spectra and fundamental frequencies of a velocity profile", "statement": "Vs_Profile.get_transfer_function returns the curves for rock outcrop, borehole and incident motion (the last twice the first) at the frequencies asked for, get_ampl_function their moduli; get_f0_RO and get_f0_BH return the first frequency of the 0.05 Hz grid that is not exceeded by the next one, and 30 Hz if there is none. For a uniform layer the borehole fundamental frequency lies within the stated band around Vs/(4H), whatever the rock below; for a profile with no impedance contrast the rock-outcrop method returns 0.05 Hz, the start of the grid. Basin depth and z1 are read off the layers from the bottom of the profile as stated. Wrong arguments raise the stated errors.", "quantifier": "every profile, resolution and upper frequency", "why_tests_cant": "The input space is infinite (arbitrary lengths and real values); a test fixes one array.", "anchors": ["PySeismoSoil/class_Vs_profile.py:Vs_Profile.get_ampl_function", "PySeismoSoil/class_Vs_profile.py:Vs_Profile.get_transfer_function", "PySeismoSoil/class_Vs_profile.py:Vs_Profile.get_f0_RO", "PySeismoSoil/class_Vs_profile.py:Vs_Profile.get_f0_BH", "PySeismoSoil/class_Vs_profile.py:Vs_Profile.get_basin_depth", "PySeismoSoil/class_Vs_profile.py:Vs_Profile.get_z1"]}
{"id": "C95", "title": "Which samples, periods and frequencies enter the goodness-of-fit scores", "statement": "Scores 1 to 7 depend on the two records only through what is left after dropping the first 14 and the last 15 samples, and use all of that; records of 29 samples or fewer are refused. Score 8 is the average of the single scores over the response periods from 1/fmax to 1/fmin, score 9 over the Fourier frequencies from fmin to fmax, both ends included; spectral values outside these bands have no influence.", "quantifier": "every pair of records, every filter and spectrum routine, every frequency band", "why_tests_cant": "The input space is infinite (arbitrary lengths and real values); a test fixes one array.", "anchors": ["PySeismoSoil/helper_gof_scores.py:d_1234", "PySeismoSoil/helper_gof_scores.py:d_567", "PySeismoSoil/helper_gof_scores.py:d_89"]}
{"id": "C96", "title": "Wavelet baseline correction", "statement": "baseline_wavelet returns a record on the same times, at each sample the sum of the detail components of the periodically continued record; with orthogonal filters the components and the trend add up to the record exactly, with nearly orthogonal ones up to a stated multiple of the defect, and energy is preserved; the result has mean zero when the high-pass filter sums to zero, a constant record becomes zero, corrections superpose and commute with rotation. Because the record is continued periodically, the end of a record influences its beginning. With no levels everything is removed. Filters of odd length raise ValueError and an unknown wavelet its own error.", "quantifier": "every record, level and pair of wavelet filters", "why_tests_cant": "The input space is infinite (arbitrary lengths and real values); a test fixes one array.", "anchors": ["PySeismoSoil/helper_gof_scores.py:baseline_wavelet", "PySeismoSoil/helper_gof_scores.py:upArrow_op", "PySeismoSoil/helper_gof_scores.py:period_list", "PySeismoSoil/helper_gof_scores.py:circular_convolve_mra", "PySeismoSoil/helper_gof_scores.py:circular_convolve_d", "PySeismoSoil/helper_gof_scores.py:modwt", "PySeismoSoil/helper_gof_scores.py:modwtmra", "PySeismoSoil/helper_gof_scores.py:getAbsPeak"]}
{"id": "C97", "title": "Curve matrices", "statement": "get_curve_matrix returns as many rows as the longest curve and four columns per layer: the longest curves as they are, the others resampled between their first and last strain with interpolated values, the other property filled. It exists exactly when there is a curve and every shorter curve has samples and no zero strain (ValueError otherwise), so a curve starting at zero strain is usable alone but not beside a longer one. Writing and reading curves of one length returns the curves. Multiple_GGmax_Damping_Curves accepts exactly a pair of the two classes with as many layers or a two-dimensional array with a multiple of four columns; its matrix exists for a pair exactly when the longest lengths agree, its curve objects exist exactly when every cell is admissible, and going from one form to the other and back returns the original.", "quantifier": "every list of curves, array and argument combination", "why_tests_cant": "The input space is infinite (arbitrary lengths and real values); a test fixes one array.", "anchors": ["PySeismoSoil/class_curves.py:Multiple_GGmax_Curves.get_curve_matrix", "PySeismoSoil/class_curves.py:Multiple_Damping_Curves.get_curve_matrix", "PySeismoSoil/class_curves.py:Multiple_GGmax_Damping_Curves.__init__", "PySeismoSoil/class_curves.py:Multiple_GGmax_Damping_Curves.get_curve_matrix", "PySeismoSoil/class_curves.py:Multiple_GGmax_Damping_Curves.get_MGC_MDC_objects"]}
{"id": "C98", "title": "The HH calibration class", "statement": "HH_Calibration accepts exactly a Vs_Profile with nothing or one G/Gmax curve per layer and nothing or one strength per layer (TypeError or ValueError otherwise). fit returns one complete HH parameter set per layer of a profile with half space, with usable values, the given strengths where given, and for curves the modulus reduction fitted to the curve that carries the layer's material number, with strains as ratios and Gmax equal to density times Vs squared; saving writes one row per parameter and one column per layer and does not change the result, and without a directory raises ValueError. For a profile that does not end with a half space the constructor asks for one strength per row but fit then always raises ValueError, and without strengths the deepest layer gets no parameters.", "quantifier": "every profile, list of curves, strengths, file options and curve fitting routine", "why_tests_cant": "The input space is infinite (arbitrary lengths and real values); a test fixes one array.", "anchors": ["PySeismoSoil/class_hh_calibration.py:HH_Calibration.__init__", "PySeismoSoil/class_hh_calibration.py:HH_Calibration.fit"]}
{"id": "C99", "title": "Fitting the MKZ model to modulus curves", "statement": "fit_MKZ returns one row (reference strain, 0, s, beta) per group of four columns, fitted to the strain and G/Gmax columns of that group only, and a matrix of fitted curves of 109 strains from 0.0001 to 10 per cent in constant ratio with as many columns as the input; it fails exactly when a curve fit fails or the argument is not a 2-D array. The fitted curve is the MKZ law of the fitted values: it lies between 0 and 1 and decreases for positive values; a zero reference strain (inside the search box) gives zero modulus everywhere. A row is in the documented single-material text format, but the transposed rows are not what the multi-layer parameter class reads: it takes 0 for s, s for beta and beta for the modulus without complaint.", "quantifier": "every curve matrix and curve fitting routine", "why_tests_cant": "The input space is infinite (arbitrary lengths and real values); a test fixes one array.", "anchors": ["PySeismoSoil/helper_mkz_model.py:fit_MKZ"]}
{"id": "C100", "title": "The objective and the options of the damping fits", "statement": "For every candidate, the error of an HH or H4 damping fit is the mean absolute difference between the measured damping and the damping of the candidate's curve at the fitting strains, it is zero exactly when they agree, and candidates of the wrong size fail. The H4 error does not depend on the modulus and the HH error does not change when Gmax and strength are scaled together, so different candidates tie. scipy is called with one interval per logarithm of a parameter and the mapped options; options of the other algorithm are ignored. If the optimiser stays in its box, each parameter lies between ten to the lower and upper bound, and a best point is a best parameter set. Fitting all layers together returns what each layer's own serial fit returns; a pool of fewer than one process raises ValueError before anything is changed.", "quantifier": "every curve, option set and optimiser", "why_tests_cant": "The input space is infinite (arbitrary lengths and real values); a test fixes one array.", "anchors": ["PySeismoSoil/helper_hh_model.py:fit_HH_x_single_layer", "PySeismoSoil/helper_hh_model.py:_damping_misfit", "PySeismoSoil/helper_mkz_model.py:fit_H4_x_single_layer", "PySeismoSoil/helper_mkz_model.py:damping_misfit", "PySeismoSoil/helper_site_response.py:ga_optimization", "PySeismoSoil/helper_site_response.py:fit_all_damping_curves"]}
{"id": "C101", "title": "Files written by the damping fits", "statement": "get_all_HH_x_params and get_all_H4_x_params of an object read from '.../curve_SITE.ext' save by default to HH_x_SITE.txt/.png (H4_x_...) in the working directory; without 'curve_' in the name the whole stem is used; if 'curve_' is not at the beginning, the first six characters of the stem are dropped, so the name does not show the site. Names collide for equal file names in different directories. An object not read from a file needs explicit names, otherwise ValueError is raised before any fit. A figure is written exactly when it is both shown and saved, a text file exactly when asked for, with one column of parameters per layer; it can be read back as parameters of the same model, up to the printed precision, for two layers or more, and is refused (TypeError) for one layer; with no layers saving raises ValueError.", "quantifier": "every file name, option set, list of curves and optimiser", "why_tests_cant": "The input space is infinite (arbitrary lengths and real values); a test fixes one array.", "anchors": ["PySeismoSoil/class_curves.py:Multiple_Damping_Curves.get_all_HH_x_params", "PySeismoSoil/class_curves.py:Multiple_Damping_Curves.get_all_H4_x_params", "PySeismoSoil/class_curves.py:Multiple_Damping_Curves._produce_output_file_name", "PySeismoSoil/helper_site_response.py:fit_all_damping_curves"]}
{"id": "C102", "title": "The mean thickness of random layers", "statement": "The relation between thickness and middle depth on which the random layers are based has, at every depth, exactly one solution, it is positive and grows strictly with depth, and it is below the two-metre minimum exactly above the depth (16/9)^(50/31) - 1. These are the only zeros of the function handed to the solver, except that at the surface zero thickness is one too; the function is positive below and negative above the solution. The loop that keeps trying until the solver converges repeats the same call: it ends exactly when the first attempt converges, and returns that attempt's value; otherwise it never ends.", "quantifier": "every depth, thickness and equation solver", "why_tests_cant": "The input space is infinite (arbitrary lengths and real values); a test fixes one array.", "anchors": ["PySeismoSoil/class_svm.py:SVM._thk_depth_func", "PySeismoSoil/class_svm.py:SVM.get_randomized_profile"]}
{"id": "C103", "title": "Thicknesses and depths in double precision", "statement": "In IEEE double precision, thk2dep of thicknesses that are not negative gives depths that start at 0, are never NaN and never decrease (even on overflow); depth k is the exact sum of the k layers above up to the relative error of k roundings, and middle depths lie between the tops of their layer and of the next. The total depth (np.sum) has the same accuracy however numpy groups the additions. Thicknesses that are multiples of a power of two, with a total of at most 2^53 of them, give exact depths, an exact total and an exact round trip through dep2thk; depths that at most double from one interface to the next survive the trip through thicknesses exactly. In general a recovered thickness is finite, not negative and off by at most 2^-52 of the depth, not of the thickness: 0.1 m over 0.2 m does not come back, and a thin layer below a thick one can vanish.", "quantifier": "all lists of IEEE doubles, all groupings of the additions", "why_tests_cant": "The input space is infinite (arbitrary lengths and real values); a test fixes one array.", "anchors": ["PySeismoSoil/helper_site_response.py:thk2dep", "PySeismoSoil/helper_site_response.py:dep2thk", "PySeismoSoil/class_Vs_profile.py:Vs_Profile.__init__"]}
{"id": "C104", "title": "Numbers of samples and layers in double precision", "statement": "truncate uses sample int(t/dt): the number of whole steps in t, or one more if t is within rounding of it; exactly k when t is exactly k steps; k or k-1 when t is the (rounded) time of sample k, and k-1 does occur: with steps of 0.01 s, cutting from 0.29 s starts at sample 28. The two sample numbers are ordered and inside the record; a NaN quotient raises ValueError and an infinite one OverflowError. The number of layers int(ceil(z/thk)) is such that the layers reach z up to rounding and one layer fewer would not. Querying a profile of k layers of one thickness with that thickness gives k layers when the sums are exact and k or k+1 in general: three layers of 0.1 m give four.", "quantifier": "all IEEE doubles, all groupings of the additions in the total depth", "why_tests_cant": "The input space is infinite (arbitrary lengths and real values); a test fixes one array.", "anchors": ["PySeismoSoil/class_ground_motion.py:Ground_Motion.truncate", "PySeismoSoil/class_Vs_profile.py:Vs_Profile.query_Vs_given_thk"]}
{"id": "C105", "title": "Peaks, scaling and Arias intensity in double precision", "statement": "The peak acceleration is exact, and NaN if a sample is. The peak of a record scaled by a factor is the peak times the factor rounded once; scaling to a target PGA reaches the target up to 5 * 2^-53 relative error if nothing under- or overflows, but not always exactly (peak 11/1024, target 0.2 g); a value in gal comes back up to 3 * 2^-53, not exactly (0.23). Sample k of the integrated record is dt times the exact sum up to the relative error of k+1 roundings of the sum of absolute values plus half the smallest number. Arias intensity starts at 0 and never decreases; normalised it stays between 0 and 1, never decreases and ends with exactly 1 if the last value is finite and positive; if it is 0 everything is NaN, which also happens for non-zero records whose squares underflow. The stored constant pi is the nearest double to within 2^-52; the factor of the intensity and the intensities themselves are those of the exact formula up to the stated number of roundings; conversion from g multiplies; the peak of an empty record raises.", "quantifier": "all lists of IEEE doubles, factors, targets and time steps", "why_tests_cant": "The input space is infinite (arbitrary lengths and real values); a test fixes one array.", "anchors": ["PySeismoSoil/class_ground_motion.py:Ground_Motion.__init__", "PySeismoSoil/class_ground_motion.py:Ground_Motion.scale_motion", "PySeismoSoil/class_ground_motion.py:Ground_Motion.__calc_Arias", "PySeismoSoil/helper_site_response.py:num_int"]}
{"id": "C106", "title": "Evenly spaced time axes in double precision", "statement": "In IEEE double precision, for ordinary spacings and up to 2^48 samples: the attribute time starts at 0, ends at the rounded product of the spacing and the number of steps, increases strictly, and each entry is within seven units of roundoff of its multiple of the spacing; one-column data with a given spacing is always accepted (the internal check of the spacing cannot fail) and its times start at exactly one spacing, not at 0; with a spacing of m * 2^e (such as 1/64 s) all times are exact. A spacing of zero, infinity or NaN raises AssertionError and fewer than two samples IndexError; a negative spacing is accepted. The common time axis used to compare two records starts at the smaller step, is evenly spaced and just reaches the later end; for two records of one spacing it has as many samples as the longer record or one more, and one more does occur: three samples at 0.01 s compared with themselves give four. Such axes of up to 2^20 s pass the check for even spacing of the response spectra with any subsampling. Arrays with fewer than two times cannot be aligned (ValueError).", "quantifier": "all IEEE double spacings, numbers of samples, pairs of records and subsampling intervals", "why_tests_cant": "The input space is infinite (arbitrary lengths and real values); a test fixes one array.", "anchors": ["PySeismoSoil/class_ground_motion.py:Ground_Motion.__init__", "PySeismoSoil/helper_generic.py:read_two_column_stuff", "PySeismoSoil/helper_site_response.py:_align_two_time_arrays", "PySeismoSoil/helper_site_response.py:response_spectra"]}
{"id": "C107", "title": "Velocities at depths in double precision", "statement": "In IEEE double precision, query_Vs_at_depth answers every array of depths without a negative one, for every nonempty profile, with the velocity of the one layer that holds each depth (its top inside, its bottom outside, in terms of the depths the library computes; the last layer has no bottom), for all thicknesses that are not negative; this is the exact layer unless the depth is within the rounding of the sums of an interface. A depth of NaN is accepted and gives the last velocity. A profile whose layers are not thinner than 20 units of roundoff of the depth of their bottom, queried with its own thickness array, returns its own velocities at the tops and at the middles; so does a profile of up to 2^48 equal layers queried with their thickness and number. A layer thinner than half a unit of roundoff of the depth of its top is never found, not even at its own top (1 m over 2^-55 m).", "quantifier": "all profiles, depths and thickness arrays of IEEE doubles", "why_tests_cant": "The input space is infinite (arbitrary lengths and real values); a test fixes one array.", "anchors": ["PySeismoSoil/helper_site_response.py:query_Vs_at_depth", "PySeismoSoil/helper_site_response.py:query_Vs_given_thk", "PySeismoSoil/helper_site_response.py:thk2dep", "PySeismoSoil/class_Vs_profile.py:Vs_Profile.query_Vs_at_depth"]}
{"id": "C108", "title": "The average velocity of the top Z metres in double precision", "statement": "In IEEE double precision, for every profile and depth without extreme numbers, calc_VsZ with either option is finite and equals the exact travel-time average up to a relative error of 50 n + 100 roundings (n layers) times the ratio of the largest to the smallest velocity times the ratio of profile depth plus Z to the depth that counts; so it lies between the extreme velocities, and is the velocity of a uniform profile, up to that error. It is not exactly the velocity of a uniform profile: three layers of 10 m and 200 m/s have a Vs30 below 200. What lies below Z has no influence at all, not even on the rounding. Options other than 1 and 2 raise UnboundLocalError.", "quantifier": "all profiles and depths of IEEE doubles", "why_tests_cant": "The input space is infinite (arbitrary lengths and real values); a test fixes one array.", "anchors": ["PySeismoSoil/helper_site_response.py:calc_VsZ", "PySeismoSoil/helper_site_response.py:calc_Vs30", "PySeismoSoil/class_Vs_profile.py:Vs_Profile.__init__"]}
{"id": "C109", "title": "Figures and axes", "statement": "Every plotting method draws on the figure and axes it is given and creates what is missing; no axes other than the given ones are ever changed, whether the call succeeds or raises. The returned axes lie in the returned figure except when axes are given without their figure: then a new, empty figure is opened and returned next to the given axes, and methods that draw several curves ignore the given axes.", "quantifier": "every canvas of figures and axes, every combination of given and missing figure and axes, every plotting method and argument", "why_tests_cant": "The input space is infinite (arbitrary lengths and real values); a test fixes one array.", "anchors": ["PySeismoSoil/helper_generic.py:_process_fig_ax_objects", "PySeismoSoil/helper_site_response.py:plot_motion", "PySeismoSoil/helper_site_response.py:plot_Vs_profile", "PySeismoSoil/class_curves.py:Curve.plot", "PySeismoSoil/class_curves.py:Multiple_Curves.plot", "PySeismoSoil/class_Vs_profile.py:Vs_Profile.plot"]}
{"id": "C110", "title": "Plots of ground motions", "statement": "A plot of a motion succeeds exactly when there are two samples, the unit is m or cm, and the first peak is followed by at least round(n/40) samples; it then shows acceleration with the first peak marked, velocity and displacement as running sums, over the range of the times, in three new axes of one figure. A motion whose peak lies in its last fortieth raises IndexError (also from summary), with the acceleration already drawn; the documented unit g always raises ValueError and leaves an empty figure open. A file name is the title unless a nonempty title is given.", "quantifier": "every motion, unit, title, figure and axes", "why_tests_cant": "The input space is infinite (arbitrary lengths and real values); a test fixes one array.", "anchors": ["PySeismoSoil/helper_site_response.py:plot_motion", "PySeismoSoil/class_ground_motion.py:Ground_Motion.plot", "PySeismoSoil/class_ground_motion.py:Ground_Motion.summary"]}
{"id": "C111", "title": "Plots of velocity profiles", "statement": "The drawn line has at every depth of a layer that layer's velocity, at an interface all velocities between the two layers, and no other points; without a maximum depth all of it lies inside the limits of the axes, which reach one first-layer thickness below the profile; a maximum depth of 0 counts as none. The title is the file name; giving a title to a profile read from a file, or to SVM.plot, raises TypeError. Queried points are drawn as given and the depth axis is extended to show them. Comparing an SVM profile with another draws the smooth profile first, with limits that ignore it. An invalid array leaves a new figure open.", "quantifier": "every profile, depth, title, label, figure and axes", "why_tests_cant": "The input space is infinite (arbitrary lengths and real values); a test fixes one array.", "anchors": ["PySeismoSoil/helper_site_response.py:plot_Vs_profile", "PySeismoSoil/helper_site_response.py:_gen_profile_plot_array", "PySeismoSoil/class_Vs_profile.py:Vs_Profile.plot", "PySeismoSoil/class_Vs_profile.py:Vs_Profile._plot_queried_Vs", "PySeismoSoil/class_svm.py:SVM.plot", "PySeismoSoil/class_svm.py:SVM._plot_additional_profile"]}
{"id": "C112", "title": "Plots of curves and spectra", "statement": "One curve is drawn as one line with the keyword arguments given; several curves are all drawn in order on one pair of axes, but keyword arguments are dropped; modulus and damping curves together give two new figures. Raw data given in strains of unit 1 are drawn in per cent if the curve was not interpolated, but as given, under the same axis label, if it was. A spectrum is drawn as its modulus or its real part.", "quantifier": "every curve, list of curves, spectrum, option, figure and axes", "why_tests_cant": "The input space is infinite (arbitrary lengths and real values); a test fixes one array.", "anchors": ["PySeismoSoil/class_curves.py:Curve.plot", "PySeismoSoil/class_curves.py:Multiple_Curves.plot", "PySeismoSoil/class_curves.py:Multiple_Damping_Curves.plot", "PySeismoSoil/class_curves.py:Multiple_GGmax_Curves.plot", "PySeismoSoil/class_curves.py:Multiple_GGmax_Damping_Curves.plot", "PySeismoSoil/class_frequency_spectrum.py:Frequency_Spectrum.plot"]}
{"id": "C113", "title": "Figures of simulation results", "statement": "Two motions whose times agree to 1e-4 s (and 1e-5 of the time) are drawn over the range of the times, the one with the smaller peak last (on equal peaks the input last), followed by the amplification (with its smoothed version and the line 1) and the phase when a transfer function is given, and always by both Fourier spectra; the axes are new, returned in this order and belong to one figure. Motions of different lengths raise ValueError, other times AssertionError, before anything is drawn. The maxima are drawn in a second figure, exactly when both tables are there, in five panels with displacement and velocity in cm, strain in per cent and stress in kPa, all with the greatest depth of the first table at the bottom.", "quantifier": "every pair of motions, transfer function, tables of maxima and existing figures", "why_tests_cant": "The input space is infinite (arbitrary lengths and real values); a test fixes one array.", "anchors": ["PySeismoSoil/helper_site_response.py:_plot_site_amp", "PySeismoSoil/helper_site_response.py:compare_two_accel", "PySeismoSoil/class_simulation_results.py:Simulation_Results.plot"]}
{"id": "C114", "title": "Image files of simulation results", "statement": "With save_fig the directory asked for is created and gets the first image; the image of the maxima goes to the directory of the results even when another directory was asked for, so a call that draws both fails with FileNotFoundError, after the first image was written, exactly when the directory of the results is neither the one asked for nor existing. Nothing else is created. Without save_fig, or when drawing fails, the disk is unchanged.", "quantifier": "every set of results, output directory, set of existing directories and files", "why_tests_cant": "The input space is infinite (arbitrary lengths and real values); a test fixes one array.", "anchors": ["PySeismoSoil/class_simulation_results.py:Simulation_Results.plot"]}
{"id": "C115", "title": "Figures of damping fits", "statement": "fit_all_damping_curves draws per layer the data and the fitted curve at 50 strains from 1e-4 to 10 per cent, raised by the first damping of the data drawn. Serial and parallel runs return the same parameters but draw different figures: the serial run has already subtracted the first damping from the arrays it draws. The figures agree exactly when all tables start with zero damping. No layers raises ValueError.", "quantifier": "every list of damping tables whose first damping is the smallest, every optimiser, stress model and existing figures", "why_tests_cant": "The input space is infinite (arbitrary lengths and real values); a test fixes one array.", "anchors": ["PySeismoSoil/helper_site_response.py:fit_all_damping_curves", "PySeismoSoil/helper_site_response.py:_plot_damping_curve_fit"]}
{"id": "C116", "title": "Linear interpolation in double precision", "statement": "np.interp as the library uses it, in IEEE double precision, for increasing finite abscissae: every data point is reproduced exactly, and so is the first or last ordinate for every query outside the data; a query of NaN gives NaN, except for a single data point, where it gives the ordinate. Between two data points of ordinary size the value is that of the straight line up to 2^-53 times its size plus six times the difference of the two ordinates; it changes monotonically with the query and never lies on the wrong side of the left ordinate, equal ordinates are returned exactly; so no interpolated value of falling data (modulus reduction) exceeds the first and no value of rising data (damping) falls below it. The right ordinate can be passed, however: between (0, 0.3) and (0.2, 0.9) a value is greater than 0.9. interpolate over the range of the data on a linear scale returns the first and the last ordinate exactly. Empty data or data of different lengths, and nothing else, raise ValueError.", "quantifier": "all lists of IEEE doubles with increasing abscissae, all queries, numbers of points up to 2^48", "why_tests_cant": "The input space is infinite (arbitrary lengths and real values); a test fixes one array.", "anchors": ["PySeismoSoil/helper_generic.py:interpolate", "PySeismoSoil/class_curves.py:Curve.__init__", "PySeismoSoil/class_frequency_spectrum.py:Frequency_Spectrum.__init__", "PySeismoSoil/helper_site_response.py:_align_two_time_arrays"]}
{"id": "C117", "title": "Numbers in text files", "statement": "A finite double written with %.pg denotes the nearest number with p significant decimal digits (ties to even), one written with %.pf the nearest number with p decimals; so it is off by at most 5 * 10^-p of its size, or half a unit of the last decimal, and the order of two numbers is never reversed. With up to 15 digits, a double that is the nearest to a number of at most p digits is written as that number and read back exactly, and what was read from a text is written as the same text again: saving, reading and saving changes nothing after the first time.", "quantifier": "all finite IEEE doubles and all numbers of digits", "why_tests_cant": "The input space is infinite (arbitrary lengths and real values); a test fixes one array.", "anchors": ["PySeismoSoil/class_ground_motion.py:Ground_Motion.save_accel", "PySeismoSoil/class_Vs_profile.py:Vs_Profile.to_txt", "PySeismoSoil/class_parameters.py:Param_Multi_Layer.save_txt", "PySeismoSoil/class_simulation_results.py:Simulation_Results.to_txt"]}
{"id": "C118", "title": "Motions saved and read back", "statement": "A motion saved with save_accel (in m/s/s) and read again has as many samples, each time and acceleration off by at most half a unit of the last digit printed (relative error 5 * 10^-5 by default), times in the same order, and the peak that the text of its peak denotes. The time step read is the difference of the first two printed times, off by at most 5 * 10^-5 of the sum of these times: harmless for records that start near zero, but when the first two times agree in the digits printed it is 0, and otherwise at least about one unit of the last digit: a record that starts at 1000 s with a step of 0.01 s is read with a step of 0.", "quantifier": "all motions of finite doubles, all numbers of digits", "why_tests_cant": "The input space is infinite (arbitrary lengths and real values); a test fixes one array.", "anchors": ["PySeismoSoil/class_ground_motion.py:Ground_Motion.save_accel", "PySeismoSoil/class_ground_motion.py:Ground_Motion.__init__", "PySeismoSoil/helper_generic.py:read_two_column_stuff"]}
{"id": "C119", "title": "Texts of objects", "statement": "The text of a Vs_Profile has a heading and one line per layer in order, all of the same width of 69 characters (so the columns are aligned) for thicknesses, velocities, densities and material numbers up to 10^6; it fails exactly when a material number is not finite. A layer thinner than 5 mm is printed with thickness 0.00, like the half space. The text of an SVM gives Vs30 of 100 m/s or more in scientific notation with two digits, off by up to five per cent (350 and 354 m/s give the same text). Each line shows thickness, velocity, damping in per cent, density and material number of its layer, rounded to the decimals shown; the texts of motions and spectra show their numbers likewise.", "quantifier": "all profiles and velocities of doubles", "why_tests_cant": "The input space is infinite (arbitrary lengths and real values); a test fixes one array.", "anchors": ["PySeismoSoil/class_Vs_profile.py:Vs_Profile.__repr__", "PySeismoSoil/class_svm.py:SVM.__repr__"]}
{"id": "C120", "title": "Names made of the time", "statement": "The text of the current time has 19 characters, is different for different seconds and the same within one second, sorts like the times, and, for file names, contains no colon, blank or slash.", "quantifier": "all pairs of moments in the years 0 to 9999", "why_tests_cant": "The input space is infinite (arbitrary lengths and real values); a test fixes one array.", "anchors": ["PySeismoSoil/helper_generic.py:get_current_time"]}
{"id": "C121", "title": "Curves of a set of soil parameters", "statement": "get_stress, get_GGmax and get_damping of MKZ or HH parameters (in any order of the dictionary, for positive strains in percent) return the stress of the law at strain/100, its secant modulus over Gmax (for MKZ 1 / (1 + beta (strain/gamma_ref)^s)), and the Masing damping of these stresses in percent. The ratios and dampings do not depend on the unit of stress (Gmax, for HH with Tmax). For MKZ with s at most 1 and increasing strains the ratios lie in (0, 1] and never increase, the dampings lie in [0, 200/pi] and the first is 0: a damping is not a function of its strain alone. A foreign or missing name gives TypeError, strains starting with 0 ValueError, no strains IndexError, for HH a transition strain that is not positive AssertionError. plot_curves draws both at 50 strains from 1e-4 to 10 percent on two new axes of one new figure, and draws nothing when a curve cannot be computed.", "quantifier": "all dictionaries of parameters, all arrays of strains, all existing figures", "why_tests_cant": "The input space is infinite (arbitrary lengths and real values); a test fixes one array.", "anchors": ["PySeismoSoil/class_parameters.py:Parameter.get_stress", "PySeismoSoil/class_parameters.py:Parameter.get_GGmax", "PySeismoSoil/class_parameters.py:Parameter.get_damping", "PySeismoSoil/class_parameters.py:Parameter.plot_curves"]}
{"id": "C122", "title": "Curves constructed from layers of parameters", "statement": "construct_curves returns, in the order of the layers, the curves of ratios and of dampings at the given strains, exactly when all ratios are in [0, 1] and all dampings in [0, 100] percent, and raises ValueError otherwise; with curve_type only the kind asked for is checked and returned, the other is None. It always succeeds for MKZ layers with s at most 1 and increasing strains. It does not for every accepted set: MKZ with s = 3 gives dampings above 100 percent, HH with all parameters positive gives ratios above 1. The first layer whose curves cannot be computed determines the error. Without layers the error is ValueError, or TypeError when one kind was asked for.", "quantifier": "all lists of layers of MKZ or HH parameters, all arrays of strains", "why_tests_cant": "The input space is infinite (arbitrary lengths and real values); a test fixes one array.", "anchors": ["PySeismoSoil/class_parameters.py:Param_Multi_Layer.construct_curves", "PySeismoSoil/class_curves.py:Multiple_GGmax_Damping_Curves.get_MGC_MDC_objects", "PySeismoSoil/helper_generic.py:extract_from_curve_format"]}
{"id": "C123", "title": "Figures of interpolated site factors", "statement": "Asking for the plots changes neither the tables nor the errors of get_amplification, get_phase_shift and get_both_amplf_and_phase, and without asking none is made. With plots there is one figure per table: eight lines with the tabulated factors of the neighbouring grid points, each labelled with its own Vs30, z1 and PGA (no two grid points have the same label), and last the returned factors, over frequencies or, for response spectra, over the periods whose reciprocals are returned. The last line lies everywhere between the eight others. The two figures of get_both_amplf_and_phase have the same axis labels and the same legend. The accelerations in the labels are exact except that 1.25 g reads 1.2g.", "quantifier": "all sites, methods, data files and interpolators that are linear on boxes", "why_tests_cant": "The input space is infinite (arbitrary lengths and real values); a test fixes one array.", "anchors": ["PySeismoSoil/class_site_factors.py:Site_Factors._plot_interp", "PySeismoSoil/class_site_factors.py:Site_Factors._get_results", "PySeismoSoil/class_site_factors.py:Site_Factors.get_both_amplf_and_phase"]}
{"id": "C124", "title": "Figures and images of HH calibrations", "statement": "Showing or saving figures never changes the parameters that hh_param_from_profile and hh_param_from_curves return, nor their errors; save_fig without show_fig does nothing, whatever the directory. With show_fig there is one new figure of two panels per layer in order (stresses in kPa: the data, FKZ, the strength, HH; below the modulus reductions), after one figure with a panel for every MKZ fit when curves are given, each layer with the curve of its own material. With save_fig there is one image per layer, named after the number of the layer only (a second profile overwrites the images of the first). Without a directory the call raises ValueError, for a missing one FileNotFoundError, in both cases after drawing the first layer, with no image and no parameters. The HH line lies between the MKZ and FKZ lines at every strain but the first, where the data is shown as 0; FKZ stays below the strength; the HH ratios agree with the HH stresses. The FKZ line of the lower panel agrees with that of the upper panel only for d = 1 (or at 100 percent strain).", "quantifier": "all profiles, curves, strengths, fitting procedures, directories and existing figures", "why_tests_cant": "The input space is infinite (arbitrary lengths and real values); a test fixes one array.", "anchors": ["PySeismoSoil/helper_hh_calibration.py:hh_param_from_profile", "PySeismoSoil/helper_hh_calibration.py:hh_param_from_curves", "PySeismoSoil/helper_hh_calibration.py:produce_HH_G_param", "PySeismoSoil/helper_mkz_model.py:fit_MKZ"]}
{"id": "C125", "title": "Figures of truncations and response spectra", "statement": "truncate with show_fig returns the same motion and sample numbers as without, and additionally one new figure with three panels: acceleration, velocity and displacement of the record and of the returned motion; without it nothing is drawn and no figure returned. In the figure the truncated samples lie on the original acceleration (at the times of the window, although the returned motion keeps the first times of the record), and for a motion given as acceleration the truncated velocity is the original one less its value just before the window. When the window has fewer than two samples the call with show_fig raises IndexError, which for one sample differs from the error without it (ValueError), and leaves an unfinished figure. The figure of response spectra shows every sample used, the spectral and pseudo-spectral accelerations returned over their periods, with limits as asked for, and changes neither results nor errors, serially or in parallel.", "quantifier": "all motions, limits and extensions, all spectra and completion orders, all existing figures", "why_tests_cant": "The input space is infinite (arbitrary lengths and real values); a test fixes one array.", "anchors": ["PySeismoSoil/class_ground_motion.py:Ground_Motion.truncate", "PySeismoSoil/class_ground_motion.py:Ground_Motion.get_response_spectra", "PySeismoSoil/helper_site_response.py:response_spectra"]}
{"id": "C126", "title": "Figures of filters and baseline correction", "statement": "Filtering with show_fig gives the same array or error as without, for every filter and cutoff and every signal of three samples or more. A call that fails, or hands the signal back unfiltered, draws nothing; any other opens one figure of four panels: the signal, the result at the same times, and their amplitude spectra. The cutoffs marked are those of the filter really applied: a band filter that falls back to a high-pass or low-pass filter marks one end only. Each mark spans all amplitudes, and the vertical axis ends at the largest amplitude other than the first. For two samples a filter that works fails with show_fig (ValueError), leaving three panels. Baseline correction with show_fig gives the same result and errors; its figure of seven panels shows the corrected acceleration with its own integrals, but above the uncorrected velocity an acceleration from which the mean of the first five samples is already subtracted: the two agree only if that mean is zero.", "quantifier": "all signals, cutoffs, filters, orders and filter designs, all limits matplotlib may choose, all existing figures", "why_tests_cant": "The input space is infinite (arbitrary lengths and real values); a test fixes one array.", "anchors": ["PySeismoSoil/helper_signal_processing.py:_filter_kernel", "PySeismoSoil/helper_signal_processing.py:baseline", "PySeismoSoil/class_ground_motion.py:Ground_Motion.lowpass", "PySeismoSoil/class_ground_motion.py:Ground_Motion.baseline_correct"]}
