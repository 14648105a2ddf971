OV={}
def o(i,**k): OV.setdefault(i,{}).update(k)
o("C42",statement="For positive parameters (beta may be 0) and every strain, tau_MKZ is finite, odd, zero at zero, bounded in modulus by Gmax*|strain|; its secant modulus ratio is in (0,1], non-increasing in |strain|, equal to 1/(1+beta) at the reference strain and tends to 1 at zero strain. For s <= 1 the stress is strictly increasing in strain; for s > 1 it can decrease.")
o("C43",statement="For positive parameters tau_FKZ is finite, zero at zero, strictly increasing and strictly below Tmax for all non-negative strains, and Tmax is its least upper bound. For negative strain and non-integer exponent d the stress is NaN.")
o("C44",statement="The transition function raises AssertionError exactly for gamma_t <= 0; otherwise it is 1 at zero strain, even, in [0,1], non-increasing in |strain|, exactly 1 below some positive strain and exactly 0 above some larger strain. For non-negative strain tau_HH is finite and between the MKZ and FKZ stresses, equal to MKZ at small strain and to FKZ at large strain; for negative strain and non-integer d it is NaN.")
o("C45",statement="The damping computed from a stress-strain curve is the Masing damping of the polygon through the origin and the given points, clipped at 0: it does not depend on Gmax, is zero at the first strain, never negative, zero everywhere for a linear elastic curve, at most 2/pi for a non-decreasing stress, and unclipped when the secant modulus does not increase; both hold for MKZ curves with s <= 1. A strain array starting at zero raises ValueError.")
o("C38",statement="Without interpolation a curve object uses the caller's own array: on success its strains are multiplied by 100 for unit '1', damping by 100 for unit '1', stress by 1e-3, 1e3 or 1e6 for Pa, MPa, GPa, and nothing else changes; n constructions in unit '1' multiply the strains of the array (and of every curve built from it) by 100^n. Construction succeeds exactly for known units, non-negative cells and (G/Gmax) values in [0,1], (damping) percentages in [0,100] when checking is on. Negative cells or a bad strain unit leave the array untouched; a bad damping or stress unit or an out-of-range value raises ValueError after the array was already rescaled. With interpolation no existing array ever changes.")
o("C39",statement="For every sequence of append / set / delete-one / get operations, a multi-layer curve or parameter container holds exactly the elements a plain list would, with the exact error outcomes, its n_layer equals its length, and curve containers never hold an element of the wrong class; deletion by slice breaks the n_layer invariant and is the only way to break it; parameter containers do not check the class of assigned elements.")
o("C40",statement="For every sequence of item assignments, deletions, updates and unions on an HH or MKZ parameter object the key set stays exactly the allowable keys, with the exact error outcome of each operation; a failing update keeps the assignments made before the failure; the in-place union operator bypasses the check.")
o("C41",statement="Serialising then deserialising HH parameters returns the same parameters; for MKZ the in-memory round trip is exact while the file round trip restores everything except Gmax, which becomes 1; reading a file-layout array as an in-memory one mixes up the parameters; multi-layer parameter files with at least two layers restore the parameters up to the printed precision, while a one-layer file raises TypeError.",anchors=["PySeismoSoil/helper_hh_model.py:serialize_params_to_array","PySeismoSoil/helper_hh_model.py:deserialize_array_to_params","PySeismoSoil/helper_mkz_model.py:serialize_params_to_array","PySeismoSoil/helper_mkz_model.py:deserialize_array_to_params","PySeismoSoil/class_parameters.py:Param_Multi_Layer","PySeismoSoil/class_parameters.py:HH_Param_Multi_Layer","PySeismoSoil/class_parameters.py:MKZ_Param_Multi_Layer"])
o("C46",statement="Fitting HH_x or H4_x damping parameters subtracts the first (small-strain) damping from the caller's data in place. A second fit of the same table returns the same parameters when no damping is below the first one and raises ValueError otherwise. Fitted values are positive with the complete key set. Serial and parallel fitting of all layers return the same parameters when the first damping of each table is its smallest (the parallel run leaves the caller's arrays unchanged), and may differ otherwise. A curve built with interpolation from strains in unit '1' is fitted on raw strains that are a hundred times too small.",anchors=["PySeismoSoil/helper_hh_model.py:fit_HH_x_single_layer","PySeismoSoil/helper_mkz_model.py:fit_H4_x_single_layer","PySeismoSoil/helper_site_response.py:fit_all_damping_curves","PySeismoSoil/class_curves.py:Damping_Curve.get_HH_x_param"])
o("C47",statement="In the HH calibration the vertical stress at mid-layer is the weight of the layers above plus half the layer, hence positive and strictly increasing with depth (a zero last thickness is rewritten to 1 m in the caller's array); density is at least 1650 and, for mid-depths of at least 8.04 cm, at most 2629, but unbounded for thinner top layers; OCR is positive, at most its limit, decreasing in stress and increasing in Vs; K0 is positive and increasing in OCR; the plasticity index is 10/5/0 by velocity class; the mean stress lies between vertical and horizontal stress; the shear strength is positive and in stiff layers between the Mohr-Coulomb values of the two principal stresses; mu is positive, never reduced and unchanged above 4 %, but the adjustment is not monotone; Gmax = rho Vs^2.",anchors=["PySeismoSoil/helper_hh_calibration.py:"+x for x in ["_calc_vertical_stress","_calc_rho","_calc_PI","_calc_OCR","_calc_K0","_calc_mean_confining_stress","_calc_shear_strength","_calc_Gmax","produce_HH_G_param"]])
o("C48",statement="For positive stresses and strains the produced G/Gmax curves are in (0,1), strictly decreasing in strain, exactly 1/2 at the reference strain, equal to the MKZ curve with beta = 1 and s = 0.919, and pointwise higher for more confining stress, plasticity or over-consolidation; damping is positive; omitting the strain array raises TypeError.")
o("C49",statement="For every input the calibration returns a = 100, an exponent d in [0.67, 1.39] minimising the area between the branches over the search grid, and a transition strain that is the sample strain where the branches are closest and lies between one of the three lower bounds and 3 %, or the fallback pair (0.001 %, 1.03). The third, 'relaxed', search never accepts an exponent the first two would have refused when the lower bound was 0.001 %.")

o("C50",statement="For every pair of numbers, floored at machine epsilon, the score is 0 exactly when they are equal, positive exactly for over-prediction, increasing in the prediction, below 10 and above -10 erf(1); above the floor it depends on the ratio only. Arrays are scored element by element and floored in the caller's memory; an integer measurement raises TypeError; all scores of the first three groups are NaN or within (-10,10); records of different length cannot be scored; without baseline correction the frequency limits do not affect the RMS scores.",anchors=["PySeismoSoil/helper_gof_scores.py:"+x for x in ["S_","d_1234","d_567","d_89"]])
o("C51",statement="For records of equal length and time step with non-zero correlation the d10 score is at least 0.1, with equality exactly for proportional records, and is not bounded above; with different time steps it is scaled by the square root of their ratio and can be below 0.1; a zero record gives NaN, uncorrelated records give infinity, missing limits or different lengths raise TypeError.")
o("C52",statement="A call to calc_scores returns exactly the requested groups in order (or the first exception) and overwrites exactly the slots of the groups computed before any exception, with single-precision values; records are never changed. Over every history of calls a slot holds the value of the last call that computed it, NaN if none did. The printed average raises ZeroDivisionError exactly when no slot is scored.",anchors=["PySeismoSoil/class_gof_scores.py:GOF_Scores.calc_scores","PySeismoSoil/class_gof_scores.py:GOF_Scores.__init__","PySeismoSoil/class_gof_scores.py:GOF_Scores.__str__"])

o("C28",statement="For every grid value range and every finite query between the first and last grid value, the grid search returns consecutive grid values bracketing the query; a query equal to the first value gets the first pair; queries outside the grid raise ValueError; a NaN query is not refused but gets an index past the end of the grid.")
o("C29",statement="For every site the constructor accepts with finite coordinates, in strict or lenient mode, every file name derived from its neighbouring grid points exists in the shipped data set, for amplification and phase, and different grid pairs use different files. A NaN coordinate passes the constructor but no later query ever returns a table.")
o("C30",statement="With a routine that interpolates linearly inside a box of points, each returned value is a convex combination of the eight neighbouring tabulated values: it lies between their minimum and maximum, equals the tabulated value at a grid point, and is exact for factors varying linearly between the neighbours.")
o("C31",statement="Strict construction succeeds exactly for sites within the grid and an allowed combination; lenient construction gives the same result as strict construction on the coordinates clamped to the grid; NaN passes in both modes, infinities and non-numbers have the stated outcomes.")

o("C32",statement="For every real record of at least two samples with a positive time step the single-sided spectrum has ceil(N/2) rows and the double-sided N rows, frequencies strictly increase in steps of 1/(N dt) and start at 1/(N dt), so each row is labelled one bin above the harmonic it measures (the first row is the sum of the samples); the double-sided spectrum is conjugate symmetric, determines the record, preserves energy (Parseval), and the transform is linear.")
o("C33",statement="Every filter call either raises for an inconsistent cutoff or argument, returns the very array passed in for cutoffs that pass everything, or filters with a design of normalised cutoffs inside (0,1), of the requested kind, or of the one-sided kind when a band corner is within 0.01 % of the Nyquist frequency or at most one frequency bin; results keep times and length.")
o("C34",statement="A Tukey taper of width w in (0,2) multiplies sample k of a 1-D record by the cosine-tapered window of total tapered fraction w/2 at position k/(n-1): no sample grows or changes sign, the ends become 0, the middle is unchanged; a two-column record always raises TypeError. Removing the linear trend (times not all equal) keeps times and length, leaves a residual of zero mean and zero correlation with time, is the least-squares optimum over all lines, annihilates straight lines, is idempotent and linear.")
o("C35",statement="Linear smoothing keeps the length, is linear, and away from the ends each value is the weighted mean (non-negative weights of the chosen window) of its window, hence between the least and greatest sample in it; near the ends missing samples count as zero, so constants are not kept there. Logarithmic smoothing with fixed ends keeps the length, keeps every value between the least and greatest input value and keeps constants; missing limits, a different n_pts or weights outside [0,1] raise ValueError.",anchors=["PySeismoSoil/helper_signal_processing.py:lin_smooth","PySeismoSoil/helper_signal_processing.py:log_smooth"])
o("C81",statement="For every record of at least five samples with a positive step and every non-zero cutoff below the Nyquist frequency, baseline correction returns a record with the same times and length and a zero first sample; shorter records raise IndexError, cutoff 0 raises ZeroDivisionError, cutoffs from the Nyquist frequency on raise ValueError; on evenly spaced records the doubly integrated result starts at zero and its least-squares line has slope zero; the result scales with the record for positive factors; a record with one sign change only (after removing the pre-event mean) is returned as all zeros, and the trimmed record re-enters one sample late.")
o("C83",statement="For an increasing spectrum of at least two rows and a positive span, sine_smooth returns as many non-negative values as given, proportional to the magnitude of the input; away from both ends the squared value is the weighted sum of squares over the window; one bin near the top is zero whatever the input; long spectra with a window of at most two one-sided points raise IndexError.")
o("C22", statement="For every record, damping in [0,1) and period list: the call is accepted exactly when the subsampled record has two samples, no time step exceeds the first by 1e-7 s or more and a period is asked for (a record whose steps shrink passes the even-spacing check); the ordinates are the largest sampled displacement, velocity and total acceleration of the exact motion of the oscillator under the polygonal ground acceleration, which exists and whose samples are unique; spectra are non-negative, PSA = omega^2 SD, PSV = omega SD; they scale by |c| with the record, vanish for the zero record, ignore its sign, never decrease when the record is longer; one period's row is what a call for that period alone returns; the pool and the serial loop agree for every completion order; as the period tends to zero SA tends to the largest sample other than the first.")
o("C23", title="Linear transfer functions solve the layered wave equation", statement="For every profile linear_tf accepts and every positive frequency: any harmonic motion of the column that satisfies momentum balance in each layer, a traction-free surface and continuity of displacement and traction at each interface has a surface displacement equal to TF_ro times the outcrop motion (twice the upgoing wave), TF_in times the upgoing wave and TF_bh times the motion at the top of the half space, and such a motion exists for every incident wave; no denominator vanishes; TF_in = 2 TF_ro; amplitudes are moduli; TF_bh does not depend on the half space and TF_ro tends to it as the half space becomes rigid; cutting or stratifying layers and changing the density unit change nothing; amplitudes tend to 1, 2, 1 at zero frequency; accepted inputs, errors and the frequency grid are exactly characterised.", quantifier="every valid profile (2 or 5 columns, any number of layers), frequency, resolution and maximum frequency, and every wave field", anchors=["PySeismoSoil/helper_site_response.py:linear_tf"])
o("C24", title="Every-layer linear simulation solves the layered wave equation", statement="For every accepted profile, record and boundary, the accelerations returned for each layer are, harmonic by harmonic, those of a motion of the re-discretised column satisfying the wave equation, a free surface and continuity at each interface, driven by the record; the returned transfer function is that of the analytic routine at the frequency (m+1/15)/(N dt) although it is reported at (m+1)/(N dt), and the two differ; velocities are running sums of accelerations, displacements running sums of velocities less a straight line, strains differences of displacements over the thickness, stress spectra the complex modulus times strain spectra; peak tables hold the peaks; all histories are linear in the record and the transfer function does not depend on it.", quantifier="every accepted profile, record (odd or even length), boundary type, layer and harmonic")
o("C25", title="Rigid boundary reproduces the input at depth; bare rock moves as the record", statement="With a rigid boundary the acceleration returned for the bottom row is the input record, sample for sample, for every profile; with an elastic boundary and no soil above the half space the returned surface motion is the record (the incident wave is half the outcrop motion).")
o("C56", title="Acceptance, errors and shapes of the every-layer linear simulation", statement="The every-layer linear simulation is accepted exactly for a valid five-column profile ending in a half-space row (with at least one soil layer when the boundary is rigid) and a record of at least two samples; a two-column profile raises IndexError, a missing half-space row ValueError after the computation; for every record length, even lengths being padded by one sample, the returned histories have exactly the input length and times, one column per re-discretised layer (one less for strains and stresses).", quantifier="every table, record length and boundary")
o("C55", statement="The equivalent-linear simulation is accepted exactly for inputs the linear simulation accepts, with at least one soil layer, at least one iteration, and non-empty curves for every material number; every other case raises the stated exception. A run is a sequence of m passes, 1 <= m <= max_iter: each the linear response of the column with the current moduli, after which every soil layer takes the piecewise-linear point of its curves at R_gamma times its peak strain (damping shifted to start at that of the profile) and the rock is unchanged; a silent run makes max_iter passes whatever the tolerance, a verbose one stops at the first stable pass, so the result can depend on verbosity. With sensible curves every modulus stays in (0, Gmax] and no damping falls below that of the profile. Motions and transfer function belong to the moduli before the last update, stresses and the damping column of the returned profile to those after it. Flat curves, or a record at rest, give the linear result.", quantifier="every profile, record, curve matrix, boundary, tolerance, strain ratio and max_iter, verbose or not", anchors=["PySeismoSoil/helper_simulations.py:equiv_linear"])
o("C60", statement="check_layer_count accepts exactly when the profile has a row and every argument given has at least as many sets as the largest material number; otherwise it raises ValueError. After it accepted a set of curves, an equivalent-linear simulation that the linear simulation would accept cannot fail for want of a curve.", anchors=["PySeismoSoil/helper_simulations.py:check_layer_count"])
o("C26", statement="amplify_motion returns exactly the record with the input's times whose discrete spectrum is the input's spectrum times (or, deconvolving, divided by) a conjugate-symmetric double-sided transfer function of the record's length; amplifying and then deconvolving (or vice versa) returns the record exactly when no factor vanishes, and the result is not finite otherwise; the table is completed or the record thinned out as documented; a unit transfer function is the identity, records superpose, and every exception is characterised. Harmonic m is multiplied by the value at (m+1) df, not m df (refuted claim). linear_site_resp uses the surface/outcrop or surface/base function of the layered column, keeps the mean of the record and returns the record itself on bare rock.",
  quantifier="every record length (even and odd), sampling, transfer function table or complex array, taper/extrapolation/deconvolution option, and profile")
o("C27", statement="robust_unwrap returns an array of the same length whose steps are at most pi (or below discont), each entry the same angle as the rewritten input; the rewriting changes exactly the climbs of two or more steps between two falls and any opening climb followed by a fall; a phase that decreases by less than pi per sample is recovered exactly from its wrapped values. The claim that entries differ from the input by whole turns only holds exactly when the rewritten samples agree modulo 2 pi, and is refuted by [0, 1, 0].")
o("C53", title="Sediment velocity model: smooth and discretised profiles",
  statement="For every Vs30, z1 above 2.5 m, cap and ramp start in (0,1], construction gives a 2.4 m layer, 0.1 m layers and a half space whose velocities start at the fitted surface velocity, follow the analytical curve up to the ramp, are all positive, end at the cap, never exceed it exactly when the surface velocity does not, and are non-decreasing exactly when the ramp does not start below the surface velocity. Every profile discretised from a non-decreasing capped one, by thickness or by velocity increment, has total depth exactly z1, reads its velocities from the smooth one, is non-decreasing up to the cap, and leaves the model unchanged; all failures of the increment form are classified. Uncapped models cannot be discretised; shallow sites with the default cap get a 1 m/s half space (defect). A finished iteration is within 10 m/s of the target or was stopped by the range 130-1000.",
  quantifier="every (Vs30, z1, cap, eta), discretisation argument, iteration history and heap",
  anchors=["PySeismoSoil/class_svm.py:SVM.__init__","PySeismoSoil/class_svm.py:SVM.get_discretized_profile","PySeismoSoil/class_Vs_profile.py:Vs_Profile.truncate"])
o("C54", title="Sediment velocity model: randomised profiles",
  statement="For any outcome of the random generators the layering stops, all layers but the last are at least 2 m, the last is positive, and thicknesses sum exactly to z1; the interlayer correlation lies in [0,1]; each velocity is the closest smooth velocity times the exponential of a correlated normal deviate; a 1000 m/s half space is added exactly when the last velocity is below 1000; the result is accepted as a profile for every seed in the generator's range and rejected for every other. With compliance on, the profile returned is that of the first seed offset meeting the three criteria; the bottom-velocity criterion never looks at the soil when the half space was added (defect).",
  quantifier="every outcome of the random number generator, seed, site class and number of retries",
  anchors=["PySeismoSoil/class_svm.py:SVM.get_randomized_profile","PySeismoSoil/class_svm.py:SVM._helper_get_rand_profile","PySeismoSoil/class_svm.py:SVM._find_index_closest"])
o("C58", statement="For every point at which a nonlinear simulation can fail: when run returns normally the working directory is the one it had before; otherwise it is the same one, or the simulation directory exactly when the failure lies between the change into and the change back out of that directory. A failing kernel therefore leaves the process in the simulation directory.",
  quantifier="every file-system state, request and failure at any step of the run")
o("C59", title="The nonlinear simulation's directory is fresh, and what is left on disk",
  statement="The nonlinear simulation works only in a directory that did not exist; if the requested and the fallback name both exist it raises FileExistsError and changes nothing. No file that existed is removed or replaced; all that is added lies directly in the simulation directory or is one of its parents. On success the directory holds exactly what was asked to be saved and the kernel's files that are not *.dat; when it is to be removed it is gone, but a further file left by the kernel makes the removal raise and the results are lost. Removing it can also remove directories that existed before, even the caller's working directory, when they held nothing else (defect).",
  quantifier="every file-system state, request and failure at any step of the run")
o("C61", statement="For every batch accepted, of simulations without effects on one another, the i-th result is that of the i-th simulation run with its own directory, in serial and in parallel and for every schedule; with catch_errors a ValueError yields None at its place and nothing else changes; without it the first error is raised. Directory names have equal length, differ, and sort in the order of the simulations. A batch is accepted exactly when it is a non-empty list whose members are instances of the first one's class, which is one of the three or derived from them. A subclass of the nonlinear simulation is accepted, and every run of it raises TypeError. After a caught failure of a nonlinear simulation the following ones run below the failed one's directory when the base directory is relative (defect).",
  quantifier="every batch, class, schedule, number of workers, failure pattern and file-system state")
o("C62", statement="A serial batch run leaves in the caller's options dictionary the directory of the last simulation started, and nothing else changed; a parallel run leaves the dictionary unchanged. A parallel run with figures raises AttributeError, losing all results, exactly when a simulation was caught failing.")

o("C64", statement="Damping_Calibration.get_H4_x_param returns the result of the HH calibration, not of the H4 calibration, for every profile and option: nine-name HH parameters which an MKZ parameter object refuses. Both methods succeed exactly when the damping curves are accepted; the parameters do not depend on the damping column of the profile nor on serial or parallel execution, and no earlier array changes.")

MORE = {
 "C119": "Each line shows thickness, velocity, damping in per cent, density and material number of its layer, rounded to the decimals shown; the texts of motions and spectra show their numbers likewise.",
 "C105": "The stored constant pi is the nearest double to within 2^-52; the factor of the intensity and the intensities themselves are those of the exact formula up to the stated number of roundings; conversion from g multiplies; the peak of an empty record raises.",
 "C106": "Arrays with fewer than two times cannot be aligned (ValueError).",
 "C35": "Every window is symmetric, starts and ends at its documented edge weight (0, 0.08 for Hamming, 1 for flat), grows strictly towards the middle (except flat) and is 1 in the middle for odd lengths.",
 "C33": "Each section obeys the second-order difference equation with its coefficients, at rest before the start, one section after the other, and this determines the output.",
 "C29": "Fourier factors depend only on the Fourier tables of the method asked for and the frequency files, response-spectrum factors only on the response-spectrum tables and period files, phase shifts only on the phase tables.",
 "C59": "Of the files the kernel leaves, exactly the visible ones ending in .dat (and the kernel) are removed.",
 "C87": "The tables of maxima hold, per node, the largest absolute acceleration, velocity and displacement and, per layer, the largest absolute strain and stress.",
}
