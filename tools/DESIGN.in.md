# Formal model of PySeismoSoil in Rocq (Coq 8.16.1)

Contents: 1 approach, 2 layout, 3 properties and where they are proved, 4 what is
modelled, simplified and left out, 5 trusted base, 6 findings, 7 how the theorems were
tested. Generated companions: `COVERAGE.md` (every function of `/repo/PySeismoSoil` and
the model files that cite it) and `AXIOMS.md` (what `Print Assumptions` lists for each
theorem).

## 1. Approach

* The Python source in `/repo` is read as text. Each modelled function is a total,
  computable-where-possible Gallina function that follows the Python branch by branch.
  The comment above each definition cites file and lines and states simplifications.
* Exceptions are values: `res A := Ok a | Err e`, with one constructor per Python
  exception class the code raises or provokes. Error branches are part of the model and
  most acceptance theorems are equivalences ("succeeds exactly when").
* Numbers. Arithmetic is over Coq's real numbers: an idealisation without rounding,
  overflow or signed zero. Where NaN and infinities decide the outcome (validators, site
  factor queries, scores, stresses at negative strains, fits) values are
  `num := Fin r | NaN | PInf | NInf`. Single precision storage of the scores is an
  uninterpreted rounding function.
* Rounding. For the functions whose outcome hinges on it (depths and thicknesses, sample
  and layer counts, peaks, scaling, unit conversion, integration, Arias intensity, evenly
  spaced times, queries of velocities at depths, the average velocity of the top Z metres, linear
  interpolation) there is a second model in IEEE double precision, `M_float.v`,
  `M_ftime.v`, `M_fquery.v` and `M_finterp.v`, built on Flocq's binary floats (round to nearest even, infinities, one
  NaN); C103 to C108 and C116 are about it.
* Texts. `M_text.v` prints doubles with `%.pf`, `%.pg` and `%d` by exact integer arithmetic
  and reads numbers back; `M_textfile.v` holds saved motions, texts of objects and names
  made of the time.
* Figures. A canvas holds figures and axes with their lines, texts, titles and limits;
  plotting code is a state and exception monad over it (`M_figures.v`, `M_figres.v`), so
  that theorems say what is drawn where and what is left open when a call fails.
* Complex numbers are Coquelicot's `C`; `fft`/`ifft` are the defining finite sums.
* Aliasing. Where behaviour depends on NumPy views or on sharing of arrays (unit
  conversion in place, truncation through a view, fitting on the caller's data, filters
  that return their argument) arrays live in a heap addressed by location and functions
  thread the heap.
* State over time. Objects with mutable state (containers, parameter dictionaries,
  `GOF_Scores`, motions) have theorems about every sequence of operations. The
  nonlinear run is a program of file-system steps; its theorems range over every
  failure point. Pools take the order of completion as an argument; theorems hold for
  every schedule.
* External code is an argument (a discharged Section variable), never an axiom:
  `scipy.signal.butter`, `scipy.special.erf`, `scipy.interpolate.griddata`,
  `scipy.optimize.curve_fit`, `differential_evolution`, DEAP, `pywt.Wavelet`, the random
  number generators, contents of files, the nonlinear kernel, the current time, printing
  with `%.6g`. What a theorem needs of them is a visible hypothesis of that theorem.
* Findings. Where the property a user would expect is false of the code, the exact
  behaviour is proved (equivalence, or a `_refuted` theorem with a witness), see 6.

## 2. Layout of `rocq/theories`

* `Base.v`: results, extended numbers, list helpers.
* `M_<module>.v`: models, definitions only. `M_sitefiles.v` is generated from the
  directory listing of `/repo/PySeismoSoil/data` by `tools/gen_sitefiles.py`.
* `P_<module>.v`: specifications and lemmas.
* `Prop_<module>.v`: the theorems `Cnn_...` listed in `MANIFEST.json`. Each group is
  followed by an `Example Cnn_...instance` that shows the hypotheses hold for a concrete,
  non-trivial case.
* `Assumptions1.v` .. `Assumptions4.v`: generated; `Print Assumptions` for every theorem.

Outside: `properties.jsonl` (the properties), `MANIFEST.json`, `seeded/LOG.jsonl`
(wrong programs tried), `tools/` (generators: properties, manifest, coverage, axioms).

## 3. Properties and where they are proved

@@TABLE@@

## 4. What is modelled, and what is not

`COVERAGE.md` lists every function. All functions that compute, check, convert, read,
write or schedule are modelled. In summary:

| Source | Modelled in |
|---|---|
| helper_generic.py | M_generic, M_interp |
| helper_site_response.py | M_profile, M_motion, M_spectra, M_linear, M_amplify, M_soil, M_curves, M_fits, M_gmsignal |
| helper_signal_processing.py | M_signal, M_sine, M_dft, M_filtfig |
| helper_simulations.py | M_simlin, M_eqlin |
| helper_hh_model.py, helper_mkz_model.py | M_soil, M_params, M_curves, M_fits |
| helper_hh_calibration.py | M_hhcal, M_hhfig |
| helper_gof_scores.py, class_gof_scores.py | M_gof, M_wavelet |
| class_Vs_profile.py | M_vs_profile, M_vsspec |
| class_ground_motion.py | M_motion, M_propagate, M_gmsignal, M_sigfig |
| class_frequency_spectrum.py | M_freqspec |
| class_curves.py | M_curves, M_container, M_curvemat, M_fits |
| class_parameters.py | M_params, M_container, M_lawcurves |
| class_simulation.py, class_simulation_results.py | M_results, M_files |
| class_batch_simulation.py | M_batch, M_pool |
| class_site_factors.py, class_site_effect_adjustment.py | M_sitefactors, M_sitefiles, M_sitefig, M_propagate |
| class_svm.py | M_svm |
| class_damping_calibration.py, class_hh_calibration.py | M_dampcal, M_hhclass |
| `__repr__`, `save_accel`, `to_txt`, `get_current_time` | M_text, M_textfile |
| plotting methods of all classes, `_plot_*`, `_process_fig_ax_objects` | M_figures, M_figres |

Not modelled:

* Colours, line styles, tick marks, grids, legends, figure sizes and resolutions; the
  figures that `show_fig` adds to Fourier and linear transfer functions, smoothing and
  goodness-of-fit scores (those of HH calibrations, MKZ fits, site factors, truncation, response
  spectra, filters and baseline correction are in M_hhfig, M_sitefig, M_sigfig and M_filtfig); the `__repr__` texts of
  curves and parameters, printed messages and warnings, progress bars, `detect_OS`
  (the system is an argument).
* Floating point rounding, outside `M_float.v`, `M_ftime.v`, `M_fquery.v` and `M_finterp.v`.
  A theorem that says "exactly" says it of real arithmetic, except in C103 to C108 and
  C116.
* The Fortran/executable nonlinear kernel: an argument that leaves some files or fails.
* The insides of optimisers, of `griddata`, filter design, wavelet tables, random
  number generators.
* Complex dtypes in validators, broadcasting of one-element arrays where it would be an
  accident, object dtypes, file permissions, links and `..` in paths, pickling.
* Divisions by an exactly vanishing modulus or time step where NumPy would go on with
  infinities; the theorems state the positivity that excludes them, or the result is the
  explicit value "not finite".

Idealisations worth knowing when reading a theorem: `np.log10`, `**`, `exp` are the real
functions; `np.interp`, `np.searchsorted`, `np.linspace`, `np.geomspace`, `np.argmin`,
slices and `np.genfromtxt` squeezing are written out and follow NumPy's documented
behaviour; multiprocessing copies its arguments (a worker never changes the caller's
arrays).

## 5. Trusted base

* Coq's kernel (8.16.1), without plugins; no kernel check is switched off.
* Axioms: none of our own, no functors, module types, or `Declare Module`. The standard
  library's axioms that `Print Assumptions` lists, per theorem in `AXIOMS.md`, are
  @@AXIOMS@@.
  The first three come with the construction of the real numbers; `classic` is used by
  parts of the standard library and of Coquelicot on which some theorems rest. Theorems
  about pure list, string, file-system and scheduling code are closed under the global
  context.
* Coquelicot (complex numbers and limits), Flocq (binary floating point numbers) and the
  standard library are checked by the same kernel; the first two add no axioms.
* The correspondence between the model and the Python text, which is by reading, with
  the simplifications of section 4 and of the comments.

## 6. Findings

Behaviour of the code, proved of the model, that differs from documentation or from what
a user would expect. The theorem named proves the exact behaviour.

@@FINDINGS@@

## 7. How the theorems were tested

`seeded/LOG.jsonl` records wrong programs: an edit of one definition in a scratch copy,
the claim it breaks and the theorems whose proof then failed. An edit that broke no
theorem was either shown to be harmless or led to a new or tighter theorem, which the
log names (`theorems_tightened`). The runner keeps going after the first failure (it
admits the broken lemma in the scratch copy) so that the log lists every theorem that
depends on the edited behaviour.
