{
 "C15": {
  "note": "Exact real arithmetic; rounding is the subject of C103-C108, C116."
 },
 "C16": {
  "note": "Exact real arithmetic; rounding is the subject of C103-C108, C116."
 },
 "C17": {
  "note": "Exact real arithmetic; rounding is the subject of C103-C108, C116."
 },
 "C18": {
  "note": "Exact real arithmetic; rounding is the subject of C103-C108, C116."
 },
 "C19": {
  "note": "Exact real arithmetic; rounding is the subject of C103-C108, C116."
 },
 "C01": {
  "note": "Exact real arithmetic; C103, C104, C107 and C108 treat the same functions in double precision."
 },
 "C02": {
  "note": "Exact real arithmetic; C103, C104, C107 and C108 treat the same functions in double precision."
 },
 "C03": {
  "note": "Exact real arithmetic; C103, C104, C107 and C108 treat the same functions in double precision."
 },
 "C04": {
  "note": "Exact real arithmetic; C103, C104, C107 and C108 treat the same functions in double precision."
 },
 "C33": {
  "note": "The filter design (scipy.signal.butter) is an argument; its normalised cutoffs and the sections it returns are what the theorems speak about."
 },
 "C80": {
  "note": "The filter design (scipy.signal.butter) is an argument; its normalised cutoffs and the sections it returns are what the theorems speak about."
 },
 "C81": {
  "note": "The filter design (scipy.signal.butter) is an argument; its normalised cutoffs and the sections it returns are what the theorems speak about."
 },
 "C30": {
  "note": "griddata is an argument assumed to interpolate linearly inside a box of points (hypothesis of the theorems concerned)."
 },
 "C79": {
  "note": "griddata is an argument assumed to interpolate linearly inside a box of points (hypothesis of the theorems concerned)."
 },
 "C46": {
  "note": "The optimiser is an argument; nothing is assumed about the parameters it returns."
 },
 "C100": {
  "note": "The optimiser is an argument; nothing is assumed about the parameters it returns."
 },
 "C101": {
  "note": "The optimiser is an argument; nothing is assumed about the parameters it returns."
 },
 "C115": {
  "note": "The optimiser is an argument; nothing is assumed about the parameters it returns. Colours, line styles, grids, legends and sizes are not part of the figure model."
 },
 "C73": {
  "note": "The fit of the MKZ model to a modulus curve is an argument."
 },
 "C99": {
  "note": "curve_fit is an argument."
 },
 "C50": {
  "note": "erf is an argument with the properties of the error function as hypotheses."
 },
 "C52": {
  "note": "Storage in single precision is an uninterpreted rounding function."
 },
 "C54": {
  "note": "Random generators and the equation solver are arguments; theorems hold for every outcome."
 },
 "C102": {
  "note": "Random generators and the equation solver are arguments; theorems hold for every outcome."
 },
 "C58": {
  "note": "The nonlinear kernel is an argument: it leaves files or fails at any step."
 },
 "C59": {
  "note": "The nonlinear kernel is an argument: it leaves files or fails at any step."
 },
 "C87": {
  "note": "The nonlinear kernel is an argument: it leaves files or fails at any step."
 },
 "C61": {
  "note": "The pool takes the order of completion as an argument; theorems hold for every schedule."
 },
 "C62": {
  "note": "The pool takes the order of completion as an argument; theorems hold for every schedule."
 },
 "C78": {
  "note": "The pool takes the order of completion as an argument; theorems hold for every schedule."
 },
 "C96": {
  "note": "The wavelet's filter coefficients are an argument."
 },
 "C103": {
  "note": "IEEE double precision with Flocq's binary floats; overflow is excluded by stated bounds or is the outcome proved."
 },
 "C104": {
  "note": "IEEE double precision with Flocq's binary floats; overflow is excluded by stated bounds or is the outcome proved."
 },
 "C105": {
  "note": "IEEE double precision with Flocq's binary floats; overflow is excluded by stated bounds or is the outcome proved."
 },
 "C106": {
  "note": "IEEE double precision with Flocq's binary floats; overflow is excluded by stated bounds or is the outcome proved."
 },
 "C107": {
  "note": "IEEE double precision with Flocq's binary floats; overflow is excluded by stated bounds or is the outcome proved."
 },
 "C108": {
  "note": "IEEE double precision with Flocq's binary floats; overflow is excluded by stated bounds or is the outcome proved."
 },
 "C109": {
  "note": "Colours, line styles, grids, legends and sizes are not part of the figure model."
 },
 "C110": {
  "note": "Colours, line styles, grids, legends and sizes are not part of the figure model."
 },
 "C111": {
  "note": "Colours, line styles, grids, legends and sizes are not part of the figure model."
 },
 "C112": {
  "note": "Colours, line styles, grids, legends and sizes are not part of the figure model."
 },
 "C113": {
  "note": "Colours, line styles, grids, legends and sizes are not part of the figure model."
 },
 "C114": {
  "note": "Colours, line styles, grids, legends and sizes are not part of the figure model."
 },
 "C29": {
  "note": "The listing of the shipped data files is generated from /repo (tools/gen_sitefiles.py)."
 },
 "C38": {
  "note": "Arrays live in a heap addressed by location, so that sharing and writes in place are visible."
 },
 "C09": {
  "note": "Arrays live in a heap addressed by location, so that sharing and writes in place are visible."
 },
 "C11": {
  "note": "Arrays live in a heap addressed by location, so that sharing and writes in place are visible."
 },
 "C20": {
  "note": "Arrays live in a heap addressed by location, so that sharing and writes in place are visible."
 },
 "C68": {
  "note": "Arrays live in a heap addressed by location, so that sharing and writes in place are visible."
 },
 "C71": {
  "note": "Arrays live in a heap addressed by location, so that sharing and writes in place are visible."
 },
 "C23": {
  "note": "Complex numbers are Coquelicot's C; transforms are the defining finite sums over exact reals."
 },
 "C24": {
  "note": "Complex numbers are Coquelicot's C; transforms are the defining finite sums over exact reals."
 },
 "C25": {
  "note": "Complex numbers are Coquelicot's C; transforms are the defining finite sums over exact reals."
 },
 "C26": {
  "note": "Complex numbers are Coquelicot's C; transforms are the defining finite sums over exact reals."
 },
 "C32": {
  "note": "Complex numbers are Coquelicot's C; transforms are the defining finite sums over exact reals."
 },
 "C56": {
  "note": "Complex numbers are Coquelicot's C; transforms are the defining finite sums over exact reals."
 },
 "C82": {
  "note": "Complex numbers are Coquelicot's C; transforms are the defining finite sums over exact reals."
 },
 "C92": {
  "note": "Complex numbers are Coquelicot's C; transforms are the defining finite sums over exact reals."
 },
 "C94": {
  "note": "Complex numbers are Coquelicot's C; transforms are the defining finite sums over exact reals."
 },
 "C74": {
  "note": "The fit of the MKZ model to a modulus curve is an argument."
 },
 "C98": {
  "note": "The fit of the MKZ model to a modulus curve is an argument."
 },
 "C116": {
  "note": "IEEE double precision with Flocq's binary floats; overflow is excluded by stated bounds or is the outcome proved."
 },
 "C117": {
  "note": "Formatting and reading are modelled as correctly rounded, by integer arithmetic; the value read is Flocq's rounding of the decimal number."
 },
 "C118": {
  "note": "Lines are pairs of cells; the separator is not modelled. Saving in g or gal is the subject of C20."
 },
 "C119": {
  "note": "The numbers shown are compared with the stored ones through the decimals of each column."
 },
 "C121": {
  "note": "Stresses that are not finite give NaN in the model; matplotlib then leaves points out."
 },
 "C122": {
  "note": "Arrays are compared by value; that the curves are views of one matrix is not modelled."
 },
 "C123": {
  "note": "The two-panel form of the figure has no caller and is left out; so is the text of the title. An infinite or NaN site is refused before anything is drawn."
 },
 "C124": {
  "note": "The vertical lines at the transition strain, titles and styles are left out; the fitting procedure is a parameter. That the text file of parameters is written after the figures is not part of this claim."
 },
 "C125": {
  "note": "Line styles and figure sizes are left out; the logarithmic axis of periods is not represented."
 },
 "C126": {
  "note": "The limits matplotlib chooses and the filter design are parameters; the lower limit of the horizontal axes (0.01), their labels and logarithmic scale are left out."
 }
}