{
 "C01": [
  "proved",
  "Closed forms for the plain and redundant weight arrays, sum + LSB = 1, exact error condition, and the negative-index insertion."
 ],
 "C02": [
  "proved",
  "Exact reals; floating-point rounding is not modelled."
 ],
 "C03": [
  "proved",
  "Sufficient direction and, for non-negative weights, the gap when covering fails."
 ],
 "C04": [
  "proved",
  ""
 ],
 "C05": [
  "proved",
  "Code idempotence is stated for inputs at or above v_min and positive weights."
 ],
 "C06": [
  "proved",
  "Noise draws are arbitrary functions constrained only by the stated bounds."
 ],
 "C07": [
  "proved",
  "Draws are arbitrary reals standing for the generator's output; the distribution itself is not modelled."
 ],
 "C08": [
  "proved",
  "Also shows the weights are the exact solution of the network's charge equations (for every bit pattern), and sum to 1 without parasitics."
 ],
 "C09": [
  "proved",
  "Capacitors non-negative."
 ],
 "C10": [
  "proved",
  "Ties are broken to the lower bin among bins inside the window (a tied bin just outside the window is possible when the target is half-way and is not considered by the code). Adds success and one-bin accuracy for power-of-two lengths."
 ],
 "C11": [
  "proved",
  ""
 ],
 "C12": [
  "partial",
  "Proved for even lengths and for integer bins; the documented range is false for odd n with a fractional bin in (n//2, n/2): C12_odd_fractional_refuted (n=9, bin 4.2 -> 4.8). C12_general_bound gives the range that does hold."
 ],
 "C13": [
  "proved",
  ""
 ],
 "C14": [
  "proved",
  ""
 ],
 "C15": [
  "proved",
  "Agreement holds for every real input including zero and negative fs (same inf/nan) and osr=0 (same ZeroDivisionError). C15_positional_order_refuted records that the two modules take osr and signal level in opposite positional order."
 ],
 "C16": [
  "proved",
  ""
 ],
 "C56": [
  "proved",
  ""
 ],
 "C17": [
  "proved",
  "Domain, sample placement and both inverses. The ndim checks are outside the model (signals are lists); a (0,K) array is not represented."
 ],
 "C18": [
  "proved",
  "Exact restoration, all size errors, unknown method. Division by a zero gain (inf/nan) is outside the model and excluded by hypothesis."
 ],
 "C19": [
  "proved",
  "Normalisation, offsets, offset isolation, validation. fin=None (FFT estimate) and the nan results for an empty record or fin=0 are outside the model."
 ],
 "C20": [
  "proved",
  "Taps sum to one; every polynomial of degree below n_taps is delayed exactly wherever the filter window lies inside the record."
 ],
 "C21": [
  "partial",
  "The length claim is refuted for records shorter than n_taps (C21_same_length_refuted); everything else is proved, with the true length max(len(x), n_taps)."
 ],
 "C22": [
  "proved",
  "dbfs/dbc fields are not modelled."
 ],
 "C57": [
  "partial",
  "Composition is refuted for even lengths (C57_compose_even_refuted); exactness below Nyquist, whole-sample delays and odd-length composition are proved."
 ],
 "C58": [
  "partial",
  "Gain/skew amplitudes are exact; offset amplitudes are refuted (C58_offset_amplitude_refuted): entries k < M/2 report half the real sinusoid's amplitude, as C58_offset_decomposition shows."
 ],
 "C59": [
  "proved",
  "Exact real arithmetic; fin must be given."
 ],
 "C60": [
  "proved",
  "fft method; skews in (0, 1e-18) s are skipped by the code and excluded by hypothesis."
 ],
 "C23": [
  "proved",
  "Range, errors, monotonicity in osr, and the exact set of bins (those strictly usable below fs/(2 osr)) are proved in exact arithmetic."
 ],
 "C24": [
  "partial",
  "Proved for even FFT lengths (every order and fractional position) and for integer fundamentals at any length; refuted for odd lengths (C24_odd_length_refuted), where a harmonic can land one past the last one-sided bin."
 ],
 "C25": [
  "partial",
  "Proved: THD power is the power of the union of the counted windows, never includes the fundamental window, and is at most the sum of per-harmonic powers. Refuted: a counted harmonic's window may reach into the DC window (C25_dc_window_refuted) and beyond the analysis band when osr > 1 (C25_out_of_band_refuted)."
 ],
 "C26": [
  "proved",
  "Band power splits into DC window + signal + noise-and-distortion; the reported spur is the maximal bin outside both windows; SFDR >= SNDR. Covers coherent_averaging=False."
 ],
 "C27": [
  "proved",
  "Explicit side_bin; compute_spectrum at osr=1, no cutoff, no assumed power. Both functions also reject the same captures."
 ],
 "C28": [
  "proved",
  "Stays in band, equals the first bin whose both neighbours fall below the threshold, and leaves no bin above the threshold uncovered up to there."
 ],
 "C29": [
  "proved",
  "All four methods: positivity, domain, independence of the windows, method 0 is the middle value, and exact characterisations of the median, trimmed-mean and exclusion methods."
 ],
 "C54": [
  "partial",
  "The peak claim holds for all spectra; the half-bin claim holds when the peak dominates both neighbours and is refuted without it (C54_dc_neighbour_refuted): bin 0 is not excluded from the interpolation."
 ],
 "C51": [
  "partial",
  "Zero mean, gain/offset invariance, given-range behaviour, errors, the +-2 bound and peak-to-peak 2 are proved; the +-1 range stated in the docstring is refuted (C51_unit_range_refuted)."
 ],
 "C61": [
  "proved",
  "Exact arithmetic; cosine-sum windows (boxcar, hann, hamming, blackman, blackmanharris, flattop) as scipy defines them; explicit side_bin and peak scale."
 ],
 "C62": [
  "proved",
  "Exact arithmetic; the DFT is the defining sum."
 ],
 "C30": [
  "proved",
  "Exact arithmetic; the sine fit's residual and amplitude are arguments; any valid argsort order."
 ],
 "C50": [
  "partial",
  "Even length: proved (symmetric mask, brick wall, identity, idempotent). Odd length: symmetry and full-band identity are refuted - the top bin N//2 comes out at half amplitude; all lower bins are proved for every length."
 ],
 "C63": [
  "partial",
  "Refuted: the error spectrum is scaled to amplitude squared while the signal is amplitude squared over two, so the sweep counts every in-band residual tone at twice its power (3 dB pessimistic). Proved instead: the exact factor 2 for tones and the factor between 2 and 4 for every residual."
 ],
 "C31": [
  "proved",
  "Exact arithmetic; integer-typed arguments. Finding: the raw INL always ends at 0, so the 'endpoints' correction never changes it."
 ],
 "C64": [
  "proved",
  "Exact arithmetic; noiseless converter; ramp covering the analysed range."
 ],
 "C32": [
  "partial",
  "DNL >= -1, running sum, equal lengths are proved whenever a sample lies strictly between the end codes (otherwise every entry is nan, also proved). The labelling claim is refuted: the DNL of code c is returned under label c-1. Also proved: a missing code makes the last INL value positive."
 ],
 "C65": [
  "proved",
  "Exact arithmetic, noiseless sine. Finding: reported DNL/INL are scaled by n/(n-2) relative to the true values."
 ],
 "C48": [
  "proved",
  "Exact arithmetic; v_min < v_max."
 ],
 "C49": [
  "proved",
  "Exact arithmetic; scipy lfilter is modelled by its difference equation. Also proved: the L-fold running sum of output minus input is exactly the quantisation error, so it stays in (-lsb, 0]."
 ],
 "C66": [
  "partial",
  "The exact harmonic content is proved for every request, and a second-harmonic request alone is met exactly. Refuted for the third harmonic (and shown for 4 and 5): the cubic term also raises the fundamental by 3r, so H3/H1 = r/(1+3r); a fourth-harmonic request creates a second harmonic 12 dB above it, a fifth-harmonic request a third harmonic 14 dB above it."
 ],
 "C67": [
  "proved",
  "Exact arithmetic."
 ],
 "C68": [
  "proved",
  "T >= 0, tau > 0, coefficient >= 0."
 ],
 "C69": [
  "proved",
  "tau > 0, strength >= 0 for the bound."
 ],
 "C70": [
  "proved",
  "np.percentile modelled as linear interpolation of order statistics. Finding: p above 50 silently returns a constant record."
 ],
 "C71": [
  "proved",
  "Signals of length N; jitter only for the generated sine (the CubicSpline branch and apply_drift are not modelled). Finding: the memory effect wraps the last sample's coarse code into the first."
 ],
 "C41": [
  "proved",
  "Also for arbitrary codes (extremes and counts); percentages grow toward the LSB. Finding: check positions m+1..2m wrap around silently instead of raising."
 ],
 "C42": [
  "proved",
  "Weights non-zero (a zero weight gives inf/nan in numpy, outside the model)."
 ],
 "C43": [
  "proved",
  "Pairs with 0 <= x <= y <= m; negative Python slice ends are modelled but not claimed about."
 ],
 "C72": [
  "proved",
  "Exact arithmetic, non-empty record."
 ],
 "C44": [
  "proved",
  "Non-empty requests: characterised by the alias table and order of first mention."
 ],
 "C45": [
  "proved",
  "Crash points are all sub-sequences of the step list (copytree continues after an OS error). Destination path assumed free of symbolic links."
 ],
 "C46": [
  "proved",
  "Bundled trees assumed link-free with unique names. A row is also characterised for an arbitrary state."
 ],
 "C53": [
  "proved",
  "Statement made precise about the ignore patterns."
 ],
 "C73": [
  "partial",
  "Refuted: filecmp.dircmp skips names such as tags, CVS, __pycache__, and _dirs_equal never looks at a path that is a file on one side and a directory on the other. Proved: exactly what the comparison checks, and that it is identity when neither situation occurs."
 ],
 "C74": [
  "partial",
  "Everything but the last clause is proved; --status with an unknown name lets ValueError escape (refuted)."
 ],
 "C75": [
  "partial",
  "Refuted twice: an existing second target leaves the first skill installed, and --force deletes the old copy before the bundled directory is known to exist. Proved: with no obstacle the whole request is installed."
 ],
 "C47": [
  "proved",
  "Exact contents; integer dtypes with their wrap-around in np.ptp (proved not to affect acceptance)."
 ],
 "C76": [
  "partial",
  "All three clauses refuted (max(shape) as sample count; bool rejected by issubdtype; np.ptp overflows in signed integer dtypes). Proved: the sample count is right for 1-D data; for float data the warning is exact (C47_low_warning)."
 ],
 "C37": [
  "proved",
  "For every rank oracle (its decisions are arbitrary)."
 ],
 "C38": [
  "proved",
  "Exact arithmetic."
 ],
 "C39": [
  "proved",
  "For every least-squares routine; the record must identify the weights up to a factor."
 ],
 "C40": [
  "proved",
  "For every solver output and any number of data sets."
 ],
 "C55": [
  "proved",
  "For every least-squares routine and every correct rank routine; frequency non-zero and at most 1/2."
 ],
 "C77": [
  "partial",
  "Refuted: for a pure sine the regression is inconsistent and the weights come out wrong (C77_pure_sine_refuted). Proved for non-zero cosine part (C39_recovers); the full calibration handles the same record (C77_full_calibration_ok_ex)."
 ],
 "C78": [
  "partial",
  "Refuted: two complementary bits are merged into a constant column because the ratio ignores the sign of the correlation. The reconstruction identity itself is C37."
 ],
 "C79": [
  "partial",
  "Refuted: the amplitude coefficient is read at the wrong index with two or more data sets, and the weights come out too small by sqrt 2. Proved for one data set (C55)."
 ],
 "C80": [
  "partial",
  "Refuted: the search applies unrelated coefficients as frequency corrections and moves off an exact frequency. Proved: with one iteration the frequency is kept and the exact scale error of the weights is |b| instead of the amplitude."
 ],
 "C81": [
  "proved",
  "Rank, least squares and the automatic frequency estimate are arbitrary functions."
 ],
 "C52": [
  "proved",
  "For every least-squares routine; max_iterations may be any integer. Warnings and printing are not modelled."
 ],
 "C82": [
  "proved",
  "For every least-squares routine."
 ],
 "C83": [
  "proved",
  "For every least-squares routine."
 ],
 "C84": [
  "partial",
  "Proved: range for every record; exactness for bins 1 <= k < n // 2. Refuted for the top bin k = (n-1)/2 of an odd-length record, which spec[:n // 2] leaves out (the estimate is then 0)."
 ],
 "C85": [
  "proved",
  "Exact arithmetic, every least-squares routine."
 ],
 "C86": [
  "partial",
  "Refuted: the estimated frequency is 0, the cosine and constant columns coincide, and the minimum-norm solution splits the constant into offset v/2 and amplitude |v|/2. Proved: exactly this outcome for every constant record with max_iterations = 0, residuals zero."
 ],
 "C33": [
  "partial",
  "Symmetry, value 1 at lag 0 and the defining formula are proved; the bound 1 is refuted by an 8-sample signal analysed end to end (value 2 at lag 7) because each lag is averaged over its own number of samples. The true bound N/(N-|lag|) is proved, and a constant error gives NaN everywhere."
 ],
 "C34": [
  "proved",
  "Nearest-centre assignment, per-bin count/mean/rms, totals, |mean|<=rms and the exact acceptance condition, for finite samples and integer bin counts."
 ],
 "C35": [
  "proved",
  "Kernel and end-to-end; the clamped case is exact too (the power is raised by |A|-B)."
 ],
 "C87": [
  "partial",
  "Refuted: exact limit proved (ValueError iff max_lag exceeds the record length and the record has 3 or more samples; NaN at the ends when equal); the default 50 fails for a valid 8-sample signal."
 ],
 "C88": [
  "partial",
  "Refuted by two-sample signals; proved for given ranges, raw codes (some magnitude above 2) and small bipolar signals."
 ],
 "C89": [
  "partial",
  "Refuted by a 16-sample signal (reported 4, measured 2). Proved: modelled power is never below the measured power, with equality whenever no variance was clamped."
 ],
 "C90": [
  "partial",
  "Without base noise: proved. With base noise: refuted when AM and PM are both present; the reported values max(am-pm,0), max(pm-am,0), base+min(am,pm) are proved."
 ],
 "C91": [
  "proved",
  "For any least-squares solver (its failure to converge is not modelled)."
 ],
 "C92": [
  "proved",
  "Phases taken from the fitted sine."
 ],
 "C36": [
  "proved",
  "Also exact acceptance condition and which samples are averaged for one row, several rows, one column. Phases lie in [-pi, pi) over the reals."
 ],
 "C93": [
  "proved",
  ""
 ],
 "C94": [
  "partial",
  "Proved: zero noise, exact signals, magnitudes equal to TWICE the amplitudes and phases equal to the NEGATIVE relative phases of cos(h w t + phi_h), with the frequency given and also with the automatic frequency (two or more periods, no harmonic larger than the fundamental), both without refinement. The literal magnitudes and the package's own phase sign are refuted on a 16-sample record."
 ],
 "C95": [
  "partial",
  "Refuted on an 8-sample record for every least-squares solver. Proved: kept without refinement, and for a pure sine with any number of refinements."
 ],
 "C96": [
  "partial",
  "residual_rms is refuted: it is 2 sqrt 2 times the RMS (proved). The dB formulas, the exact -inf case and NaN for constant records are proved."
 ],
 "C97": [
  "proved",
  ""
 ],
 "C98": [
  "proved",
  ""
 ],
 "C99": [
  "partial",
  "Refuted on a 16-sample record. Proved: with g = 1 + 3/4 k3 A^2 the returned values are k2/g and k3/g^2, provided the harmonics are not larger than the fundamental and do not correlate with the derivative column of the frequency refinement (assumed as a hypothesis; when it fails the fitted frequency moves as well, see C95)."
 ],
 "C100": [
  "proved",
  ""
 ],
 "C101": [
  "proved",
  ""
 ],
 "C102": [
  "proved",
  ""
 ],
 "C103": [
  "proved",
  "scipy's definitions of the cosine windows are part of the model; kaiser and chebwin samples are arguments. The Blackman-Harris and flattop ENBW are enclosed to 1e-7."
 ],
 "C104": [
  "proved",
  "Single data set, frequency given; the solver and the rank routine are arguments assumed to be a least-squares solver and a correct rank."
 ],
 "C105": [
  "proved",
  "The start offsets are whole samples, taken round the end of the record; the compute_spectrum statement is for the boxcar window and needs the coprime condition."
 ],
 "C106": [
  "proved",
  "The power comparison is for runs that are not skipped as silent."
 ],
 "C107": [
  "proved",
  "The harmonics must fall on different bins below half the sample rate, and the runs must have the fundamental as strongest bin."
 ],
 "C108": [
  "proved",
  ""
 ],
 "C109": [
  "proved",
  "The helper is not called anywhere in the library."
 ],
 "C110": [
  "partial",
  "Refuted: tones at bins 1 and 2 of 8, averaged with the copy half a record later; the tone at bin 1 is removed. C105 is the part that holds (bins carrying harmonics)."
 ],
 "C111": [
  "partial",
  "Refuted for a harmonic folded an odd number of times: its phase comes out negated. C107 gives the exact phases."
 ],
 "C112": [
  "proved",
  ""
 ],
 "C113": [
  "proved",
  "Only records of at least four samples for the quality bound."
 ],
 "C114": [
  "partial",
  "Refuted: 4096 samples, strongest bin 2047: the lag found opens the ellipse by less than 4 percent, although lag 1024 is exactly a quarter period. C113 says what holds."
 ],
 "C115": [
  "proved",
  "The polynomial claims need a nonzero sample among those used (np.polyfit scales columns by their norm)."
 ],
 "C116": [
  "proved",
  ""
 ],
 "C117": [
  "partial",
  "Refuted: the sum runs over the truncated grid without normalising the masses, and two samples +1, -1 (frequency 0, no refinement) give a negative divergence for every least-squares routine. Proved instead: it is at least P ln(P/Q) and P - Q for the masses P, Q on the grid, hence nonnegative when P >= Q, and for equal masses zero only for equal densities."
 ],
 "C118": [
  "proved",
  ""
 ],
 "C119": [
  "proved",
  ""
 ],
 "C120": [
  "proved",
  ""
 ],
 "C121": [
  "proved",
  "One record; cutoff 0."
 ],
 "C122": [
  "proved",
  "Exact arithmetic; the ENOB itself is the analysis of C23-C29."
 ],
 "C123": [
  "partial",
  "Refuted for matrices with more bits than samples (the calibration transposes them and returns as many weights as samples, so the product of l.82 raises ValueError). C122_errors gives the exact condition: it holds for M <= N."
 ],
 "C124": [
  "proved",
  "Exact arithmetic."
 ],
 "C125": [
  "partial",
  "Refuted: in the band (0, 1/4) NTF = 1 gives more than 3 dB. C125_offset proves the exact excess, 10 log10(65536 / points in the band), for every transfer function."
 ],
 "C126": [
  "proved",
  "Exact arithmetic."
 ],
 "C127": [
  "proved",
  "Slope for finite SNDRs."
 ],
 "C128": [
  "proved",
  "Bit-exact binary64 arithmetic (Flocq); noise off. The limit of 53 bits is sharp (C128_limit)."
 ],
 "C129": [
  "proved",
  "Bit-exact binary64 arithmetic (Flocq)."
 ],
 "C130": [
  "partial",
  "Refuted: the range (-2^1023, 2^1023) is accepted but its span overflows, and v_max gives code 00. C130_saturation proves it for every range with a finite span, for dyadic weights of total at most 1."
 ],
 "C131": [
  "partial",
  "Refuted: 2 bits, range (0, 3.3): code 11 comes back as 10. C131_dyadic proves it for power-of-two spans with v_min a multiple of the step."
 ],
 "C132": [
  "proved",
  "Bit-exact binary64 arithmetic (Flocq)."
 ],
 "C133": [
  "partial",
  "Refuted: 2 bits, range (0, 0.7), input 0.65. C133_dyadic proves it when the step is a power of two and v_min a multiple of it."
 ],
 "C134": [
  "proved",
  "Exact arithmetic; argsort and lstsq are any routines meeting their specification."
 ],
 "C135": [
  "proved",
  "Exact arithmetic."
 ],
 "C136": [
  "proved",
  "Real arithmetic; the drawing is modelled as a record of what is drawn where."
 ],
 "C137": [
  "proved",
  "The matplotlib transform is any function that maps the axis limits to [0,1]."
 ],
 "C138": [
  "partial",
  "Proved for the sampling rate and for input frequencies below 1 Hz or from 1 kHz. False from 1 Hz up to 1 kHz in plot_spectrum (c138_fin_refuted): the frequency is divided by 1000 but shown without a prefix."
 ],
 "C139": [
  "partial",
  "Proved: which harmonics are marked, agreement of the styles, plottable for even record lengths and for tones in the middle of a bin. False for odd lengths in general (c139_odd_refuted): IndexError from analyze_spectrum although compute_spectrum succeeds."
 ],
 "C140": [
  "proved",
  "Texts are modelled as numbers of decimals and digits; fonts and widths are not."
 ],
 "C141": [
  "partial",
  "Proved: same result, ramp analysis never hides a point vertically and hides none horizontally for unsigned codes, sine analysis likewise without clamped codes. False: signed codes with the resolution given (c141_signed_refuted), INL of a record with missing codes (c141_sine_refuted), the +-1 reference lines (c141_lines_refuted)."
 ],
 "C142": [
  "partial",
  "Proved: which samples, how many (within n_cycles+1 samples), limits of the signal and both error curves. False: the number of cycles asked for (c142_cycles_refuted), the fitted sine inside the axes (c142_fit_hidden_refuted)."
 ],
 "C143": [
  "partial",
  "Proved: points, ring labels, outer radius, residual circle and text; drawn exactly when the record is not constant and a residual is left. False: a record without residual raises ValueError (c143_perfect_refuted); the residual circle can be outside (c143_circle_refuted)."
 ],
 "C144": [
  "partial",
  "Proved: the points, means and bars drawn and their positions inside the axes. False: the outermost bars are cut off for 2 to 23 bins (c144_bars_refuted)."
 ],
 "C145": [
  "partial",
  "Proved: accepted records, upper panel, bars, curves, texts. False: a curve can lie above the axis, which is set by the bars alone (c145_curve_refuted)."
 ],
 "C146": [
  "partial",
  "Proved: the points, the centre as 1st percentile, marks, texts, ring labels within 5 dB and exact for multiples of 10 dB, the fundamental at angle 0. False: exact labels for any range (c146_ticks_refuted), bins above 0 dB inside the axes (c146_points_refuted). Short records put the centre far below the noise floor (c146_short)."
 ],
 "C147": [
  "partial",
  "Proved: c147_exact, c147_first_zone, c147_bound. False: the documented range [0, fs/2] (exceeded by a rounding error, c147_range_refuted), any accuracy beyond 2^53 steps (c147_large_refuted), finite result when the quotient overflows (c147_overflow_refuted)."
 ],
 "C148": [
  "partial",
  "Proved: c148_nonneg, c148_integer, c148_even, c148_errors. False: exactness for negative fractional bins (c148_negative_refuted: -2^-60 folds to 0)."
 ],
 "C149": [
  "proved",
  "c149_coherent_refuted shows that the power-of-two condition of c149_power_of_two is needed."
 ],
 "C150": [
  "partial",
  "Proved: c150_bars, c150_marked, c150_errors, c150_visible (when the text fits). False: the text always lies inside the limits (c150_visible_refuted)."
 ],
 "C151": [
  "partial",
  "Proved for positive weights: c151_inside. False for weights of mixed sign (c151_inside_refuted)."
 ],
 "C152": [
  "proved",
  "c152_labels_refuted shows that which of several equal weights carries the label depends on the sorting routine."
 ],
 "C153": [
  "partial",
  "Proved: c153_points, c153_notes, c153_drawn (exact condition), c153_stuck. False: the plot is drawn whenever the sweep succeeds (c153_stuck_refuted); a loss is marked with a single sign (c153_sign_refuted: '+-0.50')."
 ],
 "C154": [
  "proved",
  ""
 ],
 "C155": [
  "partial",
  "Proved: c155_drawn, c155_texts, c155_units. False: the automatic unit suits the record (c155_auto_refuted: the codes 0, 1, 2 are labelled microvolts)."
 ],
 "C156": [
  "proved",
  "The figure for infinite or undefined errors (no full scale) is not modelled; c156_spectra covers records of even length, for odd ones see c139_odd_refuted."
 ],
 "C157": [
  "partial",
  "Proved: c157_same, c157_grid, c157_points, c157_alpha. False: plotting succeeds whenever the computation does (c157_no_pairs_refuted)."
 ],
 "C158": [
  "partial",
  "Proved: c158_panels, c158_nominal, c158_accepts, c158_stuck, c158_frequency, c158_ideal. False: the dashboard is drawn whenever the calibration succeeds (c158_stuck_refuted: one stuck leading bit and ValueError is raised)."
 ],
 "C159": [
  "partial",
  "Proved: c159_panels, c159_arguments, c159_twelve, and for records of even length exactly when each dashboard is drawn (c159_accepts, c159_twelve_accepts), never below 50 samples (c159_short), always if the record stands still for twelve samples (c159_pause). False: every non-constant record of 50 samples gets one (c159_clean, c159_clean_refuted: a coherent noise-free sine; in doubles its noise is rounding error instead of 0). Two-level records never get the larger one (c159_two_level). Whether an odd record is drawn is open (see c139_odd_refuted)."
 ],
 "C160": [
  "proved",
  "For every draw of the random numbers; see c160_steps, c160_ends, c160_nearest."
 ],
 "C161": [
  "partial",
  "Proved: c161_samples, c161_aligned, c161_common, c161_ideal_codes, c161_errors, and what the harmonic option does (c161_hd3: the third harmonic is at h relative to the amplitude asked for, but the carrier grows by 1 + 3r). False: h is the level relative to the carrier in the record (c161_hd3_refuted)."
 ],
 "C162": [
  "partial",
  "Proved: c162_mad, c162_gap, c162_step, c162_run, c162_best, c162_total, c162_locks. False: an aligned sampler stays aligned (c162_rests_refuted: every pass moves every inner code, so it leaves the aligned state at once). The SFDR of a pass is an argument; that decisions are right is a hypothesis of c162_locks."
 ],
 "C163": [
  "partial",
  "Proved: c163_alias, c163_findbin, c163_power_of_two (same bin except at an exact positive even target, where MATLAB goes up and Python down). False: the bin found is positive (c163_positive_refuted, negative frequency) and the same for other lengths (c163_nearest_refuted)."
 ],
 "C164": [
  "proved",
  "For all lists; see c164_agree."
 ],
 "C165": [
  "partial",
  "Proved: c165_agree for even lengths and edges that are not halfway above an even bin, c165_mask, c165_symmetric. False for odd lengths (c165_odd_refuted: Python loses half of the top bin) and for such edges (c165_tie_refuted)."
 ],
 "C166": [
  "partial",
  "Proved: c166_agree when the excluded number of codes is not halfway above an even number; then the results are the same or MATLAB's DNL is -1 throughout where Python's is NaN. False otherwise: c166_tie_refuted, c166_nan_refuted."
 ],
 "C167": [
  "partial",
  "Proved: c167_agree for at least as many rows as bits and a check position among the bits; c167_position for positions beyond. False for wide inputs, which MATLAB transposes (c167_wide_refuted)."
 ],
 "C168": [
  "proved",
  "Findings: at the last bin of the half spectrum the MATLAB estimate is half a bin off (c168_last_bin_refuted) and for a constant record it is 0/0 (c168_constant_refuted); Python's is exact, respectively 0. The lag is proved while neither side stops early and Python's clamp does not act."
 ],
 "C169": [
  "proved",
  "Equality of the estimated frequencies is C168."
 ],
 "C170": [
  "proved",
  "Findings: with an empty bin (fewer samples than the default 100 bins) both noises read 0 (c170_empty_bin, c170_few_samples); errors of constant size read as amplitude and as phase noise, in the Python base mode as neither (c170_flat_refuted)."
 ],
 "C171": [
  "proved",
  "Finding: the trace named rising belongs to phases where the fitted cosine falls (c171_rising_refuted)."
 ],
 "C172": [
  "proved",
  "Findings: an error in the band-edge bin is in band for Python and not for MATLAB (c172_edge_refuted); with 65 points the smoothing widths are 7 and 6 (c172_smooth_refuted)."
 ],
 "C173": [
  "partial",
  "The announced improvement relative to NTF = 1 is not 0 for NTF = 1 (c173_flat_refuted): the mean is taken over all points, not over the band; everything else of the property is proved."
 ],
 "C174": [
  "proved",
  "Finding: the MATLAB search keeps an exact starting frequency where the port moves off it (C80), and refuses a constant record where the port fails with an index error."
 ],
 "C175": [
  "proved",
  "Finding: on the two equal records for which the port's weights are too small by the square root of 2 (C79) MATLAB returns the true ones (c175_two_equal_records)."
 ],
 "C176": [
  "partial",
  "Refuted side: MATLAB checks the order even when a transfer function is given and refuses calls Python accepts (c176_order_refuted); with valid options the two agree (c176_agrees)."
 ],
 "C177": [
  "partial",
  "Refuted in general: the weights 5, 3, 2 get an exact scale in MATLAB and not in Python (c177_scale_refuted), since a half is rounded away from zero; off such ties the two agree (c177_agrees)."
 ],
 "C178": [
  "partial",
  "Refuted beyond the record length: MATLAB returns values where Python raises ValueError (c178_acf_refuted); equal up to it (c178_acf)."
 ],
 "C179": [
  "proved",
  "With the frequency given, no condition on the harmonics is needed; the port has no such argument (C99)."
 ],
 "C180": [
  "partial",
  "Refuted in two corners: a band edge just below a bin (c180_band_refuted) and matrices with more than twice as many rows as columns (c180_orientation_refuted); equal elsewhere (c180_spectrum, c180_band, c180_orientation)."
 ],
 "C181": [
  "proved",
  ""
 ],
 "C182": [
  "partial",
  "Refuted: the rest of a harmonic's window that touches the tone is counted (c182_thd_refuted), the harmonic bin of a fractional position differs for odd lengths (c182_harmonics_refuted), a tone in the Nyquist bin gets position + 0.5 (c182_position_refuted); equal elsewhere."
 ],
 "C183": [
  "proved",
  "Whole-bin tones, Hann and rectangular windows."
 ],
 "C184": [
  "proved",
  "The statement about delays is for the rectangular window."
 ],
 "C185": [
  "partial",
  "Refuted: the tone is looked for before the cutoff is applied (c185_cutoff_refuted), and a frequency below 1 is printed one bin too high (c185_printed_refuted); what is computed is proved in c185_cutoff, c185_auto and c185_printed."
 ],
 "C186": [
  "partial",
  "Equal for stages 0..M (c186_agrees); refuted outside: a negative stage counts from the end in Python only (c186_negative_refuted), a stage beyond the last bit is refused in MATLAB only (c186_beyond_refuted)."
 ],
 "C187": [
  "proved",
  ""
 ],
 "C188": [
  "partial",
  "Refuted: the text of a bit above 97 percent starts above the axis (c188_marks_refuted, c188_marks_inside); the rest is proved."
 ],
 "C189": [
  "proved",
  "The value of k bits comes from a calibration of its own; the Python sweep calibrates once with all bits."
 ],
 "C190": [
  "partial",
  "Refuted for records that do not hold whole periods: the fit has no constant, a cosine of amplitude 1 comes out as 14/15 where the Python code finds 1 (c190_offset_refuted). Records fitted exactly are an error (c190_perfect): the axis would start at -inf."
 ],
 "C191": [
  "partial",
  "Refuted: a clean tone is an error when one of the harmonics to be marked falls on half the sampling rate, which happens with the default of five (c191_tone_refuted; c191_tone says exactly when)."
 ],
 "C192": [
  "partial",
  "Refuted for the overflow check of signed codes: their two's complement bits are read as unsigned, codes next to zero count as overflow (c192_overflow_refuted). The rest of the statement is proved."
 ],
 "C193": [
  "partial",
  "The range is refuted where the maximum code is given and a weight is negative (c193_range_refuted); proved for positive weights (c193_range) and, as a span, for any without a given maximum (c193_span)."
 ],
 "C194": [
  "partial",
  "Refuted with a display: a perfectly fitted record makes the panel fail (c194_display_refuted; c194_raises says exactly when), and other signals are drawn without one (c194_silent_refuted)."
 ],
 "C195": [
  "partial",
  "The three periods are refuted: the window is at least 101 samples wide, 25 periods at a quarter of the sampling rate (c195_cycles_refuted); c195_cycles gives its true width."
 ],
 "C196": [
  "partial",
  "Refuted for the spectrum, which takes the rows for runs (c196_matrix_refuted, c196_rows)."
 ],
 "C197": [
  "partial",
  "Refuted for the range: beyond the ends of the record the outermost cubic goes on, so jitter on the last sample can leave the range of the signal (c197_bounded_refuted). The rest of the statement is proved."
 ],
 "C198": [
  "proved",
  ""
 ],
 "C199": [
  "proved",
  ""
 ],
 "C200": [
  "partial",
  "Refuted for the order above the range: the bits are saturated, the residue is not, so the code at full scale is below the code just under it (c200_overload_refuted). The rest of the statement is proved."
 ],
 "C201": [
  "partial",
  "Refuted for the weights: those of every stage but the last are too small by the stage gain, and the output falls when the last stage wraps (c201_monotone_refuted). Proved: with the right factor the digits give the code of one converter (c201_weights)."
 ],
 "C202": [
  "partial",
  "Refuted without the condition on the capacitors (c202_missing_refuted). The rest of the statement is proved."
 ],
 "C203": [
  "partial",
  "Refuted for the memory effect at the first sample: Python takes the coarse code of the last sample, MATLAB that of the first (c203_first_refuted). Proved for every other sample and for the gain error (on the signal without its offset)."
 ],
 "C205": [
  "partial",
  "Refuted: the third harmonic relative to the fundamental, which the cubic term moves (c205_level_refuted). Proved: the exact harmonics (c205_harmonics)."
 ],
 "C206": [
  "partial",
  "Refuted: both files of gen_sinewave_nyquist_zones.m name the first zone, so the second overwrites the first (c206_zones_refuted); the name of gen_sinewave_nonlin_dynamic.m states a frequency that is not the one generated (c206_name_refuted). Proved: the zone in a name is that of the frequency (c206_zone), the name is an odd bin near the target (c206_name)."
 ],
 "C207": [
  "partial",
  "Refuted for the range of R2: the curve is fitted to all samples but judged on the means of bins at their lower edges, and R2 = -9 occurs (c207_r2_range_refuted). The rest of the statement is proved."
 ],
 "C208": [
  "partial",
  "Refuted for full scale with weights that are not whole multiples of one power of two: product and sum add in different orders, and a sample with all bits 1 is not counted (c208_orders_refuted); with one order it is (c208_high). The rest of the statement is proved."
 ],
 "C209": [
  "partial",
  "Refuted for bins beyond 2^51 (c209_large_refuted). Proved for bins up to 2^49 (c209_roundtrip) and for the nearest bin (c209_nearest)."
 ],
 "C210": [
  "partial",
  "Refuted: code 3 at 3.3 V and 12 bits comes back below 3 (c210_exact_refuted). Proved: the error bound (c210_roundtrip), codes up to 2^49 after rounding (c210_codes), exact for references that are powers of two (c210_power)."
 ],
 "C211": [
  "partial",
  "Refuted for negative samples below half a coarse step: -2^-100 gives 0 instead of -1/4096 (c211_tiny_refuted). Proved for all other samples (c211_quantiser, c211_fine, c211_memory, c211_gain, c211_unit_gain) and for the coarse code always (c211_coarse)."
 ],
 "C212": [
  "partial",
  "Refuted for window 'hann' and averageMode 'normal': named explicitly they do not overrule winType or coAvg (c212_hann_refuted). Proved for all other combinations (c212_priority, c212_always) with the rest of the statement."
 ],
 "C213": [
  "proved",
  ""
 ],
 "C214": [
  "partial",
  "Refuted: the first number is taken as the number of harmonics and the second as full scale (c214_numbers), and the documented call fails for every coherent tone in an odd bin (c214_documented_refuted). Proved: the sampling rate, as which the documentation says N_fft is taken, has no effect without a cutoff (c214_rate)."
 ],
 "C215": [
  "proved",
  ""
 ],
 "C216": [
  "partial",
  "Refuted for a folder with pictures of an earlier run: the panel shows them and reports success (c216_stale_refuted). The rest of the statement is proved (c216_all, c216_stop, c216_panel, c216_refused)."
 ],
 "C217": [
  "partial",
  "Refuted: the two weights of capacitors 1 and 4 add up to more than 1 by a rounding error (c217_total_refuted), and two capacitors of 2^1023 give the weights 0 and 0 and an infinite total without an error (c217_overflow_refuted), and a bridge between two capacitors of 2^600 gives an infinite total (c217_unit_refuted). The bounds on each weight and the exact case are proved (c217_weights, c217_exact)."
 ],
 "C218": [
  "proved",
  "Constants are the doubles nearest to 1.76 and 6.02."
 ],
 "C219": [
  "proved",
  "52 and 53 bits are not covered; C219_limit shows 54 is too many."
 ],
 "C204": [
  "proved",
  "Static distortion and harmonic distortion at an offset of one half, as in the scripts."
 ],
 "C220": [
  "proved",
  "C220_converged_refuted: with max_iterations = 0 a fit that misses every sample is reported as converged."
 ]
}