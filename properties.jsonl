{"id": "C01", "title": "Ideal SAR weights are normalised by sum plus one LSB", "statement": "sar_ideal_weights(n) returns n weights in strict binary ratio with weight i equal to 2^(n-1-i)/2^n; with a non-negative redundant_bit r < n it returns n+1 weights in which weight r appears twice in a row; in both cases the weights plus one extra copy of the last weight add up to exactly 1. An n < 1 or an out-of-range redundant bit is an IndexError.", "quantifier": "every resolution n and every redundant_bit value", "why_tests_cant": "Resolutions and positions are unbounded; a test checks a few literal arrays.", "anchors": ["python/src/adctoolbox/models/sar.py: sar_ideal_weights"]}
{"id": "C02", "title": "Noise-free ideal SAR conversion is accurate to one LSB", "statement": "For the ideal n-bit weights (with or without one redundant bit), encoding any v with v_min <= v < v_max with sar_convert without noise and decoding with sar_reconstruct over the same quant_range gives a value in (v - LSB, v] where LSB = full scale times the last weight; no input in range can produce a larger error.", "quantifier": "every resolution, redundancy position, increasing quant_range and real input in range", "why_tests_cant": "Inputs are a continuum; the worst case sits at code edges that samples miss.", "anchors": ["python/src/adctoolbox/models/sar.py: sar_convert, sar_reconstruct, sar_ideal_weights"]}
{"id": "C03", "title": "SAR accuracy holds for any covering weight array", "statement": "For any non-negative CDAC weights such that each weight is at most the sum of the later weights plus d, every input from 0 up to (but excluding) the weight sum plus d (in normalised units) is reconstructed with an error in [0, d); conversely, if some weight exceeds the sum of the later ones plus d then some in-range input has error at least d.", "quantifier": "every weight vector, every input", "why_tests_cant": "Quantifies over all weight vectors (mismatch, sub-radix-2) and all inputs.", "anchors": ["python/src/adctoolbox/models/sar.py: sar_convert, sar_reconstruct"]}
{"id": "C04", "title": "SAR conversion is monotonic", "statement": "With no noise and non-negative weights, a larger input never gives a smaller reconstructed output (same weights used to encode and decode), and for arbitrary weights the raw code never decreases lexicographically.", "quantifier": "every pair of inputs and every weight vector", "why_tests_cant": "Monotonicity is a relation between all pairs of inputs.", "anchors": ["python/src/adctoolbox/models/sar.py: sar_convert, sar_reconstruct"]}
{"id": "C05", "title": "SAR reconstruction is idempotent, bounded and saturates", "statement": "With no noise and non-negative weights, converting a reconstructed value reconstructs to the same value; every reconstruction lies in [v_min, v_min + FS*sum(weights)]; inputs below v_min reconstruct to v_min and inputs at or above the top reconstruct to the top.", "quantifier": "every input, weight vector and quant_range", "why_tests_cant": "Universal over inputs and weights.", "anchors": ["python/src/adctoolbox/models/sar.py: sar_convert, sar_reconstruct"]}
{"id": "C06", "title": "SAR redundancy absorbs bounded comparator errors", "statement": "If at every bit trial the comparator noise stays within [-m_j, p], where m_j is the slack between weight j and the sum of later weights plus d, then whatever the noise sequence does the final error v - reconstruction lies in [-p, d): late bits correct early wrong-low decisions completely, and wrong-high decisions cost at most p.", "quantifier": "every noise sequence inside the bounds, every input, every weight vector", "why_tests_cant": "Noise sequences are unbounded adversarial schedules; Monte-Carlo tests sample only typical ones.", "anchors": ["python/src/adctoolbox/models/sar.py: sar_convert, sar_reconstruct"]}
{"id": "C07", "title": "Capacitor mismatch model: validation and scaling", "statement": "sar_apply_cap_mismatch fails with ValueError exactly on empty, non-finite or non-positive weights, on negative or non-finite sigma, or on bad cap_units; otherwise each output weight is w_i*(1 + sigma*z_i/sqrt(units_i)), so sigma = 0 returns the weights unchanged, scaling all weights by c > 0 scales the result by c, and a bit of n units has 1/sqrt(n) of the relative deviation of a one-unit bit for the same draw.", "quantifier": "every weight vector, sigma and draw sequence", "why_tests_cant": "Random draws and weight values range over all reals.", "anchors": ["python/src/adctoolbox/models/sar.py: sar_apply_cap_mismatch, sar_apply_mismatch"]}
{"id": "C08", "title": "CDAC capacitor-to-weight conversion conserves charge", "statement": "For non-negative capacitors convert_cap_to_weight returns weights that are each non-negative and whose sum is at most 1; the total capacitance it returns is non-negative.", "quantifier": "every number of bits, every split/bridge/parasitic configuration", "why_tests_cant": "Topologies and values are unbounded; the loop carries state across segments.", "anchors": ["python/src/adctoolbox/fundamentals/convert_cap_to_weight.py: convert_cap_to_weight"]}
{"id": "C09", "title": "CDAC weights: closed form, scale invariance, length check", "statement": "Without bridge capacitors weight i is C_i divided by the sum of all bit and parasitic capacitors, which is also the returned total; multiplying all capacitors by one positive constant leaves the weights unchanged and scales the total; inputs of different lengths raise ValueError.", "quantifier": "all capacitor arrays", "why_tests_cant": "Universal over arrays and scale factors.", "anchors": ["python/src/adctoolbox/fundamentals/convert_cap_to_weight.py: convert_cap_to_weight"]}
{"id": "C10", "title": "Coherent frequency search returns the nearest admissible bin", "statement": "find_coherent_frequency returns a positive bin coprime to n_fft (odd when force_odd) lying inside the search window, no admissible bin (in or outside the window) is strictly nearer the target, ties go to the lower bin, the returned frequency is bin*fs/n_fft, and it raises ValueError exactly when the window contains no admissible bin.", "quantifier": "every fs, fin_target, n_fft, force_odd and search radius", "why_tests_cant": "Existence/optimality over all integers cannot be enumerated.", "anchors": ["python/src/adctoolbox/fundamentals/frequency.py: find_coherent_frequency"]}
{"id": "C11", "title": "Frequency folding lands in the first Nyquist zone", "statement": "fold_frequency_to_nyquist(f, fs) with fs > 0 is in [0, fs/2], equals |f - k*fs| for some integer k, is unchanged by adding multiples of fs or negating f, leaves [0, fs/2] fixed, and is idempotent.", "quantifier": "every real frequency and positive sampling rate", "why_tests_cant": "Universal over reals; ties of round-half-even at odd multiples of fs/2.", "anchors": ["python/src/adctoolbox/fundamentals/frequency.py: fold_frequency_to_nyquist"]}
{"id": "C12", "title": "Bin folding lands in [0, n/2]", "statement": "fold_bin_to_nyquist(b, n) for n > 0 is the distance from b to the nearest multiple of n, hence in [0, n/2], for integer and fractional b alike.", "quantifier": "every bin, every FFT length", "why_tests_cant": "Universal over bins and lengths; fails only in a narrow strip for odd n.", "anchors": ["python/src/adctoolbox/fundamentals/frequency.py: fold_bin_to_nyquist"]}
{"id": "C13", "title": "Bin/frequency and code conversions are consistent", "statement": "freq_to_bin(bin_to_freq(k)) = k for every integer bin; the returned bin is always within half a bin of the exact position; lsb_to_volts and volts_to_lsb are mutually inverse for positive full scale; snr_to_enob and enob_to_snr are mutually inverse and strictly increasing.", "quantifier": "all reals/integers and positive fs, N", "why_tests_cant": "Universal over values.", "anchors": ["python/src/adctoolbox/fundamentals/units.py: bin_to_freq, freq_to_bin, lsb_to_volts, volts_to_lsb, snr_to_enob, enob_to_snr"]}
{"id": "C14", "title": "Decibel conversions are mutually inverse", "statement": "db_to_mag/mag_to_db and db_to_power/power_to_db are mutually inverse on positive values, strictly monotone, and turn products into sums; dbm/vrms/mw conversions round-trip for positive impedance.", "quantifier": "all positive reals", "why_tests_cant": "Universal over reals.", "anchors": ["python/src/adctoolbox/fundamentals/units.py"]}
{"id": "C15", "title": "NSD and SNR conversions are inverse and the two implementations agree", "statement": "snr_to_nsd and nsd_to_snr invert each other for the same fs, osr and signal level; the fundamentals.units formulas and the fundamentals.snr_nsd formulas give equal values for every valid input; doubling the OSR moves NSD by exactly 10*log10(2).", "quantifier": "all positive fs, osr and all levels", "why_tests_cant": "Two independent implementations must agree everywhere.", "anchors": ["python/src/adctoolbox/fundamentals/snr_nsd.py: snr_to_nsd, nsd_to_snr", "python/src/adctoolbox/fundamentals/units.py: snr_to_nsd, nsd_to_snr"]}
{"id": "C16", "title": "Amplitude-to-SNR conversion", "statement": "amplitudes_to_snr returns infinity exactly when the noise amplitude is zero, otherwise 20*log10 of the RMS ratio plus 10*log10(osr) gain when osr > 1; it is invariant under a common scale of signal and noise and decreasing in the noise amplitude.", "quantifier": "all positive amplitudes and osr", "why_tests_cant": "Universal over reals.", "anchors": ["python/src/adctoolbox/fundamentals/snr_nsd.py: amplitudes_to_snr"]}
{"id": "C17", "title": "Deinterleave and interleave are inverse", "statement": "deinterleave(x, M) succeeds exactly when x is 1-D, M >= 1 and M divides len(x); channel m then holds x[m], x[m+M], ...; interleave(deinterleave(x, M)) = x and deinterleave(interleave(c), M) = c for every rectangular c with M channels.", "quantifier": "every signal length and channel count", "why_tests_cant": "Universal over lengths, channel counts and content.", "anchors": ["python/src/adctoolbox/timeinterleave/deinterleave.py: deinterleave, interleave"]}
{"id": "C18", "title": "Foreground calibration undoes offset and gain mismatch", "statement": "With negligible skews, applying calibrate_foreground with the true per-channel offsets and non-zero gains to a signal in which every sub-ADC added its offset and multiplied its gain returns exactly the original signal; parameter vectors of a wrong size raise ValueError.", "quantifier": "every signal, channel count and parameter set", "why_tests_cant": "Universal over signals and parameters.", "anchors": ["python/src/adctoolbox/timeinterleave/calibrate_foreground.py: calibrate_foreground"]}
{"id": "C19", "title": "Extracted mismatch is normalised", "statement": "The gains returned by extract_mismatch_sine average to exactly 1 and its skews average to exactly 0; offsets are the per-channel means, and adding a constant to one channel moves only its offset.", "quantifier": "every capture", "why_tests_cant": "Universal over data.", "anchors": ["python/src/adctoolbox/timeinterleave/extract_mismatch_sine.py: extract_mismatch_sine"]}
{"id": "C20", "title": "Farrow taps reproduce polynomials", "statement": "The Lagrange taps used by fractional_delay_farrow sum to 1 for every delay and interpolate every polynomial of degree below n_taps exactly: away from the record edges the output equals the polynomial evaluated at t - delay.", "quantifier": "every odd tap count, fractional delay and polynomial", "why_tests_cant": "Universal over tap counts and real delays.", "anchors": ["python/src/adctoolbox/timeinterleave/fractional_delay.py: fractional_delay_farrow, _lagrange taps"]}
{"id": "C21", "title": "Farrow integer delays are pure shifts", "statement": "For an integer delay D, fractional_delay_farrow shifts the signal by D samples filling with zeros; D = 0 is the identity; the output has the input's length whenever n_taps <= len(x); even or non-positive n_taps raise ValueError.", "quantifier": "every signal, delay and tap count", "why_tests_cant": "Universal; the length claim fails only for short signals.", "anchors": ["python/src/adctoolbox/timeinterleave/fractional_delay.py: fractional_delay_farrow, _integer_shift_zero_pad"]}
{"id": "C22", "title": "Predicted spurs are exactly the interleaving images", "statement": "predict_spurs returns 2(M-1) spurs sorted by frequency, all in [0, fs/2], at the folds of k*fs/M and fin + k*fs/M for k = 1..M-1; offset spurs all vanish exactly when the offsets are equal and gain/skew spurs exactly when the complex channel gains are equal; size mismatches raise ValueError.", "quantifier": "every channel count and parameter set", "why_tests_cant": "Universal over M and parameters.", "anchors": ["python/src/adctoolbox/timeinterleave/predict_spurs.py: predict_spurs"]}
{"id": "C23", "title": "In-band bin count", "statement": "rfft_inband_bin_count(n, osr) is between 1 and n//2+1, is non-increasing in osr, equals n//2+1 for osr <= 1, counts exactly the bins k with k <= n/(2*osr) up to the documented snap tolerance, and rejects non-positive arguments.", "quantifier": "every n and real osr", "why_tests_cant": "Universal over real OSR with an isclose snap near integers.", "anchors": ["python/src/adctoolbox/spectrum/_bin_ranges.py: rfft_inband_bin_count"]}
{"id": "C24", "title": "Harmonic bins are valid spectrum indices", "statement": "Every located harmonic bin is within half a bin of the true folded position of its multiple of the fundamental and is a valid index of the one-sided spectrum.", "quantifier": "every fundamental position, order and even FFT length", "why_tests_cant": "Universal over fractional positions.", "anchors": ["python/src/adctoolbox/spectrum/_harmonics.py: _locate_harmonic_bins"]}
{"id": "C25", "title": "THD counts each distinct harmonic bin once", "statement": "In the THD computed by compute_spectrum no spectrum bin that belongs to the fundamental or DC window, and no harmonic position that was already counted, contributes again; the result is the sum of reported contributions and is non-negative.", "quantifier": "every spectrum, fundamental and harmonic placement", "why_tests_cant": "Aliased placements are combinatorial.", "anchors": ["python/src/adctoolbox/spectrum/_harmonics.py: _calculate_harmonic_power", "python/src/adctoolbox/spectrum/compute_spectrum.py"]}
{"id": "C26", "title": "Signal, noise and spur are a consistent partition; SFDR >= SNDR", "statement": "In compute_spectrum the in-band power splits exactly into signal window, excluded DC window and noise-plus-distortion; the reported spur is an in-band bin outside the signal window with maximal power there, so with the spur outside the DC window SFDR is never below SNDR.", "quantifier": "every non-negative power spectrum and side_bin", "why_tests_cant": "Universal over spectra.", "anchors": ["python/src/adctoolbox/spectrum/compute_spectrum.py", "python/src/adctoolbox/spectrum/_harmonics.py: _extract_highest_spur"]}
{"id": "C27", "title": "quick_sndr agrees with compute_spectrum", "statement": "For every 1-D capture and explicit non-negative side_bin, quick_sndr returns exactly the SNDR and ENOB that compute_spectrum(osr=1, no cutoff, no assumed power) returns.", "quantifier": "every capture, window, scale and side_bin", "why_tests_cant": "Agreement of two code paths over all inputs.", "anchors": ["python/src/adctoolbox/spectrum/quick_sndr.py: quick_sndr", "python/src/adctoolbox/spectrum/compute_spectrum.py: compute_spectrum"]}
{"id": "C28", "title": "Automatic side-bin stays inside the band", "statement": "The automatically chosen side_bin never reaches below bin 0 or beyond the last in-band bin around the fundamental, and is never negative.", "quantifier": "every spectrum and window", "why_tests_cant": "Universal over spectra.", "anchors": ["python/src/adctoolbox/spectrum/_side_bin_auto.py: _detect_side_bin_auto"]}
{"id": "C29", "title": "Noise estimate is positive and ignores the signal window", "statement": "For methods 0-3 the noise power estimate is at least 1e-15, does not depend on the power in the signal and DC windows, and method 0 lies between the smallest and largest of methods 1-3; unknown methods raise ValueError.", "quantifier": "every spectrum, method and window", "why_tests_cant": "Universal over spectra.", "anchors": ["python/src/adctoolbox/spectrum/_estimate_noise_power.py: _estimate_noise_power"]}
{"id": "C30", "title": "OSR sweep equals direct in-band integration", "statement": "For every list of OSR values in any order (with repeats), the SNDR reported at each position equals 10*log10(signal power / sum of the error spectrum over that OSR's own in-band bins); SNDR and SFDR never decrease when OSR increases; permuting the OSR list permutes the results.", "quantifier": "every error spectrum and OSR list", "why_tests_cant": "The implementation accumulates incrementally over a sorted order; correctness is a loop invariant over all lists.", "anchors": ["python/src/adctoolbox/spectrum/sweep_performance_vs_osr.py: sweep_performance_vs_osr"]}
{"id": "C31", "title": "Ramp DNL/INL laws", "statement": "On success compute_inl_from_ramp returns DNL >= -1 everywhere with mean exactly 0, counts equal to the number of samples of each analysed code, missing codes exactly those with DNL = -1, INL one longer than DNL starting and ending at 0 (endpoint and raw modes), with consecutive differences equal to DNL; the result depends only on the multiset of codes; it fails exactly on the documented bad inputs.", "quantifier": "every code list and option", "why_tests_cant": "Universal over code histograms.", "anchors": ["python/src/adctoolbox/aout/compute_inl_from_ramp.py: compute_inl_from_ramp"]}
{"id": "C32", "title": "Sine-histogram DNL/INL laws", "statement": "compute_inl_from_sine returns DNL >= -1, INL is the running sum of DNL, all three arrays have equal length, and a code that never occurs is reported with DNL = -1 at that very code.", "quantifier": "every code capture", "why_tests_cant": "Universal over histograms; the label of a missing code is an off-by-one question.", "anchors": ["python/src/adctoolbox/aout/compute_inl_from_sine.py: compute_inl_from_sine"]}
{"id": "C33", "title": "Error autocorrelation is normalised and bounded", "statement": "The normalised autocorrelation is symmetric in the lag, equals 1 at lag 0, and never exceeds 1 in magnitude.", "quantifier": "every non-zero error sequence and lag", "why_tests_cant": "Universal over sequences; the unbiased estimator can break the bound.", "anchors": ["python/src/adctoolbox/aout/analyze_error_autocorr.py: analyze_error_autocorr"]}
{"id": "C34", "title": "Value-binned error statistics are consistent", "statement": "In rearrange_error_by_value every sample is assigned a bin in [0, n_bins-1], counts add up to the number of unclipped samples, count-weighted bin means add up to the total error of those samples, and in every non-empty bin |mean| <= rms.", "quantifier": "every signal, error, bin count and clip setting", "why_tests_cant": "Universal over data.", "anchors": ["python/src/adctoolbox/aout/rearrange_error_by_value.py: rearrange_error_by_value"]}
{"id": "C35", "title": "AM/PM split reproduces the fitted error power", "statement": "The AM, PM and base variances reported by rearrange_error_by_phase are non-negative, at most one of AM and PM is non-zero in base-noise mode, and whenever the fitted power A*cos(2phi)+B is non-negative at every phase the three terms reproduce it at every phase.", "quantifier": "every fitted A, B and phase", "why_tests_cant": "Universal over reals.", "anchors": ["python/src/adctoolbox/aout/rearrange_error_by_phase.py: rearrange_error_by_phase"]}
{"id": "C36", "title": "Harmonic decomposition adds back to the signal", "statement": "fundamental_signal + harmonic_signal + noise_residual equals the averaged input sample by sample whatever the fit returns; harmonic phases lie in [-pi, pi) with the fundamental at 0.", "quantifier": "every signal and every least-squares result", "why_tests_cant": "Universal over signals.", "anchors": ["python/src/adctoolbox/aout/decompose_harmonic_error.py: decompose_harmonic_error"]}
{"id": "C37", "title": "Rank-deficiency patch preserves the reconstructed signal", "statement": "For whatever rank decisions are made, weights solved on the patched bit matrix and mapped back to the original bits reproduce exactly the same output on every sample; every bit that is not merged or kept gets weight 0.", "quantifier": "every bit matrix, nominal weights, rank oracle and solution", "why_tests_cant": "Data-dependent merging over all matrices.", "anchors": ["python/src/adctoolbox/calibration/_patch_rank_deficiency.py"]}
{"id": "C38", "title": "Column scaling for conditioning is undone exactly", "statement": "Solving with scaled columns and un-scaling the weights gives the same reconstructed output as using the unscaled columns with the recovered weights; scales are powers of ten and never zero.", "quantifier": "every bit matrix and solution", "why_tests_cant": "Universal over matrices.", "anchors": ["python/src/adctoolbox/calibration/_scale_columns_for_conditioning.py"]}
{"id": "C39", "title": "Lite sine calibration recovers the true weights", "statement": "If the true weights map the bits to an exact sine of the given frequency with non-zero cosine part and the regression matrix has full column rank, calibrate_weight_sine_lite returns the true weights divided by the sine amplitude, up to the sign that makes the sum non-negative; the returned weights always have non-negative sum; freq > 0.5 raises ValueError.", "quantifier": "every bit matrix, weight vector, amplitude, phase and offset", "why_tests_cant": "Exact recovery over all data sets.", "anchors": ["python/src/adctoolbox/calibration/calibrate_weight_sine_lite.py: calibrate_weight_sine_lite"]}
{"id": "C40", "title": "Calibration post-processing invariants", "statement": "calibrate_weight_sine returns weights with non-negative sum; calibrated_signal is the bits times the returned weights (minus nothing hidden) and error = calibrated - offset - ideal sample by sample for a single data set.", "quantifier": "every solver output", "why_tests_cant": "Universal over solver outputs.", "anchors": ["python/src/adctoolbox/calibration/_post_process.py: _post_process"]}
{"id": "C41", "title": "Overflow analysis ranges", "statement": "For binary codes and non-negative weights with positive tail sums, every normalised residue reported by analyze_overflow lies in [0, 1], a sample counts as underflow at bit i exactly when all remaining weighted bits are 0 and as overflow exactly when all are 1 (positive weights), percentages lie in [0, 100] and their sum does not exceed 100; at the last bit it is exactly 100; weight length mismatch raises ValueError.", "quantifier": "every code matrix and weight vector", "why_tests_cant": "Universal over matrices.", "anchors": ["python/src/adctoolbox/dout/analyze_overflow.py: analyze_overflow"]}
{"id": "C42", "title": "Weight-radix effective resolution", "statement": "effres is unchanged by scaling or sign-flipping or permuting the weights, is at least 1, equals n for the n-bit binary array; the refined scale is positive and has rounding error no larger than the initial scale; radix[i]*|w[i]| = |w[i-1]|.", "quantifier": "every weight vector without zeros", "why_tests_cant": "Universal over vectors.", "anchors": ["python/src/adctoolbox/dout/analyze_weight_radix.py: analyze_weight_radix"]}
{"id": "C43", "title": "Residual scatter telescopes", "statement": "The residual after x bits minus the residual after y >= x bits is exactly the weighted sum of bits x..y-1; residual 0 is the signal; with default weights and codes that encode the signal exactly the last residual is 0; a length mismatch raises ValueError.", "quantifier": "every signal, bit matrix and pair list", "why_tests_cant": "Universal over data.", "anchors": ["python/src/adctoolbox/dout/plot_residual_scatter.py: plot_residual_scatter"]}
{"id": "C44", "title": "Skill name resolution", "statement": "resolve_skill_names returns a duplicate-free list of bundled skills in first-mention order, fails exactly when some requested name is neither an alias nor a skill, --all wins over --dev which wins over names, and an empty request means the default skill.", "quantifier": "every list of names and flag combination", "why_tests_cant": "Universal over name lists.", "anchors": ["python/src/adctoolbox/skill_cli.py: resolve_skill_names"]}
{"id": "C45", "title": "Skill installation never clobbers without --force", "statement": "Without overwrite, install_bundled_skills leaves every pre-existing path unchanged at every crash point, and raises FileExistsError exactly when a requested target exists; with overwrite only the requested targets change; paths outside the requested targets and the install root are never touched.", "quantifier": "every file system, request and crash point", "why_tests_cant": "Crash points and file systems are unbounded.", "anchors": ["python/src/adctoolbox/skill_cli.py: install_bundled_skills"]}
{"id": "C46", "title": "Status after a successful install is synced", "statement": "After install_bundled_skills succeeds, skill_status for the same request and destination reports every row installed and synced, mode editable-link or copy according to the editable flag; before, a missing target is reported missing and not synced.", "quantifier": "every file system and request", "why_tests_cant": "Universal over file systems.", "anchors": ["python/src/adctoolbox/skill_cli.py: skill_status, install_bundled_skills"]}
{"id": "C47", "title": "Input validation accepts exactly well-formed data", "statement": "validate_aout_data accepts exactly non-empty arrays of a real (non-boolean) number type with finite, non-constant contents, at most two axes and a longest axis of at least min_samples; validate_dout_data accepts exactly non-empty 2-D arrays of a real number type holding only zeros and ones with at least min_samples rows; every rejection is a ValueError; the stuck-bit warnings name exactly the constant columns.", "quantifier": "every array", "why_tests_cant": "Universal over shapes, dtypes and contents.", "anchors": ["python/src/adctoolbox/fundamentals/validate.py: validate_aout_data, validate_dout_data"]}
{"id": "C48", "title": "Quantiser model laws", "statement": "apply_quantization_noise maps every sample to one of 2^n levels inside the range, is monotone and idempotent, and for inputs inside the range the error is within one LSB; out-of-range inputs saturate.", "quantifier": "every input, resolution and range", "why_tests_cant": "Universal over reals.", "anchors": ["python/src/adctoolbox/siggen/nonidealities.py: apply_quantization_noise"]}
{"id": "C49", "title": "Noise shaping adds exactly the filtered quantisation error", "statement": "apply_noise_shaping output minus its input equals the quantisation error filtered by the noise transfer function; the built-in order-L transfer function is (1 - z^-1)^L, so its coefficients sum to 0; orders outside 1..5 raise ValueError.", "quantifier": "every signal and order", "why_tests_cant": "Universal over signals.", "anchors": ["python/src/adctoolbox/siggen/nonidealities.py: apply_noise_shaping"]}
{"id": "C50", "title": "Brick-wall filter passes covered bins and removes the rest", "statement": "For every signal and band table, extract_freq_components multiplies each DFT bin by the average of its mask and its mirror's mask; every bin below the top one (and Nyquist at even length) covered by a rounded band is passed unchanged and every other one removed; the mask is conjugate-symmetric and the full band [0, 0.5] is the identity.", "quantifier": "every length, signal and band list", "why_tests_cant": "Universal over lengths; depends on parity: at odd length the mirror of the top bin is never set.", "anchors": ["python/src/adctoolbox/spectrum/extract_freq_components.py: extract_freq_components"]}
{"id": "C51", "title": "FFT input preparation normalises consistently", "statement": "After _prepare_fft_input every row has mean 0; scaling the data by a positive factor (auto range) or shifting it leaves the result unchanged; the values stay within +-1.", "quantifier": "every non-constant capture", "why_tests_cant": "Universal over data.", "anchors": ["python/src/adctoolbox/spectrum/_prepare_fft_input.py: _prepare_fft_input"]}
{"id": "C52", "title": "Sine fit bookkeeping", "statement": "fit_sine_4param returns residuals equal to data minus fitted signal, a non-negative amplitude, at most max_iterations refinements, and after any refinement a frequency strictly inside (0, 0.5); with max_iterations = 0 the frequency estimate is used unchanged.", "quantifier": "every signal and every least-squares result", "why_tests_cant": "Universal over signals and solver outputs.", "anchors": ["python/src/adctoolbox/fundamentals/fit_sine_4param.py: fit_sine_4param"]}
{"id": "C53", "title": "Example copy command never overwrites", "statement": "copy_examples exits with an error and no change exactly when the destination exists, an ancestor is not a directory, or the bundled examples are missing; otherwise the destination afterwards has exactly the bundled paths that contain neither __pycache__ nor a *.pyc name, with the same content. Nothing that existed before is changed at any crash point.", "quantifier": "every file system", "why_tests_cant": "Universal over file systems and crash points.", "anchors": ["python/src/adctoolbox/cli.py: copy_examples"]}
{"id": "C54", "title": "Fundamental location interpolates within half a bin", "statement": "_locate_fundamental returns the in-band non-DC bin of maximal power, and the interpolated position is within half a bin of it whenever the peak is at least both neighbours.", "quantifier": "every spectrum", "why_tests_cant": "Universal over spectra; DC leakage next to bin 1 breaks the unguarded claim.", "anchors": ["python/src/adctoolbox/spectrum/_locate_fundamental.py: _locate_fundamental"]}
{"id": "C55", "title": "Known-frequency sine calibration recovers the true weights", "statement": "If bits times true weights is an exact sine (plus modelled harmonics) at the given frequency with full-rank regression, the single-data-set known-frequency calibration returns the true weights divided by the fundamental amplitude up to overall sign.", "quantifier": "every bit matrix, weight vector and harmonic content", "why_tests_cant": "Exact recovery over all data sets.", "anchors": ["python/src/adctoolbox/calibration/_lstsq_solver.py", "python/src/adctoolbox/calibration/calibrate_weight_sine.py"]}
{"id": "C56", "title": "Figures of merit scale as documented", "statement": "Walden FoM is positive, halves with each extra effective bit, is proportional to power and invariant when power and rate scale together; Schreier FoM is SNDR + 10*log10(BW/P), invariant when power and bandwidth scale together; the kT/C limit gains 10*log10(k) when the capacitor and 20*log10(k) when the full scale grows k-fold; the jitter limit loses 20*log10(k) when frequency or jitter grows k-fold; a sine amplitude A into z ohm has power A^2/(2z), consistently with the dBm conversion of its RMS value.", "quantifier": "all positive reals", "why_tests_cant": "Scaling laws over all reals.", "anchors": ["python/src/adctoolbox/fundamentals/metrics.py", "python/src/adctoolbox/fundamentals/units.py: sine_amplitude_to_power, vrms_to_dbm"]}
{"id": "C57", "title": "FFT fractional delay is exact for band-limited records", "statement": "fractional_delay_fft delays every record made of tones strictly below Nyquist exactly, for every real delay; a whole-sample delay is a circular shift of any record; delays add up on odd-length records (and a delay followed by its opposite restores them) but not on even-length ones, where the Nyquist component is damaged.", "quantifier": "every length, tone set, real delay and record", "why_tests_cant": "Universal over real delays and records; the even-length loss shows only with Nyquist energy.", "anchors": ["python/src/adctoolbox/timeinterleave/fractional_delay.py: fractional_delay_fft"]}
{"id": "C58", "title": "Predicted spur amplitudes match the interleaved signal", "statement": "The gain/skew entries of predict_spurs are the exact amplitudes of the image sinusoids in the interleaved capture of a tone; offset entries are the amplitudes of the offset pattern's sinusoids.", "quantifier": "every channel count, gain, skew, offset and tone", "why_tests_cant": "Universal over parameters; a factor-two error in one spur family needs an independent decomposition to see.", "anchors": ["python/src/adctoolbox/timeinterleave/predict_spurs.py: predict_spurs"]}
{"id": "C59", "title": "Mismatch extraction recovers the true mismatch", "statement": "On a coherent tone captured by channels with positive gains, any offsets and skews (neighbouring channels less than half a period apart in phase), extract_mismatch_sine returns exactly the offsets, the gains over their mean, the skews minus their mean and the amplitude times the mean gain.", "quantifier": "every channel count, record length, coherent bin and mismatch", "why_tests_cant": "Universal over mismatch parameters and record geometry.", "anchors": ["python/src/adctoolbox/timeinterleave/extract_mismatch_sine.py: extract_mismatch_sine"]}
{"id": "C60", "title": "Foreground calibration is exact end to end", "statement": "calibrate_foreground with the fft method and the true parameters restores every input periodic over the record and band-limited below fs/(2M); with the parameters extract_mismatch_sine measured on a coherent tone it returns that tone scaled by the mean gain and shifted by the mean skew.", "quantifier": "every signal, channel count and mismatch", "why_tests_cant": "Universal over signals and parameters; composition of three functions.", "anchors": ["python/src/adctoolbox/timeinterleave/calibrate_foreground.py: calibrate_foreground", "python/src/adctoolbox/timeinterleave/extract_mismatch_sine.py: extract_mismatch_sine", "python/src/adctoolbox/timeinterleave/fractional_delay.py: fractional_delay_fft"]}
{"id": "C61", "title": "Coherent tones are measured exactly", "statement": "On a capture of any number of coherent, resolvable tones plus a constant, with any of the six cosine-sum windows and a side_bin at least the window's default, compute_spectrum finds the strongest tone's bin exactly, reports exactly its squared relative amplitude as signal power, the sum of the other in-band tones' squared amplitudes as noise and distortion, the strongest other tone as spur, and the tones on counted harmonic bins as THD.", "quantifier": "every record length, tone set, phase, offset, scale, window, osr and side_bin", "why_tests_cant": "Universal over tone sets and windows; a wrong window correction constant shifts every reading by a fraction of a dB.", "anchors": ["python/src/adctoolbox/spectrum/compute_spectrum.py: compute_spectrum", "python/src/adctoolbox/spectrum/_window.py: _create_window, _calculate_power_correction", "python/src/adctoolbox/spectrum/_spectrum_averaging.py: _power_average", "python/src/adctoolbox/spectrum/_harmonics.py"]}
{"id": "C62", "title": "The corrected spectrum conserves power", "statement": "For every record and every window with non-zero sum, the corrected one-sided spectrum sums to twice the mean square of the windowed data divided by the mean square of the window.", "quantifier": "every record, window, length parity and number of averaged rows", "why_tests_cant": "Universal over data; DC and Nyquist bins need the right halving for both parities.", "anchors": ["python/src/adctoolbox/spectrum/_spectrum_averaging.py: _power_average", "python/src/adctoolbox/spectrum/_window.py: _calculate_power_correction"]}
{"id": "C63", "title": "The OSR sweep's SNDR is the ratio of signal power to in-band error power", "statement": "At OSR 1 the reported SNDR of a capture whose residual is a coherent tone equals 10*log10 of signal power over the residual's mean square.", "quantifier": "every residual", "why_tests_cant": "A constant factor in the error spectrum's scale is invisible to tests that only check monotonicity or shape.", "anchors": ["python/src/adctoolbox/spectrum/sweep_performance_vs_osr.py: sweep_performance_vs_osr"]}
{"id": "C64", "title": "Ramp DNL and INL track the converter's transition levels", "statement": "For every converter with non-decreasing transition levels and every uniform rising ramp that covers the analysed codes, each DNL value is within two samples (2 / mean count per code) of the true code width minus one, and each uncorrected INL value is within the same bound of the true transition's deviation; the INL error does not accumulate over codes.", "quantifier": "every set of transition levels, ramp start, step and length, analysed range", "why_tests_cant": "Universal over converters and ramp alignments; accumulation of the error over a long code axis is invisible on small examples.", "anchors": ["python/src/adctoolbox/aout/compute_inl_from_ramp.py: compute_inl_from_ramp"]}
{"id": "C65", "title": "Sine-histogram DNL/INL track the converter's transition levels", "statement": "For a sine sampled at N evenly spaced phases in any order, through any converter whose interior transitions the sine reaches, each estimated level is within pi/N (in amplitudes) of the true transition; every reported DNL is within 4*pi*n*A/(N*interior range) of the true DNL of its code times n/(n-2), and so is every INL value when nothing is clamped: the error does not accumulate.", "quantifier": "every converter, amplitude, offset, phase, record length and exclusion", "why_tests_cant": "Universal over converters and phases; constant gain factors and accumulation are invisible on one capture.", "anchors": ["python/src/adctoolbox/aout/compute_inl_from_sine.py: compute_inl_from_sine"]}
{"id": "C66", "title": "Harmonic-distortion requests produce the requested harmonics", "statement": "apply_static_nonlinearity is the stated polynomial about DC, and apply_static_nonlinearity_hd on the clean sine produces a distortion whose k-th harmonic is the requested number of dB below the fundamental.", "quantifier": "every amplitude, offset, frequency and requested level", "why_tests_cant": "A harmonic level read from one spectrum cannot separate the fundamental's own change from rounding.", "anchors": ["python/src/adctoolbox/siggen/nonidealities.py: apply_static_nonlinearity", "python/src/adctoolbox/siggen/nonidealities.py: apply_static_nonlinearity_hd"]}
{"id": "C67", "title": "Two-stage pipeline gain error", "statement": "With unit gain both modes quantise within 2^-lsb_bits; otherwise the extra error is (gain-1) times the coarse level (coarse_path) or times a residue in [0, 2^-msb_bits) (residue_path); the dynamic model without cubic term equals the static one; bad modes raise ValueError.", "quantifier": "every signal, gain, bit split and mode", "why_tests_cant": "Universal over reals and bit splits.", "anchors": ["python/src/adctoolbox/siggen/nonidealities.py: apply_ra_gain_error", "python/src/adctoolbox/siggen/nonidealities.py: apply_ra_gain_error_dynamic"]}
{"id": "C68", "title": "Incomplete settling stays between the previous output and the input", "statement": "Each output lies between the previous output and the present input at the fraction 1-exp(-T/tau_i), never exceeds the input's largest excursion from DC, approaches a constant geometrically, and a record shorter than N raises IndexError.", "quantifier": "every signal, tracking time, time constant and coefficient >= 0", "why_tests_cant": "Recursive state: a bound over all record lengths.", "anchors": ["python/src/adctoolbox/siggen/nonidealities.py: apply_incomplete_sampling"]}
{"id": "C69", "title": "Reference droop is a fading sum with a bounded relative error", "statement": "Sample i is scaled about DC by 1 minus strength times the exponentially fading sum of all |x_k-DC| up to i, hence the relative error is in [0, strength*M/(1-exp(-1/tau))].", "quantifier": "every signal, time constant and strength", "why_tests_cant": "Infinite-impulse-response bound over all record lengths.", "anchors": ["python/src/adctoolbox/siggen/nonidealities.py: apply_reference_error"]}
{"id": "C70", "title": "Percentile clipping", "statement": "For p in [0,50] there are thresholds lo <= hi such that samples between are kept and others moved to the nearer one, with at most ceil((n-1)p/100) samples on each side; p=0 is the identity; p outside [0,100] raises ValueError; p in (50,100] flattens the record to one value.", "quantifier": "every record and percentage", "why_tests_cant": "Universal over records with ties and any length.", "anchors": ["python/src/adctoolbox/siggen/nonidealities.py: apply_clipping"]}
{"id": "C71", "title": "Impairments of strength zero leave the signal alone", "statement": "Thermal noise, jitter, glitches, AM noise, AM tone, static nonlinearity and reference droop of strength zero return their input; the memory effect returns the 4+12-bit quantised input plus strength times the previous sample's coarse code (the last sample's for the first).", "quantifier": "every signal and every random draw", "why_tests_cant": "Universal over draws and signals.", "anchors": ["python/src/adctoolbox/siggen/nonidealities.py: apply_thermal_noise", "python/src/adctoolbox/siggen/nonidealities.py: apply_jitter", "python/src/adctoolbox/siggen/nonidealities.py: apply_glitch", "python/src/adctoolbox/siggen/nonidealities.py: apply_am_noise", "python/src/adctoolbox/siggen/nonidealities.py: apply_am_tone", "python/src/adctoolbox/siggen/nonidealities.py: apply_memory_effect"]}
{"id": "C72", "title": "Bit activity is the share of ones and determines the mean code", "statement": "For binary records analyze_bit_activity reports the percentage of rows with bit j set, in [0,100]; weighting the activities by any weights gives exactly the mean reconstructed code.", "quantifier": "every bit matrix and weight vector", "why_tests_cant": "Universal over matrices.", "anchors": ["python/src/adctoolbox/dout/analyze_bit_activity.py: analyze_bit_activity"]}
{"id": "C73", "title": "Synced means the installed copy is identical", "statement": "skill_status reports a copy as synced exactly when every path of the bundled tree and of the installed copy has the same kind and content.", "quantifier": "every pair of directory trees", "why_tests_cant": "Universal over trees.", "anchors": ["python/src/adctoolbox/skill_cli.py: _dirs_equal, skill_status"]}
{"id": "C74", "title": "Command-line exit codes of the skill installer", "statement": "--list and --status never change the file system; a missing destination is a usage error; an install exits 0 exactly when everything was installed and 1 on an unknown name or an existing target; --status turns an unknown name into an error exit like install does.", "quantifier": "every argument combination and file system", "why_tests_cant": "Universal over arguments.", "anchors": ["python/src/adctoolbox/skill_cli.py: main"]}
{"id": "C75", "title": "Skill installation is all-or-nothing", "statement": "If install_bundled_skills raises, none of the requested skills has been installed or removed.", "quantifier": "every file system and request", "why_tests_cant": "Universal over file systems.", "anchors": ["python/src/adctoolbox/skill_cli.py: install_bundled_skills"]}
{"id": "C76", "title": "Validation follows its documented conventions", "statement": "For 2-D analog data the first axis is the sample axis; boolean bit matrices are accepted; the low-amplitude warning appears only for low-amplitude data.", "quantifier": "every array", "why_tests_cant": "Universal over shapes and dtypes.", "anchors": ["python/src/adctoolbox/fundamentals/validate.py: validate_aout_data l.49-67, validate_dout_data l.102"]}
{"id": "C77", "title": "Lite calibration works for every phase of the input", "statement": "calibrate_weight_sine_lite recovers the true weights whatever the phase of the sine, including one with no cosine part.", "quantifier": "every identifiable record", "why_tests_cant": "Depends on an exact phase, a measure-zero set tests miss.", "anchors": ["python/src/adctoolbox/calibration/calibrate_weight_sine_lite.py: calibrate_weight_sine_lite"]}
{"id": "C78", "title": "Merging dependent bits keeps the information", "statement": "After the rank-deficiency patch every reconstruction possible with the original bits is still possible with the effective columns and a constant.", "quantifier": "every bit matrix and a correct rank routine", "why_tests_cant": "Universal over bit matrices.", "anchors": ["python/src/adctoolbox/calibration/_patch_rank_deficiency.py l.61-105"]}
{"id": "C79", "title": "Calibration from several data sets has the same scale as from one", "statement": "With several data sets the returned weights map the bits to a unit-amplitude sine, as they do for one data set.", "quantifier": "every number of data sets", "why_tests_cant": "Universal over numbers of data sets.", "anchors": ["python/src/adctoolbox/calibration/calibrate_weight_sine.py l.150-155", "python/src/adctoolbox/calibration/_lstsq_solver.py l.102-182"]}
{"id": "C80", "title": "Frequency search keeps an exact frequency and its scale", "statement": "When the supplied frequency is already exact, the searching solver returns it unchanged and returns the same weights as the known-frequency solver.", "quantifier": "every identifiable record", "why_tests_cant": "Universal over records.", "anchors": ["python/src/adctoolbox/calibration/_lstsq_solver.py l.185-363"]}
{"id": "C81", "title": "Calibration input preparation accepts exactly well-formed input", "statement": "Preparation accepts exactly a non-empty list of non-empty matrices sharing one smaller dimension with nominal weights of that length (or none, giving powers of two), orients each with samples along the longer side, and rejects everything else with ValueError; the calibration fails only with ValueError or, when every bit is dropped, IndexError; frequencies above 0.5 are always rejected.", "quantifier": "every list of matrices", "why_tests_cant": "Universal over shapes.", "anchors": ["python/src/adctoolbox/calibration/_prepare_input.py", "python/src/adctoolbox/calibration/calibrate_weight_sine.py l.92-182"]}
{"id": "C82", "title": "Three-parameter sine fit is least-squares optimal", "statement": "With max_iterations = 0 and a given frequency, no sine of that frequency with any amplitude, phase and offset has a smaller squared error than the returned fit, and the residuals have zero mean and are orthogonal to every sine of that frequency.", "quantifier": "every record, frequency and least-squares routine", "why_tests_cant": "Quantifies over all competing sines.", "anchors": ["python/src/adctoolbox/fundamentals/fit_sine_4param.py: _fit_core l.60-75"]}
{"id": "C83", "title": "An exact sine is returned unchanged by the fit", "statement": "For a record of at least five samples that is exactly offset + A cos(2 pi f t + ph) with f inside the clamp range, fit_sine_4param started at f returns exactly f, A, the offset and the phase modulo 2 pi, zero residuals and rmse 0, converged, with min(1, max_iterations) refinements.", "quantifier": "every amplitude, phase, offset, frequency, length, iteration limit and tolerance", "why_tests_cant": "Universal over real parameters.", "anchors": ["python/src/adctoolbox/fundamentals/fit_sine_4param.py: _fit_core"]}
{"id": "C84", "title": "Automatic frequency estimate", "statement": "The FFT estimate is always in [0, 1/2) and for a coherent sine at bin k it is exactly k/n, so the fit without a hint recovers the sine exactly.", "quantifier": "every record; every coherent sine", "why_tests_cant": "Universal over lengths, bins, amplitudes, phases and offsets.", "anchors": ["python/src/adctoolbox/fundamentals/fit_sine_4param.py: _estimate_frequency_fft l.128-142"]}
{"id": "C85", "title": "Frequency refinement is a Gauss-Newton step", "statement": "The fourth design column is the derivative of the sine model with respect to angular frequency, and each refinement minimises the squared error of the model linearised there.", "quantifier": "every state, record and competing step", "why_tests_cant": "Quantifies over all competing steps.", "anchors": ["python/src/adctoolbox/fundamentals/fit_sine_4param.py: _fit_core l.66-85"]}
{"id": "C86", "title": "A constant record has zero amplitude", "statement": "Fitting a constant record gives that constant as dc_offset and amplitude zero.", "quantifier": "every constant record", "why_tests_cant": "Depends on the rank-deficient corner of the solver.", "anchors": ["python/src/adctoolbox/fundamentals/fit_sine_4param.py: _fit_core, _estimate_frequency_fft"]}
{"id": "C87", "title": "Error autocorrelation works for any max_lag", "statement": "analyze_error_autocorr returns 2*max_lag+1 values for every record, including records shorter than the default max_lag of 50.", "quantifier": "every error record and every integer max_lag", "why_tests_cant": "Tests use long records only; the failure starts exactly one lag beyond the record length.", "anchors": ["python/src/adctoolbox/aout/analyze_error_autocorr.py: analyze_error_autocorr"]}
{"id": "C88", "title": "Inferred value range covers the signal", "statement": "When no value_range is given the range used for value binning contains every sample; raw codes get exactly their extreme values.", "quantifier": "every non-empty signal", "why_tests_cant": "Universal over signals; the branch thresholds interact with mean and magnitude.", "anchors": ["python/src/adctoolbox/aout/_infer_signal_range.py: _infer_signal_range"]}
{"id": "C89", "title": "AM/PM/base power balances the measured error power", "statement": "Averaged over the samples, the modelled error power am*cos^2+pm*sin^2+base equals the mean squared error (total_rms_v squared).", "quantifier": "every signal, both base-noise modes, any least-squares solver", "why_tests_cant": "Universal over signals; clamping negative variances breaks the balance only for special error patterns.", "anchors": ["python/src/adctoolbox/aout/rearrange_error_by_phase.py: rearrange_error_by_phase", "python/src/adctoolbox/aout/_fit_error_phase.py: _fit_error_phase"]}
{"id": "C90", "title": "Exact AM and PM variances are recovered", "statement": "If the squared error follows am*cos^2(phi)+pm*sin^2(phi)+base exactly then the reported variances are am, pm and base.", "quantifier": "every am, pm, base >= 0 and every sampling of at least two different sensitivities", "why_tests_cant": "Universal over reals; the base-noise mode cannot separate the common part.", "anchors": ["python/src/adctoolbox/aout/rearrange_error_by_phase.py: rearrange_error_by_phase"]}
{"id": "C91", "title": "R squared values are proper", "statement": "r_squared_raw lies in [0,1] and r_squared_binned never exceeds 1.", "quantifier": "every signal and mode", "why_tests_cant": "Universal over data.", "anchors": ["python/src/adctoolbox/aout/_fit_error_phase.py: _fit_error_phase", "python/src/adctoolbox/aout/rearrange_error_by_phase.py: rearrange_error_by_phase"]}
{"id": "C92", "title": "Phase bins partition the samples", "statement": "Every sample falls in the bin whose centre is within half a bin width of its phase (mod 2 pi), each bin reports the count, mean and rms of its samples (NaN when empty), counts add up to the record length, and a non-positive bin count is refused.", "quantifier": "every signal, frequency and bin count", "why_tests_cant": "Universal over data.", "anchors": ["python/src/adctoolbox/aout/rearrange_error_by_phase.py: rearrange_error_by_phase"]}
{"id": "C93", "title": "Harmonic fit is optimal and powers add up", "statement": "At the frequency used no offset and harmonics 1..n leave a smaller squared residual than noise_residual; the residual has zero mean, is orthogonal to every harmonic, and total AC power is reconstructed power plus residual power.", "quantifier": "every record or set of runs, every harmonic count, any least-squares solver", "why_tests_cant": "Universal over data and over all competing coefficient choices.", "anchors": ["python/src/adctoolbox/aout/decompose_harmonic_error.py: decompose_harmonic_error", "python/src/adctoolbox/aout/_fit_sine_harmonics.py: _fit_sine_harmonics"]}
{"id": "C94", "title": "Exact harmonic content is recovered", "statement": "A record that is an offset plus harmonics 1..n of the analysed frequency gives noise 0, the true fundamental and harmonic signals, and magnitudes and relative phases equal to the amplitudes and phases of the harmonics.", "quantifier": "every offset, amplitudes and phases; any frequency with independent columns, in particular whole numbers of periods below Nyquist", "why_tests_cant": "Universal over reals; tests use one synthetic tone.", "anchors": ["python/src/adctoolbox/aout/decompose_harmonic_error.py: decompose_harmonic_error", "python/src/adctoolbox/aout/_fit_sine_harmonics.py: _fit_sine_harmonics"]}
{"id": "C95", "title": "A supplied exact frequency is kept", "statement": "When the exact fundamental frequency is supplied, fundamental_freq equals it under the default max_iterations.", "quantifier": "every coherent harmonic record", "why_tests_cant": "The bias comes from correlation of harmonics with the time-weighted derivative column and is small for long records.", "anchors": ["python/src/adctoolbox/aout/decompose_harmonic_error.py: decompose_harmonic_error", "python/src/adctoolbox/fundamentals/fit_sine_4param.py: _fit_core"]}
{"id": "C96", "title": "Residual RMS and dB figures", "statement": "residual_rms is the RMS of noise_residual; noise_db and magnitudes_db are 20 log10 of the ratio to the peak-to-peak range, finite whenever the record is not constant and the residual not zero.", "quantifier": "every record and setting", "why_tests_cant": "A constant factor in an undocumented convention is invisible to shape and type checks.", "anchors": ["python/src/adctoolbox/aout/decompose_harmonic_error.py: decompose_harmonic_error"]}
{"id": "C97", "title": "Static nonlinearity fit is the optimal polynomial", "statement": "k2 and k3 are the ratios c2/c1 and c3/c1 of the polynomial in the zero-mean fitted sine that leaves the smallest squared error in the zero-mean record; the transfer curve is that polynomial on 1000 evenly spaced points from the smallest to the largest fitted value; the input is refused exactly for order < 2, fewer than order+2 samples or a fitted sine within 1e-10 of its mean.", "quantifier": "every record and order, any least-squares solver", "why_tests_cant": "Universal over data and over all competing polynomials; the normalisation by x_max and by the column norms must cancel exactly.", "anchors": ["python/src/adctoolbox/aout/fit_static_nonlin.py: fit_static_nonlin"]}
{"id": "C98", "title": "Exact polynomial transfer is recovered", "statement": "If the zero-mean record is a polynomial of the given order in the zero-mean fitted sine, and the sine takes more than order distinct values, k2, k3 and the transfer curve are exactly those of the polynomial.", "quantifier": "every polynomial, order and record", "why_tests_cant": "Universal over real coefficients; tests compare one pair with a tolerance.", "anchors": ["python/src/adctoolbox/aout/fit_static_nonlin.py: fit_static_nonlin"]}
{"id": "C99", "title": "The documented model's k2 and k3 are returned", "statement": "For y = x + k2 x^2 + k3 x^3 with x a coherent sine, the function returns k2 and k3.", "quantifier": "every coherent sine and every k2, k3", "why_tests_cant": "The fitted sine absorbs the cubic term's fundamental, a bias of the order k3 A^2 that tolerances in tests hide.", "anchors": ["python/src/adctoolbox/aout/fit_static_nonlin.py: fit_static_nonlin"]}
{"id": "C100", "title": "Reported spectrum figures follow from the measured powers", "statement": "Signal level is 10 lg of the power of the fundamental window (or the assumed level); ENOB = (SNDR-1.76)/6.02; THD and every harmonic level are 10 lg of power over signal; SNR, noise floor and noise density are 10 lg(sig/noise), level - SNR, floor - 10 lg(fs/2/osr); the collided list holds exactly the harmonics within two half-widths of the fundamental; without signal or noise power the figures are -inf/nan as documented.", "quantifier": "every capture and option", "why_tests_cant": "Universal over data; each figure is a separate formula with its own nan branches that example captures do not reach.", "anchors": ["python/src/adctoolbox/spectrum/compute_spectrum.py: compute_spectrum", "python/src/adctoolbox/spectrum/_harmonics.py: _calculate_harmonic_power"]}
{"id": "C101", "title": "Cutoff removes exactly the bins below the cutoff frequency", "statement": "With a positive cutoff the bins with k*fs/N below it become 1e-20 and all other bins keep their power; a cutoff of zero or below changes nothing; fs = 0 raises ZeroDivisionError.", "quantifier": "every capture, cutoff and fs", "why_tests_cant": "Off-by-one at bins exactly on the cutoff frequency is invisible to ordinary captures.", "anchors": ["python/src/adctoolbox/spectrum/compute_spectrum.py: compute_spectrum"]}
{"id": "C102", "title": "Fundamental interpolation is exact for log-parabolic peaks", "statement": "If the spectrum around the peak is 10^(c - a (k-x)^2), the interpolated position is exactly x; there is no interpolation at the last in-band bin or when a neighbour is more than four decades down.", "quantifier": "every spectrum, a > 0, c and x", "why_tests_cant": "Universal over real centre positions and curvatures.", "anchors": ["python/src/adctoolbox/spectrum/_locate_fundamental.py: _locate_fundamental"]}
{"id": "C103", "title": "Window table: samples, coherent gain, ENBW, leakage width", "statement": "The five cosine windows have the textbook samples at every length; coherent gain and equivalent noise bandwidth have their exact values; a coherent tone leaks into exactly the bins within the default half-width; unknown names mean Hann.", "quantifier": "every length, tone and name", "why_tests_cant": "Universal over lengths; gain and ENBW hold exactly only above twice the lobe width.", "anchors": ["python/src/adctoolbox/spectrum/_window.py: _create_window, _get_default_side_bin"]}
{"id": "C104", "title": "Calibration is the least-squares solution", "statement": "For a single data set at a known non-zero frequency whose bits are not redundant, the calibrated output, ideal tone and error belong to one tone whose fundamental has amplitude 1, and the error power is the smallest achievable by any weights, offset and harmonics whose fundamental has the same cosine (or sine) part.", "quantifier": "every bit matrix without redundancy, every frequency up to 1/2, any number of harmonics, any least-squares solver", "why_tests_cant": "Optimality quantifies over all competing weight vectors and tones; tests only compare with one known weight vector.", "anchors": ["python/src/adctoolbox/calibration/calibrate_weight_sine.py: calibrate_weight_sine", "python/src/adctoolbox/calibration/_lstsq_solver.py", "python/src/adctoolbox/calibration/_post_process.py"]}
{"id": "C105", "title": "Coherent averaging of shifted records", "statement": "Averaging records that differ only in where they start leaves the fundamental and every bin carrying one of its harmonics (folded or not) exactly as in a single record; if the number of periods is coprime to the record length the whole spectrum, the complex spectrum, SNDR, ENOB, SFDR and THD are those of a single record.", "quantifier": "every record, every list of start offsets, every length and fundamental bin", "why_tests_cant": "Alignment of all harmonics through the folding loop for every length and bin; tests use one frequency and random phases.", "anchors": ["python/src/adctoolbox/spectrum/_align_spectrum_phase.py: _align_spectrum_phase", "python/src/adctoolbox/spectrum/_spectrum_averaging.py: _coherent_average", "python/src/adctoolbox/spectrum/compute_spectrum.py: compute_spectrum"]}
{"id": "C106", "title": "Coherent average versus power average", "statement": "No bin of the coherent average exceeds the power average; the fundamental comes out with phase zero and the mean of the runs' amplitudes; a single record keeps the power of harmonic h up to (|X|/(|X|+1e-20))^(2h); power is the squared magnitude of the complex spectrum and DC is zero.", "quantifier": "every set of runs, every bin", "why_tests_cant": "An inequality and exact values over all inputs; tests compare a few simulated records with tolerances.", "anchors": ["python/src/adctoolbox/spectrum/_align_spectrum_phase.py: _align_spectrum_phase", "python/src/adctoolbox/spectrum/_spectrum_averaging.py: _coherent_average", "python/src/adctoolbox/spectrum/_spectrum_averaging.py: _power_average"]}
{"id": "C107", "title": "Phases of harmonics after alignment", "statement": "For runs containing the same harmonics with arbitrary time offsets the aligned spectrum holds harmonic h with half its amplitude and phase phi_h - h*phi_1 (negated when folded an odd number of times); with a memoryless polynomial distortion every harmonic is real, so HD2 and HD3 are reported at 0 or 180 degrees.", "quantifier": "every harmonic series with separate bins, every real offset, every polynomial", "why_tests_cant": "Holds for all amplitudes, phases and offsets; tests look at one polar plot.", "anchors": ["python/src/adctoolbox/spectrum/_align_spectrum_phase.py: _align_spectrum_phase", "python/src/adctoolbox/spectrum/_spectrum_averaging.py: _coherent_average", "python/src/adctoolbox/spectrum/_harmonics.py: _calculate_harmonic_phases"]}
{"id": "C108", "title": "Silent runs and run order", "statement": "Runs without a sample of 1e-10 or more do not influence the coherent average, the order of the runs does not matter, and with no audible run the spectrum is zero.", "quantifier": "every list of runs", "why_tests_cant": "Permutation invariance and removal over all lists of runs.", "anchors": ["python/src/adctoolbox/spectrum/_spectrum_averaging.py: _coherent_average"]}
{"id": "C109", "title": "Single-bin THD helper", "statement": "The plotspec-style helper counts exactly one bin for each harmonic clear of the fundamental and of DC, reports the others at the 1e-15 floor, lists those near the fundamental and raises IndexError for a bin past the spectrum.", "quantifier": "every spectrum, fundamental, side-bin count and harmonic list", "why_tests_cant": "The helper is not called by the library and has no tests.", "anchors": ["python/src/adctoolbox/spectrum/_harmonics.py: _calculate_harmonic_power_plotspec"]}
{"id": "C110", "title": "Tones unrelated to the fundamental survive coherent averaging", "statement": "Averaging a record with a shifted copy of itself should keep every tone of the record, also those that are not harmonics of the fundamental.", "quantifier": "every record and shift", "why_tests_cant": "Needs a counterexample search over records and shifts.", "anchors": ["python/src/adctoolbox/spectrum/_align_spectrum_phase.py: _align_spectrum_phase", "python/src/adctoolbox/spectrum/_spectrum_averaging.py: _coherent_average"]}
{"id": "C111", "title": "Documented harmonic phase", "statement": "The phase shown for harmonic h after alignment should be phi_h - h*phi_1 for every harmonic, as the notes of _calculate_harmonic_phases say.", "quantifier": "every harmonic series", "why_tests_cant": "The sign only differs for folded harmonics, which the examples avoid.", "anchors": ["python/src/adctoolbox/spectrum/_align_spectrum_phase.py: _align_spectrum_phase", "python/src/adctoolbox/spectrum/_harmonics.py: _calculate_harmonic_phases"]}
{"id": "C112", "title": "Phase-plane outliers", "statement": "For a lag between 1 and N-1 the outliers are exactly the samples whose point misses the median radius by more than threshold*max(1.4826*MAD, 1e-12), in increasing order; offset, inversion and scale do not change them; at most half of the points are flagged for thresholds of 1/1.4826 and more; an exact circle has none; other lags raise ValueError or IndexError.", "quantifier": "every record, lag and threshold", "why_tests_cant": "Definition of a robust statistic for all records; tests plot one record.", "anchors": ["python/src/adctoolbox/aout/analyze_phase_plane.py: analyze_phase_plane"]}
{"id": "C113", "title": "Automatic lag of the phase plane", "statement": "The automatic lag is the first maximiser of |sin(2 pi f k)| - 1e-4 k over 1 <= k < min(N//2, int(0.6 periods)+20) for the strongest Hann-windowed bin, is always usable for N >= 2, and is as good as the nearest whole number of samples to a quarter period up to the distance penalty; slow tones get lag 1; near half the sampling rate the lag is bounded by about 20.", "quantifier": "every record with at least two samples", "why_tests_cant": "Bounds on the quality of a search over all lengths and bins.", "anchors": ["python/src/adctoolbox/aout/analyze_phase_plane.py: analyze_phase_plane"]}
{"id": "C114", "title": "Automatic lag gives about 90 degrees", "statement": "The automatic lag should give a phase shift of about 90 degrees also for signals near half the sampling rate, as the documentation and comments say.", "quantifier": "every record with a clear tone", "why_tests_cant": "Needs a record whose tone lies within a few bins of half the sampling rate.", "anchors": ["python/src/adctoolbox/aout/analyze_phase_plane.py: analyze_phase_plane"]}
{"id": "C115", "title": "Error phase plane: trend and hysteresis gap", "statement": "The residual is the record minus the sine fit; the trend is the least-squares polynomial of the residual against the data over the samples strictly between the 2nd and 98th percentiles; the hysteresis gap is the mean distance between the best polynomials of the rising and of the falling samples (central differences) of that range, and 0 when detection is off or an edge has too few samples. It is never negative, is exact when the residual is polynomial on each edge, is 0 when both edges show the same pairs, and residual, trend and gap are 0 for a coherent sine. Unit modes have no influence; a record with at most two different values raises TypeError.", "quantifier": "every record, order, unit mode and least-squares routine", "why_tests_cant": "Defines three statistics for all records; the code base only plots one of them.", "anchors": ["python/src/adctoolbox/aout/analyze_error_phase_plane.py: analyze_error_phase_plane"]}
{"id": "C116", "title": "Error density: reported statistics", "statement": "The errors are (record - fitted sine) in LSB of full scale/2^resolution (given, or the span of the record); mu and sigma are their mean and unbiased deviation; the 200-point grid is symmetric and covers all errors and at least +-0.5 LSB; the density is the mean of normal kernels of Silverman's bandwidth, the Gaussian has the reported mu and sigma, both positive and bounded; sigma is zero exactly when all errors are equal and then the densities are NaN; without refinement mu is 0; one more bit doubles errors, mu and sigma; constant records without a full scale give nothing finite.", "quantifier": "every record, resolution, full scale, frequency and least-squares routine", "why_tests_cant": "Formulas for all records and parameters, including degenerate ones.", "anchors": ["python/src/adctoolbox/aout/analyze_error_pdf.py: analyze_error_pdf"]}
{"id": "C117", "title": "KL divergence of the error density is a distance", "statement": "The reported KL divergence should be nonnegative and zero only when the density is the Gaussian.", "quantifier": "every record", "why_tests_cant": "Needs the exact sign of a truncated sum for a particular record; the usual test records give positive values.", "anchors": ["python/src/adctoolbox/aout/analyze_error_pdf.py: analyze_error_pdf"]}
{"id": "C118", "title": "Hilbert envelope of the error", "statement": "The envelope is the magnitude of the analytic signal: its real part is the record itself, so the envelope is never below |record|; a factor c scales it by |c|; a sum of coherent tones has the envelope of the sum of its phasors, a pure tone |A| everywhere, and a modulated carrier |A| times |modulating function|; its energy is twice the record's less the constant and the Nyquist parts.", "quantifier": "every nonempty real record (even and odd length), every factor, any number of coherent tones, every carrier and modulation", "why_tests_cant": "Identities of all samples for all records and tone frequencies; tests check a few tones approximately.", "anchors": ["python/src/adctoolbox/aout/analyze_error_envelope_spectrum.py: analyze_error_envelope_spectrum"]}
{"id": "C119", "title": "Error spectrum analyses exactly what the sine fit leaves", "statement": "Without refinement, adding any sine of the given frequency and any constant changes nothing in the result; for a coherent frequency the error is the record with exactly the bins of the constant and of the tone emptied; a record of the tone plus other coherent tones leaves exactly those, and the strongest resolvable one is the reported fundamental; scaling the record scales the error and leaves every figure unchanged (the figures are relative to the error's own peak); the analyses fail exactly for an empty record, or one sample without a given frequency.", "quantifier": "every record, frequency, amplitude, phase, offset, scale and least-squares routine (max_iterations = 0 except for the error cases)", "why_tests_cant": "An invariance over all added sines and an identity of every DFT coefficient of every record.", "anchors": ["python/src/adctoolbox/aout/analyze_error_spectrum.py: analyze_error_spectrum", "python/src/adctoolbox/aout/analyze_error_envelope_spectrum.py: analyze_error_envelope_spectrum"]}
{"id": "C120", "title": "Envelope spectrum reports the modulation of the error", "statement": "For the fitted tone plus an amplitude-modulated error carrier (depth at most 1, sidebands below Nyquist and off the tone), the error is the modulated carrier, the envelope is |A| times the modulating function, and for a modulation of three or more periods the analysis reports exactly the modulation bin, whatever the carrier.", "quantifier": "every record length, carrier, modulation frequency, depth and phases, every least-squares routine (max_iterations = 0)", "why_tests_cant": "Quantifies over all carriers and modulations; composes the fit, the Hilbert transform and the spectrum analysis.", "anchors": ["python/src/adctoolbox/aout/analyze_error_envelope_spectrum.py: analyze_error_envelope_spectrum"]}
{"id": "C121", "title": "Polar analysis always locates HD2 and HD3", "statement": "For every requested number of harmonics (also zero or negative) the polar analysis answers, reports max(3, requested) - 1 harmonic bins, harmonic k at the rounded folded bin of k times the fundamental, and N//2+1 complex bins; requests up to three are all the same.", "quantifier": "every nonempty record, request, OSR > 0, scale and window", "why_tests_cant": "All integer requests, including invalid ones.", "anchors": ["python/src/adctoolbox/spectrum/analyze_spectrum_polar.py: analyze_spectrum_polar"]}
{"id": "C122", "title": "ENOB sweep reports the ENOB of the leading bits", "statement": "Entry n-1 is the ENOB of what the first n bits contribute with the weights of the one calibration; with exactly recoverable weights it is the ENOB of the true weights' contribution (the calibration's gain and sign do not matter); the first entry is the ENOB of the MSB alone, the last that of the returned calibrated record; counts are 1..M; it answers exactly when the calibration does, OSR > 0 and M <= N.", "quantifier": "every bit matrix, frequency, harmonic order, OSR, window, least-squares and rank routine", "why_tests_cant": "Relates two whole pipelines (calibration and spectrum analysis) for all matrices.", "anchors": ["python/src/adctoolbox/dout/analyze_enob_sweep.py: analyze_enob_sweep"]}
{"id": "C123", "title": "ENOB sweep accepts what the calibration accepts", "statement": "Whenever the calibration of the bit matrix answers (OSR > 0), the sweep answers.", "quantifier": "every bit matrix", "why_tests_cant": "Only a matrix with more bits than samples shows it; the calibration turns such a matrix round silently.", "anchors": ["python/src/adctoolbox/dout/analyze_enob_sweep.py: analyze_enob_sweep"]}
{"id": "C124", "title": "Noise-transfer-function analysis integrates the response over the band", "statement": "The result is -10 log10 of the squared response summed over the grid points strictly inside the band, divided by 65536; the number of points in a band is exact; scaling the transfer function by g changes the result by -20 log10|g|; a wider band or a nowhere smaller response never suppresses more; the first-order differencer's response is 4 sin^2(pi f); an empty numerator or zero denominator raises ValueError.", "quantifier": "every numerator, denominator and band (no pole on a grid point of the band)", "why_tests_cant": "All rational transfer functions and bands.", "anchors": ["python/src/adctoolbox/oversampling/ntf_analyzer.py: ntf_analyzer"]}
{"id": "C125", "title": "NTF = 1 has no noise suppression", "statement": "The suppression is documented as compared to NTF = 1, so NTF = 1 gives 0 dB in every band.", "quantifier": "every band", "why_tests_cant": "The sum is divided by the size of the whole grid, so only a narrower band shows it.", "anchors": ["python/src/adctoolbox/oversampling/ntf_analyzer.py: ntf_analyzer"]}
{"id": "C126", "title": "OSR sweep is the fitted sine against the in-band residual", "statement": "Each entry is the power of the fitted sine over the Hann-windowed residual's power (and peak, for SFDR) inside that OSR's own band, whatever the order of the OSRs; a pure coherent sine gives infinite figures everywhere; ValueError exactly for fewer than two samples or an OSR that is not positive.", "quantifier": "every record, list of OSRs, least-squares and sorting routine", "why_tests_cant": "The incremental loop over sorted OSRs must equal the direct computation for every list.", "anchors": ["python/src/adctoolbox/spectrum/sweep_performance_vs_osr.py: sweep_performance_vs_osr"]}
{"id": "C127", "title": "perfosr validates its arguments and the slope is the local slope", "statement": "perfosr answers exactly when harmonic is a positive integer, smooth at least 1, every OSR positive and the record has two samples, and then returns the sweep's columns; where SNDR is linear in log10 OSR, the local slope drawn is that slope at every point for every smoothing.", "quantifier": "every record, option and OSR list", "why_tests_cant": "All argument combinations; all smoothing widths.", "anchors": ["python/src/adctoolbox/oversampling/perfosr.py: perfosr", "python/src/adctoolbox/spectrum/sweep_performance_vs_osr.py: sweep_performance_vs_osr"]}
{"id": "C128", "title": "In double precision the binary SAR converter is exact", "statement": "With double-precision arithmetic and numpy summing in any order: the weights of an n-bit binary converter (n up to 53) are exactly the real ones; on a power-of-two span and zero offset the codes are exactly those of real arithmetic (with an offset, those of the once-rounded difference), and reconstruction is the real result rounded once; for the range (0, 1) the code of x is floor(x 2^n) clipped and the output exactly code / 2^n.", "quantifier": "every finite double, every number of bits up to 53, every summation order", "why_tests_cant": "2^64 inputs per sample; comparisons at the exact thresholds decide bits.", "anchors": ["python/src/adctoolbox/models/sar.py: sar_ideal_weights", "python/src/adctoolbox/models/sar.py: sar_convert", "python/src/adctoolbox/models/sar.py: sar_reconstruct"]}
{"id": "C129", "title": "In double precision the SAR converter is monotone", "statement": "Without noise, for any weights at all (including nan) and any accepted range whose span does not overflow, every code is a vector of bits and a larger input, infinities included, never gives a lexicographically smaller code.", "quantifier": "every list of double weights, every range with finite span, every pair of inputs", "why_tests_cant": "Rounding of the normalisation and of every accumulated threshold could break the order at a single pair of neighbouring doubles.", "anchors": ["python/src/adctoolbox/models/sar.py: sar_convert"]}
{"id": "C130", "title": "Inputs beyond an accepted range saturate", "statement": "For every range that the validation accepts, an input at v_max gives the all-ones code and one at v_min the all-zeros code.", "quantifier": "every accepted pair of finite doubles v_min < v_max", "why_tests_cant": "Only ranges whose span overflows behave differently.", "anchors": ["python/src/adctoolbox/models/sar.py: sar_convert"]}
{"id": "C131", "title": "Converting a reconstructed code gives the code back", "statement": "In double precision, converting the reconstruction of a code gives the same code.", "quantifier": "every range and code", "why_tests_cant": "Depends on one rounding in the reconstruction; most ranges and codes survive.", "anchors": ["python/src/adctoolbox/models/sar.py: sar_convert", "python/src/adctoolbox/models/sar.py: sar_reconstruct"]}
{"id": "C132", "title": "Quantiser in double precision", "statement": "For every range with finite span and nonzero step, a larger input never gives a smaller output, infinities included; when the step is a power of two (up to 53 bits) quantising is one rounded subtraction, the exact quantiser and one rounded addition; from 0 to a power of two it is exactly the real quantiser.", "quantifier": "every double input, every number of bits", "why_tests_cant": "2^64 inputs; rounding at code boundaries.", "anchors": ["python/src/adctoolbox/siggen/nonidealities.py: apply_quantization_noise"]}
{"id": "C133", "title": "Quantising twice changes nothing", "statement": "In double precision, quantising an already quantised value leaves it unchanged.", "quantifier": "every range, number of bits and input", "why_tests_cant": "Depends on the rounding of code * lsb for single codes.", "anchors": ["python/src/adctoolbox/siggen/nonidealities.py: apply_quantization_noise"]}
{"id": "C134", "title": "Automatic start frequency of the calibration", "statement": "The estimate does not depend on the order of the bit columns when no two bits toggle equally often; with bits in order of activity it is made from the code of the leading six bits unless the reversed trailing bits have the higher SNDR; it lies strictly between 0 and 1/2; it exists exactly for two or more samples; if the chosen code is a coherent sine, its frequency is found exactly.", "quantifier": "every bit matrix, sorting and least-squares routine", "why_tests_cant": "All column orders and activities; the SNDR comparison couples two spectra.", "anchors": ["python/src/adctoolbox/calibration/_estimate_frequencies.py: _estimate_frequencies", "python/src/adctoolbox/fundamentals/frequency.py: estimate_frequency"]}
{"id": "C135", "title": "Each data set has its own start frequency", "statement": "The estimates made from the stacked rows are those of the data sets by themselves, in order; the calibration uses them exactly when no frequency is given, and fails with the first failing estimate.", "quantifier": "every list of data sets of one width", "why_tests_cant": "Row offsets of arbitrary many data sets.", "anchors": ["python/src/adctoolbox/calibration/_estimate_frequencies.py: _estimate_frequencies", "python/src/adctoolbox/calibration/calibrate_weight_sine.py: calibrate_weight_sine"]}
{"id": "C136", "title": "Axes of the spectrum plot", "statement": "The rounded axis minimum is a multiple of the step a given margin below the level, floored, with the stated fallbacks for non-finite levels; the plot's level axis is the median less 20 dB within [-200,-40] up to 0; the frequency axis starts at bin 1 and ends at half the sampling rate, so exactly the bins from 1 to Nyquist are in view; the dashed line drawn across the band is the noise floor per bin.", "quantifier": "every spectrum, option set and level", "why_tests_cant": "Medians, fallbacks and bin positions for arbitrary spectra.", "anchors": ["python/src/adctoolbox/spectrum/plot_spectrum.py: plot_spectrum", "python/src/adctoolbox/spectrum/plot_spectrum_virtuoso.py: plot_spectrum_virtuoso", "python/src/adctoolbox/spectrum/plot_spectrum.py: _calculate_axis_min", "python/src/adctoolbox/spectrum/plot_spectrum.py: _calculate_noise_floor_axis_min"]}
{"id": "C137", "title": "Spur label", "statement": "The spur label is shown exactly when its point is inside the axes with room at the bottom; then it lies above the marker if there is room, else below, else at it, within the margins, aligned inwards near the left and right edges.", "quantifier": "every axis range, spur level and position", "why_tests_cant": "Three nested placement rules over real-valued ranges.", "anchors": ["python/src/adctoolbox/spectrum/plot_spectrum.py: plot_spectrum", "python/src/adctoolbox/spectrum/plot_spectrum.py: _refresh_spur_annotation"]}
{"id": "C138", "title": "Frequency texts of the plot", "statement": "The texts of the sampling rate and the input frequency name those frequencies to half a unit of the last digit shown.", "quantifier": "every frequency", "why_tests_cant": "All scales of frequency, including the gaps between prefixes.", "anchors": ["python/src/adctoolbox/spectrum/plot_spectrum.py: plot_spectrum", "python/src/adctoolbox/spectrum/plot_spectrum_virtuoso.py: plot_spectrum_virtuoso"]}
{"id": "C139", "title": "Harmonic markers", "statement": "Marked are, in order, exactly the harmonics up to the requested order that did not fall on the fundamental and are within 20 dB of the dashed line, at the frequency and level of their bins; both plot styles mark the same; whatever can be analysed can also be plotted.", "quantifier": "every analysis result and option set", "why_tests_cant": "Bins out of range only occur for particular record lengths and tone positions.", "anchors": ["python/src/adctoolbox/spectrum/plot_spectrum.py: plot_spectrum", "python/src/adctoolbox/spectrum/plot_spectrum_virtuoso.py: plot_spectrum_virtuoso", "python/src/adctoolbox/spectrum/analyze_spectrum.py: analyze_spectrum"]}
{"id": "C140", "title": "Text block and signal markers", "statement": "The block has 8 to 11 rows inside the axes with each metric right to its last digit or N/A, the optional rows exactly when they apply, away from the fundamental; the signal text is inside the axes; the highlighted stretch is exactly the bins counted as signal; the title names the averaging.", "quantifier": "every analysis result and option set", "why_tests_cant": "Every combination of optional rows and tone position.", "anchors": ["python/src/adctoolbox/spectrum/plot_spectrum.py: plot_spectrum", "python/src/adctoolbox/spectrum/analyze_spectrum.py: analyze_spectrum"]}
{"id": "C141", "title": "DNL/INL plots show every point", "statement": "With a plot requested, the INL analyses return the same result as without; every DNL and INL point drawn lies inside the axes of its panel and the titles state the true extremes.", "quantifier": "every accepted record and option set", "why_tests_cant": "Where a curve leaves its axes depends on all values together.", "anchors": ["python/src/adctoolbox/aout/plot_dnl_inl.py: plot_dnl_inl", "python/src/adctoolbox/aout/analyze_inl_from_ramp.py: analyze_inl_from_ramp", "python/src/adctoolbox/aout/analyze_inl_from_sine.py: analyze_inl_from_sine"]}
{"id": "C142", "title": "Time plot of the decomposition", "statement": "The plot shows consecutive samples of the record around the (first) largest deviation from the fitted sine, as many as the requested number of cycles, numbered from one, with every curve inside its axes.", "quantifier": "every record, frequency and number of cycles", "why_tests_cant": "The position of the largest error and the rounding of the period vary with the record.", "anchors": ["python/src/adctoolbox/aout/plot_decomposition_time.py: plot_decomposition_time", "python/src/adctoolbox/aout/analyze_decomposition_time.py: analyze_decomposition_time"]}
{"id": "C143", "title": "Polar plot of the decomposition", "statement": "Each harmonic is marked at its phase and level, the rings are labelled with the level they stand for, and the circle of the residual is drawn inside the axes; whatever can be decomposed can be drawn.", "quantifier": "every record and number of harmonics", "why_tests_cant": "Rounding of the axis limits to 10 dB for arbitrary levels, records without residual.", "anchors": ["python/src/adctoolbox/aout/plot_decomposition_polar.py: plot_decomposition_polar", "python/src/adctoolbox/aout/analyze_decomposition_polar.py: analyze_decomposition_polar"]}
{"id": "C144", "title": "Error-by-value plot", "statement": "The plot shows every sample's error over its value bin, the bin means and the rms bars, each inside its axes.", "quantifier": "every accepted record and option set", "why_tests_cant": "Axis limits depend on the extremes of all values and on how bins are filled.", "anchors": ["python/src/adctoolbox/aout/plot_rearranged_error_by_value.py: plot_rearranged_error_by_value", "python/src/adctoolbox/aout/analyze_error_by_value.py: analyze_error_by_value"]}
{"id": "C145", "title": "Error-by-phase plot", "statement": "Every sample is drawn at its phase in [0, 360) with its error, next to the centre of its bin; the rms bars fill the axis without touching; the AM, PM, base and total curves are the square roots of the modelled powers; the texts name the results to half their last digit with a unit between 1 and 1000; all of it inside the axes.", "quantifier": "every accepted record, bin count and noise model", "why_tests_cant": "Phases are wrapped and sorted, the axis follows the extremes of the data, a fitted curve need not stay below the measured bars.", "anchors": ["python/src/adctoolbox/aout/plot_rearranged_error_by_phase.py: plot_rearranged_error_by_phase", "python/src/adctoolbox/aout/analyze_error_by_phase.py: analyze_error_by_phase"]}
{"id": "C146", "title": "Polar spectrum plot", "statement": "Each bin of the averaged spectrum is drawn at its phase and its level above the plot's centre; the circles carry the level they stand for; harmonics with a bin of their own are marked; all bins are inside the axes.", "quantifier": "every spectrum, harmonic set and range", "why_tests_cant": "Percentile, rounding of labels and collisions over arbitrary spectra.", "anchors": ["python/src/adctoolbox/spectrum/plot_spectrum_polar.py: plot_spectrum_polar", "python/src/adctoolbox/spectrum/analyze_spectrum_polar.py: analyze_spectrum_polar"]}
{"id": "C147", "title": "Frequency folding in double precision", "statement": "In IEEE double arithmetic fold_frequency_to_nyquist returns the distance of fin to the nearest multiple of fs, in [0, fs/2]: exactly on a common dyadic grid below 2^52 steps and in the first Nyquist zone, within 2^-50 |fin| otherwise.", "quantifier": "every pair of finite doubles with a quotient that does not overflow", "why_tests_cant": "Rounding of the quotient next to a half integer decides which multiple is subtracted; the bad pairs are rare.", "anchors": ["python/src/adctoolbox/fundamentals/frequency.py: fold_frequency_to_nyquist"]}
{"id": "C148", "title": "Bin folding in double precision", "statement": "In IEEE double arithmetic fold_bin_to_nyquist is exact for nonnegative bins and for integer bins of either sign; for even lengths every finite bin lands in [0, n/2], off by at most 2^-53 n; non-finite bins give nan, length 0 raises.", "quantifier": "every double, every length 2 <= n <= 2^53", "why_tests_cant": "The remainder and the mirror image are exact for reasons that depend on all mantissa bits.", "anchors": ["python/src/adctoolbox/fundamentals/frequency.py: fold_bin_to_nyquist"]}
{"id": "C149", "title": "Coherent frequency in double precision", "statement": "In IEEE double arithmetic a bin returned by find_coherent_frequency is positive, odd when asked and coprime to n; no admissible bin in reach is closer to the exact target by more than 2^-50 (target + radius); the returned frequency is b fs / n to 2^-51, exactly for power-of-two lengths and short fs; asking again for the returned frequency returns the same pair.", "quantifier": "every finite fs in [2^-900, 2^900], n <= 2^53, bins up to 2^49 (idempotence)", "why_tests_cant": "Four roundings lie between the returned frequency and the recomputed bin.", "anchors": ["python/src/adctoolbox/fundamentals/frequency.py: find_coherent_frequency"]}
{"id": "C150", "title": "Bit activity plot", "statement": "Every bit has a bar at its number with its percentage of ones as height; the coloured bar is the first one farthest from 50 %, and its text states that bit's deviation to two decimals; bars and text lie inside the limits.", "quantifier": "every bit matrix", "why_tests_cant": "A plot is rarely compared with its data; the limits and the marked bar are only wrong for special matrices.", "anchors": ["python/src/adctoolbox/dout/analyze_bit_activity.py: analyze_bit_activity"]}
{"id": "C151", "title": "Overflow plot", "statement": "Every sample is drawn once per bit, at the height of its residue, in the colour of its class (underflow, overflow, neither) as decided by the checked column; the envelope is the minimum and maximum of the residue; the texts state the share of values at or beyond the ends; everything drawn lies within the limits for positive weights.", "quantifier": "every bit matrix, weights and checked position", "why_tests_cant": "Residues outside the limits need unusual weights; the class of a point is not visible in returned values.", "anchors": ["python/src/adctoolbox/dout/analyze_overflow.py: analyze_overflow"]}
{"id": "C152", "title": "Weight radix plot", "statement": "Every bit's absolute weight is drawn at its number, negative ones in their own colour, with its radix written next to it; MSB and LSB labels mark the first and last significant bit in order of size; the resolution text states the returned one.", "quantifier": "every nonempty weight list, every sorting permutation numpy may return", "why_tests_cant": "The labelled bits depend on how equal weights are sorted.", "anchors": ["python/src/adctoolbox/dout/analyze_weight_radix.py: analyze_weight_radix"]}
{"id": "C153", "title": "ENOB sweep plot", "statement": "Every ENOB of the sweep is drawn at its bit count inside the limits, and the notes state the gain over the previous count to two decimals; the plot is drawn whenever the sweep succeeds.", "quantifier": "every bit matrix, windows boxcar, Hann and Hamming, oversampling ratio 1 for the exact condition", "why_tests_cant": "Needs a record whose leading bits contribute a constant, which gives an ENOB of minus infinity.", "anchors": ["python/src/adctoolbox/dout/analyze_enob_sweep.py: analyze_enob_sweep"]}
{"id": "C154", "title": "Phase plane plot", "statement": "Every sample from the lag on is drawn exactly once against the sample one lag earlier, the listed outliers as crosses and all others as the trajectory; the first three outliers carry their sample numbers; drawing never fails where the analysis succeeds and does not change the result.", "quantifier": "every record, lag (also automatic), threshold", "why_tests_cant": "The split of the points into two layers is not visible in the returned values.", "anchors": ["python/src/adctoolbox/aout/analyze_phase_plane.py: analyze_phase_plane"]}
{"id": "C155", "title": "Error phase plane plot", "statement": "Every sample is drawn with its residual in the display unit; the lines are the best polynomials over the rising and falling samples of the central range if there are enough of each (their mean distance is the reported gap) and the single trend otherwise; the texts state the deviation, the largest residual and the gap of what is drawn; the unit follows the mode and, for 'auto', suits the record.", "quantifier": "every record, order, mode, every least-squares routine", "why_tests_cant": "Which branch is taken depends on four sample counts; a wrong unit is a wrong label with right numbers.", "anchors": ["python/src/adctoolbox/aout/analyze_error_phase_plane.py: analyze_error_phase_plane"]}
{"id": "C156", "title": "Plots of the error density, autocorrelation and spectra", "statement": "Both densities are drawn over 200 equally spaced points that cover every error; the autocorrelation has one stem per lag, symmetric and 1 at lag zero; the error and envelope spectra are drawn by the spectrum analysis of the error and, for records of even length, drawing fails only where the analysis does.", "quantifier": "every record and every argument", "why_tests_cant": "Degenerate errors (no variation) give infinite or undefined values that are silently not drawn.", "anchors": ["python/src/adctoolbox/aout/analyze_error_pdf.py: analyze_error_pdf", "python/src/adctoolbox/aout/analyze_error_autocorr.py: analyze_error_autocorr", "python/src/adctoolbox/aout/analyze_error_spectrum.py: analyze_error_spectrum", "python/src/adctoolbox/aout/analyze_error_envelope_spectrum.py: analyze_error_envelope_spectrum"]}
{"id": "C157", "title": "Residual scatter plot", "statement": "The panels fill a grid of at most four columns row by row in the order of the pairs, unused cells are hidden, no cell is used twice; each panel draws one point per sample, the signal without the bits before each index, and names its axes after the indices; the default transparency is clamped 1000/N; plotting never changes success or result.", "quantifier": "every record, bit matrix, weights, pair list and transparency", "why_tests_cant": "Grid arithmetic is only wrong for particular numbers of pairs; an empty pair list is not tried.", "anchors": ["python/src/adctoolbox/dout/plot_residual_scatter.py: plot_residual_scatter"]}
{"id": "C158", "title": "Dashboard of digital output", "statement": "Each panel of the dashboard is the single analysis of the same bits: the spectra of the record with the nominal and with the calibrated weights, bit activity, overflow and radix with the calibrated weights, the bit sweep at the refined frequency; nominal weights influence the first panel only and, if they are the true ones, the first two panels agree; the dashboard is drawn whenever the calibration succeeds.", "quantifier": "every bit matrix, frequency, weights, and every least-squares and rank routine", "why_tests_cant": "The panels pass results on to each other (weights, frequency); a panel fed with the wrong ones still draws something plausible.", "anchors": ["python/src/adctoolbox/toolset/generate_dout_dashboard.py: generate_dout_dashboard"]}
{"id": "C159", "title": "Dashboards of analog output", "statement": "Each of the eight (twelve) panels is the single analysis of the same record; sampling rate, frequency and resolution reach exactly the panels they belong to; a dashboard is drawn for every record of at least 50 samples that is not constant.", "quantifier": "every record, sampling rate, frequency, resolution and every least-squares routine", "why_tests_cant": "Which of the eight analyses raises depends on properties of the record (levels hit, noise left beside the harmonics) that no test signal has.", "anchors": ["python/src/adctoolbox/toolset/generate_aout_dashboard.py: generate_aout_dashboard", "python/src/adctoolbox/toolset/generate_aout_dashboard_3x4.py: generate_aout_dashboard_3x4"]}
{"id": "C160", "title": "Variable delay line", "statement": "The delay grows by lsb times max(1 + cv z, 1/20) from code to code, so strictly for a positive lsb; the middle code has the offset as delay; codes beyond the ends read as the ends; nearest_code returns the first code of the smallest distance, recovers every code from its delay and is off by at most half a step inside the range; exactly the lines without codes are refused.", "quantifier": "every number of codes, step, spread, offset, every stream of random numbers, every code and target delay", "why_tests_cant": "Mismatch is random: a test sees one line, the statement is about every draw, including steps clamped at 1/20.", "anchors": ["python/src/adctoolbox/examples/08_time_interleave/variable_delay_line.py: VariableDelayLine"]}
{"id": "C161", "title": "Multi-channel sampler", "statement": "Sample t is the input cosine at t/fs plus the skew of channel t mod M (own skew plus trimmed delay); with equal skews the record is one pure sine and a common skew is only a phase; nearest codes bring all skews within half a step of channel 0; hd3_dbc is the level of the third harmonic relative to the carrier.", "quantifier": "every number of channels, skews, lines, codes, frequency, amplitude, record length, phase and noise stream", "why_tests_cant": "Skew, trim code and channel order mix in each sample; the harmonic level is only approximately right for the small levels used in tests.", "anchors": ["python/src/adctoolbox/examples/08_time_interleave/variable_delay_line.py: TIMultiSampler"]}
{"id": "C162", "title": "Background skew calibration", "statement": "The measure of channel i is the sum of its absolute differences to the next channel, on a clean sine proportional to |sin(pi fin g)| for the sampling gap g; each pass moves every code but that of channel 0 one step against the sign of its cumulative excess and never off its line; the codes returned are the first with the best SFDR of all passes; with right decisions a code gets within one of its target and stays there; aligned channels stay aligned; no pass fails for whole rounds.", "quantifier": "every sampler, signal, number of passes, random phases and noise, every SFDR measured", "why_tests_cant": "Convergence and the kept optimum depend on the whole history of decisions; a test runs one history.", "anchors": ["python/src/adctoolbox/examples/08_time_interleave/exp_ti02_autocorr_background_skew_calibration.py: calibration loop", "python/src/adctoolbox/examples/08_time_interleave/variable_delay_line.py: TIMultiSampler.capture"]}
{"id": "C163", "title": "MATLAB alias and findbin against the Python functions", "statement": "alias equals fold_frequency for every positive sampling rate and refuses the others; findbin ends, returns a bin coprime to N, and none of the positive coprime bins is closer to the rounded-down target; for a power of two it returns the bin of find_coherent_frequency.", "quantifier": "every frequency, positive rate, record length and every exponent", "why_tests_cant": "The two codes search in different orders; a comparison on sample frequencies does not meet the exact even bins where they part.", "anchors": ["matlab/src/alias.m: alias", "matlab/src/findbin.m: findbin", "python/src/adctoolbox/fundamentals/frequency.py: fold_frequency", "python/src/adctoolbox/fundamentals/frequency.py: find_coherent_frequency"]}
{"id": "C164", "title": "MATLAB cdacwgt against convert_cap_to_weight", "statement": "On the reversed capacitor lists (MATLAB lists the most significant bit first) both return the same weights and the same total capacitance; cdacwgt refuses exactly the empty, unequal, non-positive or negative lists.", "quantifier": "every three lists", "why_tests_cant": "The equality is between two recursions over any number of bits, bridge capacitors included.", "anchors": ["matlab/src/cdacwgt.m: cdacwgt", "python/src/adctoolbox/fundamentals/convert_cap_to_weight.py: convert_cap_to_weight"]}
{"id": "C165", "title": "MATLAB ifilter against extract_freq_components", "statement": "Both return the same filtered signal or both refuse; a bin passes exactly when it or its mirror is within the rounded edges of a band, so the mask is symmetric.", "quantifier": "every signal matrix and list of bands", "why_tests_cant": "Odd lengths and edges halfway between two bins decide; a regression test fixes one even length.", "anchors": ["matlab/src/ifilter.m: ifilter", "python/src/adctoolbox/spectrum/extract_freq_components.py: extract_freq_components"]}
{"id": "C166", "title": "MATLAB inlsin against compute_inl_from_sine", "statement": "Both return the same codes, DNL and INL for integer codes.", "quantifier": "every list of integer codes and every exclusion below one half", "why_tests_cant": "The differences need an exclusion of exactly half a code or a histogram without interior codes.", "anchors": ["matlab/src/inlsin.m: inlsin", "python/src/adctoolbox/aout/compute_inl_from_sine.py: compute_inl_from_sine"]}
{"id": "C167", "title": "MATLAB bitchk against analyze_overflow", "statement": "Both return the same range data per bit or both refuse.", "quantifier": "every code matrix, weights and check position", "why_tests_cant": "Square and wide inputs and check positions beyond the bits are not in the examples.", "anchors": ["matlab/src/bitchk.m: bitchk", "python/src/adctoolbox/dout/analyze_overflow.py: analyze_overflow"]}
{"id": "C168", "title": "MATLAB sinfit against fit_sine_4param", "statement": "The outputs describe one sine; at a given frequency without search sinfit and the Python fit without refinement return the same sine for any two least-squares solvers; with rate 1 MATLAB's frequency is Python's of one refinement earlier while amplitude, offset and phase are the same; an exact sine is recovered, and so is a coherent one whose frequency is estimated below the last bin; the two estimates agree whenever the peak is neither the first nor the last bin of the half spectrum; sinfit refuses exactly the empty records and the options out of range.", "quantifier": "every record, frequency, tolerance, rate, number of passes and least-squares solver", "why_tests_cant": "The lag of one refinement and the half-bin error at the last bin are invisible with a tolerance-based comparison of converged fits.", "anchors": ["matlab/src/sinfit.m: sinfit", "python/src/adctoolbox/fundamentals/fit_sine_4param.py: _fit_core", "python/src/adctoolbox/fundamentals/fit_sine_4param.py: _estimate_frequency_fft"]}
{"id": "C169", "title": "MATLAB tomdec against decompose_harmonic_error", "statement": "tomdec's parts add up to the signal whatever the solver; for any two least-squares solvers at the same given frequency the remaining error and the sum of sine and harmonics equal those of decompose_harmonic_error, and the split between them too when the sines are independent.", "quantifier": "every record, given frequency, order and pair of least-squares solvers", "why_tests_cant": "The solvers may return different coefficients for dependent columns; a test with one solver cannot show which outputs depend on the choice.", "anchors": ["matlab/src/tomdec.m: tomdec", "matlab/src/findfreq.m: findfreq", "python/src/adctoolbox/aout/decompose_harmonic_error.py: decompose_harmonic_error"]}
{"id": "C170", "title": "MATLAB errsin by phase against rearrange_error_by_phase", "statement": "Every sample goes to the bin whose centre (a multiple of 360/bin degrees) is nearest to its fitted phase; mean and deviation of a bin are those of its samples; deviations following A cos^2 + P sin^2 over three or more bins give the noises sqrt A and sqrt P; an oversampling ratio above 1 holds the errors to the band; erange only shortens the returned lists; an empty bin makes both noises 0. Against the Python function with twice the bins: errors negated, phases the same, MATLAB's bin the pair of Python half-bins around its centre.", "quantifier": "every record, bin count, frequency, ratio, window and pair of least-squares solvers", "why_tests_cant": "The empty bin silently turns both noises into 0; the half-bin offset of the bins and the sign of the error are invisible in noise figures.", "anchors": ["matlab/src/errsin.m: errsin", "python/src/adctoolbox/aout/rearrange_error_by_phase.py: rearrange_error_by_phase"]}
{"id": "C171", "title": "MATLAB errsin by value against rearrange_error_by_value", "statement": "Every sample goes to one of the equal bins between the smallest and the largest value, to one whose centre is at most half a width away; means, deviations and the two averaged traces are those of the samples of the bin; against the Python function with n bins, MATLAB's 2(n-1) bins pair up to Python's bins (ties aside) with the errors negated. The trace drawn as rising averages samples where the fitted sine falls.", "quantifier": "every record, bin count, frequency, ratio, window and pair of least-squares solvers", "why_tests_cant": "Edges of the bins and the labels of the traces are not visible in a numerical comparison.", "anchors": ["matlab/src/errsin.m: errsin", "python/src/adctoolbox/aout/rearrange_error_by_value.py: rearrange_error_by_value"]}
{"id": "C172", "title": "MATLAB perfosr against sweep_performance_vs_osr", "statement": "Every entry of the sweep is the power of the fitted sine over the Hann-windowed error in the bins that lie wholly below the band edge of its own OSR, and does not depend on the other OSRs or their order; a coherent sine gives infinite figures; MATLAB counts the band-edge bin in no entry where Python counts it, so for the same error its SNDR is never the lower one; the slope curves agree unless the default smoothing width is a tie.", "quantifier": "every record, list of OSRs, number of harmonics, smoothing, sorting routine and least-squares solver", "why_tests_cant": "One bin more or less at the band edge changes a curve by fractions of a dB except where the error sits in that bin.", "anchors": ["matlab/src/perfosr.m: perfosr", "python/src/adctoolbox/spectrum/sweep_performance_vs_osr.py: sweep_performance_vs_osr"]}
{"id": "C173", "title": "MATLAB ntfperf against ntf_analyzer", "statement": "Exactly the bands 0 <= fl < fh <= 1/2 are accepted; the figure is -10 log10 of the response summed over the points strictly inside the band and divided by 10^6; the number of points is given; a constant transfer function reads its own level plus the share of the band; for a finite impulse response over the whole band the noise is its energy up to the missing end points, and the Python figure is at least the MATLAB one.", "quantifier": "every pair of coefficient lists without pole on the band, every band", "why_tests_cant": "Two grids of different fineness cannot be compared exactly by running them; the share of the band is hidden in every reported figure.", "anchors": ["matlab/src/ntfperf.m: ntfperf", "python/src/adctoolbox/oversampling/ntf_analyzer.py: ntf_analyzer"]}
{"id": "C174", "title": "MATLAB wcalsin against calibrate_weight_sine, one record", "statement": "With a known frequency the true weights and offset are recovered in units of the fundamental amplitude with no error left; on a separable record MATLAB and Python return the same weights, offset and signals; a search started at the exact frequency stays there; a zero frequency starts the search at the median of the estimates; patched weights reproduce the output of the merged columns; every result has a non-negative weight sum, a unit fundamental and consistent signals; constant records and bad options are refused.", "quantifier": "every record, weights, tone, options, least-squares solver and rank routine", "why_tests_cant": "Two programs in two languages that solve differently scaled and ordered systems agree only because the solution is unique; runs show it to rounding for some records.", "anchors": ["matlab/src/wcalsin.m: wcalsin", "python/src/adctoolbox/calibration/calibrate_weight_sine.py: calibrate_weight_sine"]}
{"id": "C175", "title": "MATLAB wcalsin, several records", "statement": "Several records of one converter, each with its own frequency and tone, give the true common weights and offset in units of the amplitude of the first record; zero frequencies, or all when searching, are first found record by record; every result has consistent signals per record; empty or unequal records, wrong numbers of frequencies and bad options are refused.", "quantifier": "every list of records, frequencies, weights, tones, least-squares solver and rank routine", "why_tests_cant": "The joint system has a block per record; an index slip shows only with three or more records, several harmonics and different lengths together.", "anchors": ["matlab/src/wcalsin.m: wcalsin", "python/src/adctoolbox/calibration/calibrate_weight_sine.py: calibrate_weight_sine"]}
{"id": "C176", "title": "MATLAB noiseshape against apply_noise_shaping", "statement": "MATLAB's filter and scipy's lfilter return the same samples for every rational filter; with equivalent options noiseshape and apply_noise_shaping return the same output; clean, quantised, error and shaped signals and the codes fit together and the codes stay in range; exactly the invalid options and transfer functions are refused.", "quantifier": "every signal (given or generated), every option and transfer function", "why_tests_cant": "Two filters with different state layouts agree for every polynomial pair and length only by an invariant; runs compare some.", "anchors": ["matlab/src/noiseshape.m: noiseshape", "python/src/adctoolbox/siggen/nonidealities.py: apply_noise_shaping"]}
{"id": "C177", "title": "MATLAB plotwgt against analyze_weight_radix", "statement": "Radix list and effective resolution are those of Python for all weights; the scale is the same when the rounded ratio is no tie; the scale MATLAB finds is never worse than any other in its range; the figure shows the same bars and labels; empty input is refused.", "quantifier": "all weight lists and every sorting routine", "why_tests_cant": "The search range depends on how halves are rounded, which matters only for special ratios.", "anchors": ["matlab/src/plotwgt.m: plotwgt", "python/src/adctoolbox/dout/analyze_weight_radix.py: analyze_weight_radix"]}
{"id": "C178", "title": "MATLAB cap2weight, errac and errpdf against Python", "statement": "cap2weight accepts the same arrays and returns the same weights and total as convert_cap_to_weight; errac returns the values of the Python autocorrelation for all lags up to the record length and NaN beyond it; errpdf returns the numbers of the Python density estimate from two samples on.", "quantifier": "all capacitor lists, error records, lags, resolutions and ranges", "why_tests_cant": "Agreement at every lag, length and value; the ends of the ranges are where the languages part.", "anchors": ["matlab/src/legacy/cap2weight.m: cap2weight", "matlab/src/dumped/errac.m: errac", "matlab/src/dumped/errpdf.m: errpdf", "python/src/adctoolbox/aout/analyze_error_autocorr.py: analyze_error_autocorr", "python/src/adctoolbox/aout/analyze_error_pdf.py: analyze_error_pdf"]}
{"id": "C179", "title": "MATLAB fitstaticnl against fit_static_nonlin", "statement": "The coefficients are those of the least-squares polynomial around the fitted sine; from the same fitted sine both languages return the same result; at a given coherent frequency the documented model returns k2 / g and k3 / g^2 whatever the size and phase of the harmonics; exactly the bad calls are refused; a constant record gives NaN.", "quantifier": "every record, order, frequency, amplitude, phase, offset, coefficients and least-squares solver", "why_tests_cant": "numpy scales the columns of its polynomial fit and MATLAB does not; that the results are equal is uniqueness, not something a run decides.", "anchors": ["matlab/src/dumped/fitstaticnl.m: fitstaticnl", "python/src/adctoolbox/aout/fit_static_nonlin.py: fit_static_nonlin"]}
{"id": "C180", "title": "MATLAB plotspec: the spectrum against Python", "statement": "The built-in windows are the Python ones; off the snapping tolerance the band has the same number of bins; the averaged spectrum has, in every bin but DC (which is cleared), the value Python computes; silent runs are left out of the average; the default full scale normalises alike; matrices are oriented alike unless tall.", "quantifier": "every matrix of runs, window, full scale, oversampling ratio and bin", "why_tests_cant": "Equality of two differently scaled computations in every bin of every capture; runs compare single captures to a tolerance.", "anchors": ["matlab/src/plotspec.m: plotspec", "python/src/adctoolbox/spectrum/compute_spectrum.py: compute_spectrum"]}
{"id": "C181", "title": "MATLAB plotspec: powers partition the band", "statement": "Tone power, noise-and-distortion power and the bins dropped at DC add up to the power of the band; spur and harmonics are part of the noise and distortion, so SNDR never exceeds SFDR.", "quantifier": "every capture and every option", "why_tests_cant": "An identity between sums over data-dependent sets of bins.", "anchors": ["matlab/src/plotspec.m: plotspec", "python/src/adctoolbox/spectrum/compute_spectrum.py: compute_spectrum"]}
{"id": "C182", "title": "MATLAB plotspec: metrics against Python", "statement": "From the same spectrum the tone bin and tone power are the Python ones; the noise and distortion is larger by exactly bin number sideBin; without that bin spur, spur bin and noise agree; the harmonic power agrees when the windows are disjoint; harmonic bins and tone position agree for whole-bin tones.", "quantifier": "every spectrum, half-width, number of harmonics and noise-floor method", "why_tests_cant": "Which bins are in which set depends on the tone and the half-width; the differences sit at the edges.", "anchors": ["matlab/src/plotspec.m: plotspec", "python/src/adctoolbox/spectrum/compute_spectrum.py: compute_spectrum"]}
{"id": "C183", "title": "MATLAB plotspec: exact metrics of a sum of tones", "statement": "For a coherent sum of tones with one dominant, the function returns the dominant bin, its power, the sum of the other powers in the band, SNDR, SFDR, the spur and the harmonic power exactly, with no floor on the result.", "quantifier": "every record length, number of tones, amplitudes, phases, offset, window (Hann or rectangular) and band", "why_tests_cant": "Closed forms in the amplitudes, for all of them at once.", "anchors": ["matlab/src/plotspec.m: plotspec", "python/src/adctoolbox/spectrum/compute_spectrum.py: compute_spectrum"]}
{"id": "C184", "title": "MATLAB plotspec: coherent averaging", "statement": "Turning a spectrum keeps every magnitude and makes the tone real; the coherent average is at most the power average and equal for one run; it is the Python alignment without its 1e-20 guard; circularly delayed copies of a record average to the record.", "quantifier": "every set of runs, delay, window and bin (delays: rectangular window, tone coprime to the length)", "why_tests_cant": "Phases of all harmonics have to match for all delays.", "anchors": ["matlab/src/plotspec.m: plotspec", "python/src/adctoolbox/spectrum/compute_spectrum.py: compute_spectrum", "python/src/adctoolbox/spectrum/_align_spectrum_phase.py: _align_spectrum_phase"]}
{"id": "C185", "title": "MATLAB plotspec: cutoff, automatic half-width and printed frequency", "statement": "Bins below the cutoff are emptied and the tone is the strongest bin of the band after that; the automatic half-width is the largest before both edges of the ideal tone's leakage reach the median; the printed frequency is the one found.", "quantifier": "every spectrum, cutoff, window, tone position and sampling rate", "why_tests_cant": "The order of two steps and a formula in one branch of a label matter only for some captures.", "anchors": ["matlab/src/plotspec.m: plotspec", "python/src/adctoolbox/spectrum/compute_spectrum.py: compute_spectrum"]}
{"id": "C186", "title": "MATLAB plotres: residuals between stages", "statement": "Every panel shows, sample by sample, the signal less its first x bits against the signal less its first y bits, for a row or a column signal, presets or a matrix of pairs with two rows or two columns; the panels, labels and transparency are those of the Python port for stages 0..M.", "quantifier": "every signal, bit matrix, row of weights, list of pairs and transparency", "why_tests_cant": "Equality of two programs on all inputs, including the orientation of the pair matrix.", "anchors": ["matlab/src/plotres.m: plotres", "python/src/adctoolbox/dout/plot_residual_scatter.py: plot_residual_scatter"]}
{"id": "C187", "title": "MATLAB plotressin: residuals of a calibrated capture", "statement": "The signal is the fitted tone with its offset and the weights are the calibrated ones; after all bits the residual is minus the calibration error, and for a capture whose bits add up to a tone it is 0 in every panel while the abscissa is the part of the tone not yet covered, in units of its amplitude.", "quantifier": "every bit matrix, frequency, order, pairs and transparency", "why_tests_cant": "The result of an optimisation is used as the reference of the plot; exactness holds for all tones.", "anchors": ["matlab/src/shortcut/plotressin.m: plotressin", "matlab/src/wcalsin.m: wcalsin"]}
{"id": "C188", "title": "MATLAB bitact: share of ones per bit", "statement": "The bars are the Python activity, inside 0..100 for bits; with annotations exactly the bits above 95 or below 5 percent carry a number, three above the bar; every text is inside the axis.", "quantifier": "every bit matrix", "why_tests_cant": "Thresholds and limits on all values.", "anchors": ["matlab/src/legacy/bitact.m: bitact", "python/src/adctoolbox/dout/analyze_bit_activity.py: analyze_bit_activity"]}
{"id": "C189", "title": "MATLAB bitsweep: ENOB against the number of bits", "statement": "At a given frequency value k depends on the first k columns only, is NaN when they are constant, and is the ENOB of the tone when they add up to one; the plot is the Python one plus a line at the largest value.", "quantifier": "every bit matrix, frequency, order, oversampling ratio and window", "why_tests_cant": "Independence of later columns and exactness for all tones cannot be sampled.", "anchors": ["matlab/src/legacy/bitsweep.m: bitsweep", "python/src/adctoolbox/dout/analyze_enob_sweep.py: analyze_enob_sweep"]}
{"id": "C190", "title": "MATLAB plotphase, LMS mode: harmonics of a capture", "statement": "The magnitudes and phases are those of the sum of harmonics closest to the record, the noise is the rms of what is left; for whole periods plus an error without harmonics they are the true amplitudes and phases relative to the fundamental, and the Python decomposition divided by the full scale; offset and gain of the record change nothing; the drawn radii, circle, ticks and limit are those numbers in dB.", "quantifier": "every record, frequency, number of harmonics, full scale, window and least-squares solver", "why_tests_cant": "Optimality over all amplitudes and phases and recovery of all spectra cannot be sampled.", "anchors": ["matlab/src/plotphase.m: plotphase", "python/src/adctoolbox/aout/decompose_harmonic_error.py: decompose_harmonic_error"]}
{"id": "C191", "title": "MATLAB plotphase, FFT mode: the polar spectrum", "statement": "Bins are drawn at the angle of the coherent sum and at their level above the centre; the centre is at -100 dB or has less than a hundredth of the bins below it; for one run the radii are the run's spectrum and the tone is at angle 0; delayed copies give the figure of one run; a pure tone is drawn exactly, unless a marked harmonic falls on half the sampling rate.", "quantifier": "every capture, window, oversampling ratio, cutoff, number of harmonics and delays", "why_tests_cant": "A statement for all delays, tones and record lengths; the error depends on number theory of the bins.", "anchors": ["matlab/src/plotphase.m: plotphase", "python/src/adctoolbox/spectrum/plot_spectrum_polar.py: plot_spectrum_polar"]}
{"id": "C192", "title": "MATLAB adcpanel: which data it takes for what", "statement": "Vectors are waveforms and matrices are bits, one sample per row whichever way round they come; codes become the fewest bits that hold them, which stand for the code (in two's complement when one is negative); codes that are not whole are refused; bits of a code are counted as the overflow check reads them.", "quantifier": "every matrix, type option and list of codes", "why_tests_cant": "The number of bits and the two's complement are arithmetic on all integers; shapes are unbounded.", "anchors": ["matlab/src/adcpanel.m: adcpanel"]}
{"id": "C193", "title": "MATLAB adcpanel: calibrated bits and their full scale", "statement": "The waveform analysed is the calibrated one times one factor that also scales weights and offset; the weights add up to a maximum code that is given, and their magnitudes to the one found otherwise; an ideal converter's waveform is recovered; the values stay within the full scale.", "quantifier": "every bit matrix, solver, frequency and maximum code", "why_tests_cant": "Range and recovery are statements over all bit matrices and weights.", "anchors": ["matlab/src/adcpanel.m: adcpanel", "matlab/src/wcalsin.m: wcalsin", "matlab/src/plotwgt.m: plotwgt"]}
{"id": "C194", "title": "MATLAB adcpanel: the report", "statement": "Without a display the panel returns whatever becomes of the analyses; the fields are what the analyses give when called on the waveform with the frequency found; bits are analysed as the calibrated waveform; other signals get a spectrum only; with a display it returns as well, and draws only then.", "quantifier": "every data, option and outcome of the analyses", "why_tests_cant": "Every combination of failing analyses and options; the failing records are exact ones tests do not use.", "anchors": ["matlab/src/adcpanel.m: adcpanel"]}
{"id": "C195", "title": "MATLAB adcpanel: the time-domain tile", "statement": "The tile shows all samples, the fit and the error, the signal in the upper and the error in the lower half; its window lies in the record around the largest error and shows three periods.", "quantifier": "every record, fit and frequency", "why_tests_cant": "Bounds on an axis for all records and frequencies.", "anchors": ["matlab/src/adcpanel.m: adcpanel"]}
{"id": "C196", "title": "MATLAB adcpanel: several waveforms", "statement": "All analyses are of the same waveform: the first column, and its spectrum.", "quantifier": "every matrix of waveforms", "why_tests_cant": "The length of the spectrum depends on the shape, for all shapes.", "anchors": ["matlab/src/adcpanel.m: adcpanel", "matlab/src/plotspec.m: plotspec"]}
{"id": "C197", "title": "Jitter on a given signal", "statement": "Sample k of the result is the not-a-knot cubic spline through the signal, taken at the disturbed time (a line through two, a parabola through three samples); no jitter changes nothing, cubics are moved exactly, the operation is linear, the result stays within the range of the signal; too few samples, another length or no positive rate are a ValueError.", "quantifier": "every signal, length, rate, draw and scale, every exact solver", "why_tests_cant": "The spline is the only solution of a linear system of unbounded size; exactness on all cubics and all times cannot be tested.", "anchors": ["python/src/adctoolbox/siggen/nonidealities.py: ADC_Signal_Generator.apply_jitter"]}
{"id": "C198", "title": "Drift", "statement": "What is added is the running sum of the scaled draws, continued by nine mirrored samples at either end and passed through the second-order Butterworth low-pass forwards and backwards; it is linear in the draws, independent of the signal, a single first step is a constant; the low-pass is stable, has gain 1 at frequency 0 and half the power at the cutoff; fewer than ten samples are a ValueError.", "quantifier": "every signal, length, draw and scale", "why_tests_cant": "Recursion over records of any length; the gain is a trigonometric identity for all frequencies.", "anchors": ["python/src/adctoolbox/siggen/nonidealities.py: ADC_Signal_Generator.apply_drift"]}
{"id": "C199", "title": "Amplitude for a wanted level", "statement": "If the level follows the amplitude, the new amplitude gives the target level; no change at the target, corrections add up, a higher target needs a higher amplitude, zero stays zero.", "quantifier": "every amplitude, measured and target level", "why_tests_cant": "Identity between logarithm and power for all reals.", "anchors": ["python/src/adctoolbox/utils/vpp_for_target_dbfs.py: vpp_for_target_dbfs"]}
{"id": "C200", "title": "Pipelined test data, two and three stages", "statement": "Within the range the bits times the weights are the code of one converter with the sum of the bits less the redundancy, moved by the offsets of the stages: with the scripts' numbers floor(2048 s) and floor(4096 s) + 320. The normalised waveform lies in [0, 1] for every signal; a larger signal never has a smaller code.", "quantifier": "every stage width, stage gain and signal", "why_tests_cant": "The digits of all stages interact through floors; the identity holds for all real inputs and all widths.", "anchors": ["matlab/data_generation/gen_pipeline2s_dout.m", "matlab/data_generation/gen_pipeline3s_dout.m"]}
{"id": "C201", "title": "Pipelined test data, many equal stages", "statement": "The digits of all stages determine the code of one converter; the weights the script computes give that code, so a larger signal never has a smaller code.", "quantifier": "every number of stages, width, gain and signal", "why_tests_cant": "Any number of stages; the error of the weights shows only where a stage changes its digit.", "anchors": ["matlab/data_generation/gen_pipeline8s_dout.m"]}
{"id": "C202", "title": "Successive-approximation test data", "statement": "If every capacitor but the last is at most the sum of those after it, the output lies within half the last capacitor below the input; if they are also multiples of the last, the output is that of an ideal quantiser. Both lists of the script are such; the printed resolution counts these steps. The bound holds for every list.", "quantifier": "every capacitor list and every signal in [-1, 1]", "why_tests_cant": "All lists of any length and all real signals; redundancy makes the same value reachable by several words.", "anchors": ["matlab/data_generation/gen_sar_dout.m"]}
{"id": "C203", "title": "Two-step test data", "statement": "Coarse and fine code add up to one 12-bit quantiser; the three scripts add a multiple of the coarse code, an alternating one, and a share of the one before. The Python appliers for gain error and memory give the same samples.", "quantifier": "every signal, length and strength", "why_tests_cant": "Floors of differences of floors, for all reals; the wrap-around at the first sample needs a record.", "anchors": ["matlab/data_generation/gen_sinewave_gain_error.m", "matlab/data_generation/gen_sinewave_ref_error.m", "matlab/data_generation/gen_sinewave_kickback.m", "python/src/adctoolbox/siggen/nonidealities.py: ADC_Signal_Generator.apply_memory_effect", "python/src/adctoolbox/siggen/nonidealities.py: ADC_Signal_Generator.apply_ra_gain_error"]}
{"id": "C204", "title": "Sine wave test data with one error each", "statement": "Noise, jitter, amplitude noise and modulation, static distortion, glitches, settling and harmonic distortion: given the same random draws every script's record equals that of the Python generator with the same parameters; absolute noise on the amplitude (phase) is relative noise (jitter) of the strength the script prints. Clipping holds the two limits; the drift starts at 0, rises and stays below its amplitude.", "quantifier": "every length, amplitude, offset, frequency, strength and random draw", "why_tests_cant": "Equality of two programs in two languages on every sample for all parameters.", "anchors": ["matlab/data_generation/gen_sinewave_am_noise.m", "matlab/data_generation/gen_sinewave_jitter.m", "matlab/data_generation/gen_sinewave_clipping.m", "matlab/data_generation/gen_sinewave_drift.m", "matlab/data_generation/gen_sinewave_glitch.m", "python/src/adctoolbox/siggen/nonidealities.py: ADC_Signal_Generator"]}
{"id": "C205", "title": "Level of the harmonics in the test data", "statement": "A static nonlinearity with the coefficients the scripts compute adds exactly a second and a third harmonic; the third lies the given number of dB below the fundamental.", "quantifier": "every level and amplitude", "why_tests_cant": "The cubic term also moves the fundamental, by an amount that no tolerance in the scripts accounts for.", "anchors": ["matlab/data_generation/gen_sinewave_nonlin_hd.m", "python/src/adctoolbox/siggen/nonidealities.py: ADC_Signal_Generator.apply_static_nonlinearity_hd"]}
{"id": "C206", "title": "Names of the sine wave files", "statement": "Two zones have two file names and the frequency in a name is that of the data.", "quantifier": "every target frequency, rate and length", "why_tests_cant": "Names and data are computed apart; they agree for no target in general.", "anchors": ["matlab/data_generation/gen_sinewave_nyquist_zones.m", "matlab/data_generation/gen_sinewave_nonlin_dynamic.m"]}
{"id": "C207", "title": "Regression of the raw squared error", "statement": "Bins by phase hold the samples whose phase lies from the position of the bin to the next; mean and deviation of each are those of its samples; the fit is least squares over all samples; a perfect fit has R2 = 1, R2 is at most 1, and lies between 0 and 1.", "quantifier": "every record, number of bins and solver that solves the normal equations", "why_tests_cant": "The coefficient of determination compares a fit of samples with means of bins, so its range is not that of a regression.", "anchors": ["matlab/src/dumped/errsin_hp.m"]}
{"id": "C208", "title": "Overflow counts in double precision", "statement": "For weights that are whole multiples of one power of two the residue is the exact share rounded once, whatever the order of additions, and exactly the samples with all remaining bits 1 (0) are counted as high (low). For any finite positive weights a sample with all remaining bits 0 is counted low, and one with all bits 1 is counted high. The percentage is 100 (0) only if all (no) samples are counted.", "quantifier": "every weight list, bit position, record and order of additions", "why_tests_cant": "The order in which numpy and BLAS add is not fixed; the comparison with 1 turns on the last bit.", "anchors": ["python/src/adctoolbox/dout/analyze_overflow.py: analyze_overflow"]}
{"id": "C209", "title": "Bins and frequencies in double precision", "statement": "The frequency of a bin, converted back, is the bin; any frequency goes to the nearest bin up to rounding.", "quantifier": "every rate from 2^-900 to 2^900, length up to 2^53 and bin", "why_tests_cant": "Four roundings for all doubles; failures begin at bins no test visits.", "anchors": ["python/src/adctoolbox/fundamentals/units.py: bin_to_freq", "python/src/adctoolbox/fundamentals/units.py: freq_to_bin"]}
{"id": "C210", "title": "Codes and volts in double precision", "statement": "A number of codes, converted to volts and back, is unchanged; the error is at most one part in 2^51.", "quantifier": "every number of codes and reference from 2^-400 to 2^400, up to 100 bits", "why_tests_cant": "All doubles; whether the round trip is exact depends on the bits of the reference.", "anchors": ["python/src/adctoolbox/fundamentals/units.py: lsb_to_volts", "python/src/adctoolbox/fundamentals/units.py: volts_to_lsb"]}
{"id": "C211", "title": "Two-step quantisers in double precision", "statement": "Coarse and fine code add up, without any rounding, to the code of one quantiser with all bits; a relative gain of 1 changes nothing, and any other gain or offset enters by one rounding per operation.", "quantifier": "every sample up to 2^200 in size, up to 100 bits, every gain, offset and strength", "why_tests_cant": "The sum of two rounded quotients is compared bit by bit for all doubles; the failing samples are small and negative.", "anchors": ["python/src/adctoolbox/siggen/nonidealities.py: apply_memory_effect", "python/src/adctoolbox/siggen/nonidealities.py: apply_ra_gain_error"]}
{"id": "C212", "title": "Two names for one option", "statement": "When an option of plotspec is given under its new and its old name, the new name decides; scripts with only old names mean the same as with the new ones; exactly the values out of range are refused.", "quantifier": "every combination of options and values", "why_tests_cant": "Five pairs of names, each given or not: the failing combinations name a default explicitly.", "anchors": ["matlab/src/plotspec.m: l.144-241"]}
{"id": "C213", "title": "Old arguments of errHistSine", "statement": "Every pair 'mode', value becomes 'xaxis' with 'phase' for 0 and 'value' otherwise, in any spelling of the name; everything else stays in place; a mode without value is an error.", "quantifier": "every argument list", "why_tests_cant": "Argument lists of every length and order.", "anchors": ["matlab/src/legacy/errHistSine.m: l.48-74"]}
{"id": "C214", "title": "Old calls of specPlotPhase", "statement": "The call documented for old scripts, specPlotPhase(data, N_fft, harmonic), draws the spectrum with that many harmonics marked; N_fft does not matter.", "quantifier": "every record and pair of numbers", "why_tests_cant": "The documented call fails for every record with a tone in an odd bin, which only shows when harmonics reach half the sampling rate.", "anchors": ["matlab/src/legacy/specPlotPhase.m", "matlab/src/plotphase.m: l.111-118"]}
{"id": "C215", "title": "Error envelope spectrum and old decomposition", "statement": "errevspec reports plotspec's numbers for the envelope, whatever gain and sign of the errors; a steady tone gives none. tomDecomp returns signal, error, independent and dependent part in this order, adding up to the record.", "quantifier": "every record of errors, gain, frequency and order", "why_tests_cant": "All records; a wrong order of outputs keeps the sums right.", "anchors": ["matlab/src/dumped/errevspec.m", "matlab/src/legacy/specPlot.m", "matlab/src/legacy/tomDecomp.m"]}
{"id": "C216", "title": "Toolset scripts and their panels", "statement": "A complete run saves every picture under its own name and the panel shows each under its label; after a failing function the earlier pictures are kept, its error is passed on, and the panel marks the rest as missing.", "quantifier": "every prefix, set of pictures, failing function and earlier content of the folder", "why_tests_cant": "All folders; the panel goes wrong only after an earlier run in the same folder.", "anchors": ["matlab/src/dumped/toolset_aout.m", "matlab/src/dumped/toolset_dout.m", "matlab/src/dumped/toolset_aout_panel.m", "matlab/src/dumped/toolset_dout_panel.m"]}
{"id": "C217", "title": "Capacitor weights in double precision", "statement": "For finite non-negative capacitances, whenever the returned total is finite every weight is a finite double in [0, 1], and the weights add up to at most 1; without bridges and with running totals that are powers of two of a unit, weights and total are those of exact arithmetic.", "quantifier": "every finite double capacitance, any number of bits, any bridges and parasitics", "why_tests_cant": "All doubles; sums above one and silent zeros on overflow are not visible at a test's tolerance.", "anchors": ["python/src/adctoolbox/fundamentals/convert_cap_to_weight.py"]}
{"id": "C218", "title": "Effective bits in double precision", "statement": "snr_to_enob and enob_to_snr never decrease, on all doubles including infinities; their results are within 2^-53 (|x| + 2) and 2^-53 (19 |e| + 4) of the formulas with the decimal constants; converting to bits and back changes x by at most 2^-49 (|x| + 2), and is not exact.", "quantifier": "every double (bounds: every finite double up to 2^1000)", "why_tests_cant": "All doubles; an exact round trip holds for some values and fails for others.", "anchors": ["python/src/adctoolbox/fundamentals/units.py"]}
{"id": "C219", "title": "Quantiser output stays in range in double precision", "statement": "Up to 51 bits, apply_quantization_noise returns a finite double between v_min and v_max for every input that is a number, infinities included, whatever the range (its span a finite double of at least 2^(n-1022)); a nan stays a nan; with 54 bits the top level can lie above v_max.", "quantifier": "every double input, every range of finite doubles, 0 to 51 bits", "why_tests_cant": "All doubles; whether the top level rounds above v_max depends on the last bits of the range.", "anchors": ["python/src/adctoolbox/siggen/nonidealities.py"]}
{"id": "C220", "title": "Fit diagnostics in the results of the error analyses", "statement": "return_fit copies exactly nine entries of the fit, never an array, and changes nothing else; a missing entry is an error. The error returned is that of the reported sine, rmse is zero exactly when the signal is that sine, and with refinement allowed converged means the last step was below the tolerance. Without refinement converged is always set.", "quantifier": "every signal, frequency, iteration limit, tolerance and least-squares solver; every dictionary", "why_tests_cant": "All solvers and signals; whether the reported numbers describe the returned error is not visible from one run.", "anchors": ["python/src/adctoolbox/aout/_fit_diagnostics.py", "python/src/adctoolbox/aout/analyze_error_pdf.py", "python/src/adctoolbox/fundamentals/fit_sine_4param.py"]}
