{
 "claims": [
  {
   "property": "C01",
   "status": "proved",
   "theorems": [
    "C01_sum_plus_lsb",
    "C01_plain",
    "C01_redundant",
    "C01_errors",
    "C01_minus_one"
   ],
   "note": "Closed forms for the plain and redundant weight arrays, sum + LSB = 1, exact error condition, and the negative-index insertion."
  },
  {
   "property": "C02",
   "status": "proved",
   "theorems": [
    "C02_ideal_accuracy"
   ],
   "note": "Exact reals; floating-point rounding is not modelled."
  },
  {
   "property": "C03",
   "status": "proved",
   "theorems": [
    "C03_covering_error",
    "C03_noncovering_gap"
   ],
   "note": "Sufficient direction and, for non-negative weights, the gap when covering fails."
  },
  {
   "property": "C04",
   "status": "proved",
   "theorems": [
    "C04_monotone",
    "C04_lexicographic",
    "C04_batch_independent"
   ],
   "note": ""
  },
  {
   "property": "C05",
   "status": "proved",
   "theorems": [
    "C05_range_and_saturation",
    "C05_idempotent",
    "C05_idempotent_codes"
   ],
   "note": "Code idempotence is stated for inputs at or above v_min and positive weights."
  },
  {
   "property": "C06",
   "status": "proved",
   "theorems": [
    "C06_bounded_noise"
   ],
   "note": "Noise draws are arbitrary functions constrained only by the stated bounds."
  },
  {
   "property": "C07",
   "status": "proved",
   "theorems": [
    "C07_default_units",
    "C07_given_units",
    "C07_zero_sigma",
    "C07_scale",
    "C07_errors",
    "C07_legacy"
   ],
   "note": "Draws are arbitrary reals standing for the generator's output; the distribution itself is not modelled."
  },
  {
   "property": "C08",
   "status": "proved",
   "theorems": [
    "C08_conservation",
    "C08_electrostatics"
   ],
   "note": "Also shows the weights are the exact solution of the network's charge equations (for every bit pattern), and sum to 1 without parasitics."
  },
  {
   "property": "C09",
   "status": "proved",
   "theorems": [
    "C09_no_bridge",
    "C09_scale",
    "C09_length_mismatch"
   ],
   "note": "Capacitors non-negative."
  },
  {
   "property": "C10",
   "status": "proved",
   "theorems": [
    "C10_nearest_bin",
    "C10_error",
    "C10_power_of_two"
   ],
   "note": "Ties are broken to the lower bin among bins inside the window (a tied bin just outside the window is possible when the target is half-way and is not considered by the code). Adds success and one-bin accuracy for power-of-two lengths."
  },
  {
   "property": "C11",
   "status": "proved",
   "theorems": [
    "C11_fold_frequency"
   ],
   "note": ""
  },
  {
   "property": "C12",
   "status": "partial",
   "theorems": [
    "C12_even_length",
    "C12_integer_bin",
    "C12_odd_fractional_refuted",
    "C12_general_bound"
   ],
   "note": "Proved for even lengths and for integer bins; the documented range is false for odd n with a fractional bin in (n//2, n/2): C12_odd_fractional_refuted (n=9, bin 4.2 -> 4.8). C12_general_bound gives the range that does hold."
  },
  {
   "property": "C13",
   "status": "proved",
   "theorems": [
    "C13_bin_roundtrip",
    "C13_nearest_bin",
    "C13_lsb_volts",
    "C13_enob"
   ],
   "note": ""
  },
  {
   "property": "C14",
   "status": "proved",
   "theorems": [
    "C14_inverse",
    "C14_monotone",
    "C14_products",
    "C14_dbm",
    "C14_domain"
   ],
   "note": ""
  },
  {
   "property": "C15",
   "status": "proved",
   "theorems": [
    "C15_agree",
    "C15_value_and_inverse",
    "C15_osr_doubling",
    "C15_positional_order_refuted"
   ],
   "note": "Agreement holds for every real input including zero and negative fs (same inf/nan) and osr=0 (same ZeroDivisionError). C15_positional_order_refuted records that the two modules take osr and signal level in opposite positional order."
  },
  {
   "property": "C16",
   "status": "proved",
   "theorems": [
    "C16_infinite_iff",
    "C16_value",
    "C16_scale_and_monotone",
    "C16_osr"
   ],
   "note": ""
  },
  {
   "property": "C17",
   "status": "proved",
   "theorems": [
    "C17_deinterleave_domain",
    "C17_channel_samples",
    "C17_interleave_deinterleave",
    "C17_deinterleave_interleave"
   ],
   "note": "Domain, sample placement and both inverses. The ndim checks are outside the model (signals are lists); a (0,K) array is not represented."
  },
  {
   "property": "C18",
   "status": "proved",
   "theorems": [
    "C18_restores_signal",
    "C18_wrong_sizes",
    "C18_unknown_method"
   ],
   "note": "Exact restoration, all size errors, unknown method. Division by a zero gain (inf/nan) is outside the model and excluded by hypothesis."
  },
  {
   "property": "C19",
   "status": "proved",
   "theorems": [
    "C19_normalised",
    "C19_constant_moves_offset_only",
    "C19_error_iff"
   ],
   "note": "Normalisation, offsets, offset isolation, validation. fin=None (FFT estimate) and the nan results for an empty record or fin=0 are outside the model."
  },
  {
   "property": "C20",
   "status": "proved",
   "theorems": [
    "C20_taps_sum_to_one",
    "C20_polynomial_delay"
   ],
   "note": "Taps sum to one; every polynomial of degree below n_taps is delayed exactly wherever the filter window lies inside the record."
  },
  {
   "property": "C21",
   "status": "partial",
   "theorems": [
    "C21_integer_delay",
    "C21_zero_delay",
    "C21_output_length",
    "C21_error_iff",
    "C21_same_length_refuted"
   ],
   "note": "The length claim is refuted for records shorter than n_taps (C21_same_length_refuted); everything else is proved, with the true length max(len(x), n_taps)."
  },
  {
   "property": "C22",
   "status": "proved",
   "theorems": [
    "C22_spur_list",
    "C22_size_check",
    "C22_no_spurs_iff_matched"
   ],
   "note": "dbfs/dbc fields are not modelled."
  },
  {
   "property": "C23",
   "status": "proved",
   "theorems": [
    "C23_range",
    "C23_error_iff",
    "C23_antitone",
    "C23_full_band",
    "C23_counts_bins",
    "C23_exact"
   ],
   "note": "Range, errors, monotonicity in osr, and the exact set of bins (those strictly usable below fs/(2 osr)) are proved in exact arithmetic."
  },
  {
   "property": "C24",
   "status": "partial",
   "theorems": [
    "C24_even_length",
    "C24_integer_fundamental",
    "C24_odd_length_refuted"
   ],
   "note": "Proved for even FFT lengths (every order and fractional position) and for integer fundamentals at any length; refuted for odd lengths (C24_odd_length_refuted), where a harmonic can land one past the last one-sided bin."
  },
  {
   "property": "C25",
   "status": "partial",
   "theorems": [
    "C25_thd_within_noise",
    "C25_out_of_band_refuted",
    "C25_thd_is_union_power",
    "C25_excludes_fundamental",
    "C25_harmonic_power",
    "C25_thd_le_sum",
    "C25_dc_window_refuted"
   ],
   "note": "Proved: THD power is the power of the union of the counted windows, never includes the fundamental window, and is at most the sum of per-harmonic powers. Refuted: a counted harmonic's window may reach into the DC window (C25_dc_window_refuted) and beyond the analysis band when osr > 1 (C25_out_of_band_refuted)."
  },
  {
   "property": "C26",
   "status": "proved",
   "theorems": [
    "C26_partition",
    "C26_spur_is_maximal",
    "C26_sfdr_ge_sndr"
   ],
   "note": "Band power splits into DC window + signal + noise-and-distortion; the reported spur is the maximal bin outside both windows; SFDR >= SNDR. Covers coherent_averaging=False."
  },
  {
   "property": "C27",
   "status": "proved",
   "theorems": [
    "C27_same_sndr",
    "C27_same_domain"
   ],
   "note": "Explicit side_bin; compute_spectrum at osr=1, no cutoff, no assumed power. Both functions also reject the same captures."
  },
  {
   "property": "C28",
   "status": "proved",
   "theorems": [
    "C28_inside_band",
    "C28_first_crossing",
    "C28_window_complete",
    "C28_auto_reference"
   ],
   "note": "Stays in band, equals the first bin whose both neighbours fall below the threshold, and leaves no bin above the threshold uncovered up to there."
  },
  {
   "property": "C29",
   "status": "proved",
   "theorems": [
    "C29_positive",
    "C29_domain",
    "C29_exclusion_sums",
    "C29_ignores_windows",
    "C29_auto_is_middle",
    "C29_median_method",
    "C29_trim_nonempty",
    "C29_trimmed_method"
   ],
   "note": "All four methods: positivity, domain, independence of the windows, method 0 is the middle value, and exact characterisations of the median, trimmed-mean and exclusion methods."
  },
  {
   "property": "C30",
   "status": "proved",
   "theorems": [
    "C30_sweep_is_direct",
    "C30_monotone",
    "C30_default_osr",
    "C30_sfdr_monotone",
    "C30_reorder"
   ],
   "note": "Exact arithmetic; the sine fit's residual and amplitude are arguments; any valid argsort order."
  },
  {
   "property": "C31",
   "status": "proved",
   "theorems": [
    "C31_counts",
    "C31_dnl",
    "C31_missing",
    "C31_inl",
    "C31_fit",
    "C31_success_iff",
    "C31_order_irrelevant"
   ],
   "note": "Exact arithmetic; integer-typed arguments. Finding: the raw INL always ends at 0, so the 'endpoints' correction never changes it."
  },
  {
   "property": "C32",
   "status": "partial",
   "theorems": [
    "C32_total",
    "C32_eval",
    "C32_shape",
    "C32_values",
    "C32_no_interior",
    "C32_missing_label",
    "C32_inl_end",
    "C32_missing_refuted"
   ],
   "note": "DNL >= -1, running sum, equal lengths are proved whenever a sample lies strictly between the end codes (otherwise every entry is nan, also proved). The labelling claim is refuted: the DNL of code c is returned under label c-1. Also proved: a missing code makes the last INL value positive."
  },
  {
   "property": "C33",
   "status": "partial",
   "theorems": [
    "C33_values",
    "C33_bound",
    "C33_constant_error",
    "C33_at_most_one_refuted",
    "C33_unnormalised",
    "C33_analysis"
   ],
   "note": "Symmetry, value 1 at lag 0 and the defining formula are proved; the bound 1 is refuted by an 8-sample signal analysed end to end (value 2 at lag 7) because each lag is averaged over its own number of samples. The true bound N/(N-|lag|) is proved, and a constant error gives NaN everywhere."
  },
  {
   "property": "C34",
   "status": "proved",
   "theorems": [
    "C34_accepts",
    "C34_statistics",
    "C34_totals"
   ],
   "note": "Nearest-centre assignment, per-bin count/mean/rms, totals, |mean|<=rms and the exact acceptance condition, for finite samples and integer bin counts."
  },
  {
   "property": "C35",
   "status": "proved",
   "theorems": [
    "C35_split",
    "C35_variances",
    "C35_reproduces"
   ],
   "note": "Kernel and end-to-end; the clamped case is exact too (the power is raised by |A|-B)."
  },
  {
   "property": "C36",
   "status": "proved",
   "theorems": [
    "C36_adds_up",
    "C36_runs",
    "C36_accepts"
   ],
   "note": "Also exact acceptance condition and which samples are averaged for one row, several rows, one column. Phases lie in [-pi, pi) over the reals."
  },
  {
   "property": "C37",
   "status": "proved",
   "theorems": [
    "C37_own_column",
    "C37_output_preserved",
    "C37_bit_weights",
    "C37_error"
   ],
   "note": "For every rank oracle (its decisions are arbitrary)."
  },
  {
   "property": "C38",
   "status": "proved",
   "theorems": [
    "C38_undone",
    "C38_range",
    "C38_factor"
   ],
   "note": "Exact arithmetic."
  },
  {
   "property": "C39",
   "status": "proved",
   "theorems": [
    "C39_nonneg_sum",
    "C39_frequency_guard",
    "C39_recovers"
   ],
   "note": "For every least-squares routine; the record must identify the weights up to a factor."
  },
  {
   "property": "C40",
   "status": "proved",
   "theorems": [
    "C40_figures",
    "C40_invariants"
   ],
   "note": "For every solver output and any number of data sets."
  },
  {
   "property": "C41",
   "status": "proved",
   "theorems": [
    "C41_stats",
    "C41_binary",
    "C41_grows",
    "C41_errors"
   ],
   "note": "Also for arbitrary codes (extremes and counts); percentages grow toward the LSB. Finding: check positions m+1..2m wrap around silently instead of raising."
  },
  {
   "property": "C42",
   "status": "proved",
   "theorems": [
    "C42_significant",
    "C42_lower",
    "C42_invariant",
    "C42_scale",
    "C42_radix",
    "C42_binary",
    "C42_empty"
   ],
   "note": "Weights non-zero (a zero weight gives inf/nan in numpy, outside the model)."
  },
  {
   "property": "C43",
   "status": "proved",
   "theorems": [
    "C43_telescope",
    "C43_any_index",
    "C43_exact",
    "C43_errors"
   ],
   "note": "Pairs with 0 <= x <= y <= m; negative Python slice ends are modelled but not claimed about."
  },
  {
   "property": "C44",
   "status": "proved",
   "theorems": [
    "C44_flags",
    "C44_names",
    "C44_fails"
   ],
   "note": "Non-empty requests: characterised by the alias table and order of first mention."
  },
  {
   "property": "C45",
   "status": "proved",
   "theorems": [
    "C45_no_clobber",
    "C45_only_targets",
    "C45_unknown_untouched",
    "C45_outcome"
   ],
   "note": "Crash points are all sub-sequences of the step list (copytree continues after an OS error). Destination path assumed free of symbolic links."
  },
  {
   "property": "C46",
   "status": "proved",
   "theorems": [
    "C46_installed_content",
    "C46_synced",
    "C46_row",
    "C46_row_synced",
    "C46_missing_source"
   ],
   "note": "Bundled trees assumed link-free with unique names. A row is also characterised for an arbitrary state."
  },
  {
   "property": "C47",
   "status": "proved",
   "theorems": [
    "C47_aout_accepts",
    "C47_errors",
    "C47_low_warning",
    "C47_dout_accepts",
    "C47_dout_warnings"
   ],
   "note": "Exact contents; integer dtypes with their wrap-around in np.ptp (proved not to affect acceptance)."
  },
  {
   "property": "C48",
   "status": "proved",
   "theorems": [
    "C48_levels",
    "C48_monotone",
    "C48_error",
    "C48_idempotent"
   ],
   "note": "Exact arithmetic; v_min < v_max."
  },
  {
   "property": "C49",
   "status": "proved",
   "theorems": [
    "C49_custom",
    "C49_fir",
    "C49_builtin",
    "C49_errors",
    "C49_zero_dc",
    "C49_integrated"
   ],
   "note": "Exact arithmetic; scipy lfilter is modelled by its difference equation. Also proved: the L-fold running sum of output minus input is exactly the quantisation error, so it stays in (-lsb, 0]."
  },
  {
   "property": "C50",
   "status": "partial",
   "theorems": [
    "C50_mask",
    "C50_mask_nyquist",
    "C50_mask_odd_top",
    "C50_mask_symmetric",
    "C50_symmetric_refuted",
    "C50_response",
    "C50_brickwall",
    "C50_odd_top_halved",
    "C50_full_band_even",
    "C50_idempotent",
    "C50_tone",
    "C50_full_band_refuted",
    "C50_errors",
    "C50_columns",
    "C50_wide"
   ],
   "note": "Even length: proved (symmetric mask, brick wall, identity, idempotent). Odd length: symmetry and full-band identity are refuted - the top bin N//2 comes out at half amplitude; all lower bins are proved for every length."
  },
  {
   "property": "C51",
   "status": "partial",
   "theorems": [
    "C51_zero_mean",
    "C51_gain_offset_invariant",
    "C51_given_range",
    "C51_column_vector",
    "C51_errors",
    "C51_within_two",
    "C51_unit_range_refuted",
    "C51_peak_to_peak_two",
    "C51_orientation"
   ],
   "note": "Zero mean, gain/offset invariance, given-range behaviour, errors, the +-2 bound and peak-to-peak 2 are proved; the +-1 range stated in the docstring is refuted (C51_unit_range_refuted)."
  },
  {
   "property": "C52",
   "status": "proved",
   "theorems": [
    "C52_parameters",
    "C52_iterations",
    "C52_failure",
    "C52_channels",
    "C52_negative_limit"
   ],
   "note": "For every least-squares routine; max_iterations may be any integer. Warnings and printing are not modelled."
  },
  {
   "property": "C53",
   "status": "proved",
   "theorems": [
    "C53_refuses",
    "C53_succeeds",
    "C53_content",
    "C53_no_clobber"
   ],
   "note": "Statement made precise about the ignore patterns."
  },
  {
   "property": "C54",
   "status": "partial",
   "theorems": [
    "C54_fundamental_is_peak",
    "C54_single_bin",
    "C54_within_half_bin",
    "C54_dc_neighbour_refuted"
   ],
   "note": "The peak claim holds for all spectra; the half-bin claim holds when the peak dominates both neighbours and is refuted without it (C54_dc_neighbour_refuted): bin 0 is not excluded from the interpolation."
  },
  {
   "property": "C55",
   "status": "proved",
   "theorems": [
    "C55_recovers"
   ],
   "note": "For every least-squares routine and every correct rank routine; frequency non-zero and at most 1/2."
  },
  {
   "property": "C56",
   "status": "proved",
   "theorems": [
    "C56_walden",
    "C56_schreier",
    "C56_thermal",
    "C56_jitter",
    "C56_sine_power"
   ],
   "note": ""
  },
  {
   "property": "C57",
   "status": "partial",
   "theorems": [
    "C57_bandlimited_delay",
    "C57_integer_delay_circular",
    "C57_delays_compose_odd",
    "C57_compose_even_refuted"
   ],
   "note": "Composition is refuted for even lengths (C57_compose_even_refuted); exactness below Nyquist, whole-sample delays and odd-length composition are proved."
  },
  {
   "property": "C58",
   "status": "partial",
   "theorems": [
    "C58_gain_skew_exact",
    "C58_offset_decomposition",
    "C58_offset_amplitude_refuted"
   ],
   "note": "Gain/skew amplitudes are exact; offset amplitudes are refuted (C58_offset_amplitude_refuted): entries k < M/2 report half the real sinusoid's amplitude, as C58_offset_decomposition shows."
  },
  {
   "property": "C59",
   "status": "proved",
   "theorems": [
    "C59_recovers_mismatch"
   ],
   "note": "Exact real arithmetic; fin must be given."
  },
  {
   "property": "C60",
   "status": "proved",
   "theorems": [
    "C60_fft_calibration_exact",
    "C60_extract_then_calibrate"
   ],
   "note": "fft method; skews in (0, 1e-18) s are skipped by the code and excluded by hypothesis."
  },
  {
   "property": "C61",
   "status": "proved",
   "theorems": [
    "C61_tone_powers",
    "C61_sndr",
    "C61_sfdr",
    "C61_sfdr_clean",
    "C61_thd",
    "C61_defined"
   ],
   "note": "Exact arithmetic; cosine-sum windows (boxcar, hann, hamming, blackman, blackmanharris, flattop) as scipy defines them; explicit side_bin and peak scale."
  },
  {
   "property": "C62",
   "status": "proved",
   "theorems": [
    "C62_total_power",
    "C62_rectangular_total"
   ],
   "note": "Exact arithmetic; the DFT is the defining sum."
  },
  {
   "property": "C63",
   "status": "partial",
   "theorems": [
    "C63_tone_counted_twice",
    "C63_total_bounds",
    "C63_power_ratio_refuted"
   ],
   "note": "Refuted: the error spectrum is scaled to amplitude squared while the signal is amplitude squared over two, so the sweep counts every in-band residual tone at twice its power (3 dB pessimistic). Proved instead: the exact factor 2 for tones and the factor between 2 and 4 for every residual."
  },
  {
   "property": "C64",
   "status": "proved",
   "theorems": [
    "C64_ramp_accuracy"
   ],
   "note": "Exact arithmetic; noiseless converter; ramp covering the analysed range."
  },
  {
   "property": "C65",
   "status": "proved",
   "theorems": [
    "C65_levels",
    "C65_sine_accuracy"
   ],
   "note": "Exact arithmetic, noiseless sine. Finding: reported DNL/INL are scaled by n/(n-2) relative to the true values."
  },
  {
   "property": "C66",
   "status": "partial",
   "theorems": [
    "C66_polynomial",
    "C66_harmonics",
    "C66_hd2",
    "C66_hd3_refuted",
    "C66_side_products"
   ],
   "note": "The exact harmonic content is proved for every request, and a second-harmonic request alone is met exactly. Refuted for the third harmonic (and shown for 4 and 5): the cubic term also raises the fundamental by 3r, so H3/H1 = r/(1+3r); a fourth-harmonic request creates a second harmonic 12 dB above it, a fifth-harmonic request a third harmonic 14 dB above it."
  },
  {
   "property": "C67",
   "status": "proved",
   "theorems": [
    "C67_unity",
    "C67_coarse",
    "C67_residue",
    "C67_dynamic_static",
    "C67_errors",
    "C67_dynamic"
   ],
   "note": "Exact arithmetic."
  },
  {
   "property": "C68",
   "status": "proved",
   "theorems": [
    "C68_step",
    "C68_bounded",
    "C68_constant",
    "C68_short"
   ],
   "note": "T >= 0, tau > 0, coefficient >= 0."
  },
  {
   "property": "C69",
   "status": "proved",
   "theorems": [
    "C69_closed_form",
    "C69_bound"
   ],
   "note": "tau > 0, strength >= 0 for the bound."
  },
  {
   "property": "C70",
   "status": "proved",
   "theorems": [
    "C70_clip",
    "C70_identity",
    "C70_flat",
    "C70_errors"
   ],
   "note": "np.percentile modelled as linear interpolation of order statistics. Finding: p above 50 silently returns a constant record."
  },
  {
   "property": "C71",
   "status": "proved",
   "theorems": [
    "C71_additive",
    "C71_shaping",
    "C71_memory",
    "C71_values",
    "C71_jitter",
    "C71_am_tone"
   ],
   "note": "Signals of length N; jitter only for the generated sine (the CubicSpline branch and apply_drift are not modelled). Finding: the memory effect wraps the last sample's coarse code into the first."
  },
  {
   "property": "C72",
   "status": "proved",
   "theorems": [
    "C72_percentage",
    "C72_mean"
   ],
   "note": "Exact arithmetic, non-empty record."
  },
  {
   "property": "C73",
   "status": "partial",
   "theorems": [
    "C73_synced_meaning",
    "C73_synced_identical",
    "C73_synced_identical_refuted"
   ],
   "note": "Refuted: filecmp.dircmp skips names such as tags, CVS, __pycache__, and _dirs_equal never looks at a path that is a file on one side and a directory on the other. Proved: exactly what the comparison checks, and that it is identity when neither situation occurs."
  },
  {
   "property": "C74",
   "status": "partial",
   "theorems": [
    "C74_read_only",
    "C74_no_dest",
    "C74_install_exit",
    "C74_status_exit_refuted"
   ],
   "note": "Everything but the last clause is proved; --status with an unknown name lets ValueError escape (refuted)."
  },
  {
   "property": "C75",
   "status": "partial",
   "theorems": [
    "C75_atomic_refuted",
    "C75_force_keeps_old_refuted",
    "C75_complete_when_clear"
   ],
   "note": "Refuted twice: an existing second target leaves the first skill installed, and --force deletes the old copy before the bundled directory is known to exist. Proved: with no obstacle the whole request is installed."
  },
  {
   "property": "C76",
   "status": "partial",
   "theorems": [
    "C76_aout_samples_refuted",
    "C76_dout_bool_refuted",
    "C76_low_amplitude_refuted",
    "C76_one_dimensional",
    "C76_unsigned"
   ],
   "note": "All three clauses refuted (max(shape) as sample count; bool rejected by issubdtype; np.ptp overflows in signed integer dtypes). Proved: the sample count is right for 1-D data; for float data the warning is exact (C47_low_warning)."
  },
  {
   "property": "C77",
   "status": "partial",
   "theorems": [
    "C77_pure_sine_refuted"
   ],
   "note": "Refuted: for a pure sine the regression is inconsistent and the weights come out wrong (C77_pure_sine_refuted). Proved for non-zero cosine part (C39_recovers); the full calibration handles the same record (C77_full_calibration_ok_ex)."
  },
  {
   "property": "C78",
   "status": "partial",
   "theorems": [
    "C78_complementary_bits_refuted"
   ],
   "note": "Refuted: two complementary bits are merged into a constant column because the ratio ignores the sign of the correlation. The reconstruction identity itself is C37."
  },
  {
   "property": "C79",
   "status": "partial",
   "theorems": [
    "C79_two_data_sets_refuted"
   ],
   "note": "Refuted: the amplitude coefficient is read at the wrong index with two or more data sets, and the weights come out too small by sqrt 2. Proved for one data set (C55)."
  },
  {
   "property": "C80",
   "status": "partial",
   "theorems": [
    "C80_one_iteration_scale",
    "C80_exact_start_moves_refuted"
   ],
   "note": "Refuted: the search applies unrelated coefficients as frequency corrections and moves off an exact frequency. Proved: with one iteration the frequency is kept and the exact scale error of the weights is |b| instead of the amplitude."
  },
  {
   "property": "C81",
   "status": "proved",
   "theorems": [
    "C81_prepare",
    "C81_rejects",
    "C81_calibrate_errors",
    "C81_known_frequencies"
   ],
   "note": "Rank, least squares and the automatic frequency estimate are arbitrary functions."
  },
  {
   "property": "C82",
   "status": "proved",
   "theorems": [
    "C82_three_parameter_optimal"
   ],
   "note": "For every least-squares routine."
  },
  {
   "property": "C83",
   "status": "proved",
   "theorems": [
    "C83_exact_sine"
   ],
   "note": "For every least-squares routine."
  },
  {
   "property": "C84",
   "status": "partial",
   "theorems": [
    "C84_centroid",
    "C84_range",
    "C84_coherent",
    "C84_auto_fit",
    "C84_odd_top_bin",
    "C84_odd_top_bin_refuted"
   ],
   "note": "Proved: range for every record; exactness for bins 1 <= k < n // 2. Refuted for the top bin k = (n-1)/2 of an odd-length record, which spec[:n // 2] leaves out (the estimate is then 0)."
  },
  {
   "property": "C85",
   "status": "proved",
   "theorems": [
    "C85_update",
    "C85_stationary",
    "C85_derivative_column",
    "C85_gauss_newton"
   ],
   "note": "Exact arithmetic, every least-squares routine."
  },
  {
   "property": "C86",
   "status": "partial",
   "theorems": [
    "C86_constant_split",
    "C86_constant_refuted"
   ],
   "note": "Refuted: the estimated frequency is 0, the cosine and constant columns coincide, and the minimum-norm solution splits the constant into offset v/2 and amplitude |v|/2. Proved: exactly this outcome for every constant record with max_iterations = 0, residuals zero."
  },
  {
   "property": "C87",
   "status": "partial",
   "theorems": [
    "C87_lag_limit",
    "C87_edge",
    "C87_default_refuted"
   ],
   "note": "Refuted: exact limit proved (ValueError iff max_lag exceeds the record length and the record has 3 or more samples; NaN at the ends when equal); the default 50 fails for a valid 8-sample signal."
  },
  {
   "property": "C88",
   "status": "partial",
   "theorems": [
    "C88_inferred",
    "C88_covers_refuted"
   ],
   "note": "Refuted by two-sample signals; proved for given ranges, raw codes (some magnitude above 2) and small bipolar signals."
  },
  {
   "property": "C89",
   "status": "partial",
   "theorems": [
    "C89_power_balance",
    "C89_balance_refuted"
   ],
   "note": "Refuted by a 16-sample signal (reported 4, measured 2). Proved: modelled power is never below the measured power, with equality whenever no variance was clamped."
  },
  {
   "property": "C90",
   "status": "partial",
   "theorems": [
    "C90_recovery",
    "C90_both_refuted"
   ],
   "note": "Without base noise: proved. With base noise: refuted when AM and PM are both present; the reported values max(am-pm,0), max(pm-am,0), base+min(am,pm) are proved."
  },
  {
   "property": "C91",
   "status": "proved",
   "theorems": [
    "C91_raw_definition",
    "C91_r2_raw",
    "C91_r2_binned"
   ],
   "note": "For any least-squares solver (its failure to converge is not modelled)."
  },
  {
   "property": "C92",
   "status": "proved",
   "theorems": [
    "C92_reference",
    "C92_phase_bins",
    "C92_bin_count"
   ],
   "note": "Phases taken from the fitted sine."
  },
  {
   "property": "C93",
   "status": "proved",
   "theorems": [
    "C93_components",
    "C93_optimal"
   ],
   "note": ""
  },
  {
   "property": "C94",
   "status": "partial",
   "theorems": [
    "C94_coherent_independent",
    "C94_exact",
    "C94_auto",
    "C94_phase_sign_refuted"
   ],
   "note": "Proved: zero noise, exact signals, magnitudes equal to TWICE the amplitudes and phases equal to the NEGATIVE relative phases of cos(h w t + phi_h), with the frequency given and also with the automatic frequency (two or more periods, no harmonic larger than the fundamental), both without refinement. The literal magnitudes and the package's own phase sign are refuted on a 16-sample record."
  },
  {
   "property": "C95",
   "status": "partial",
   "theorems": [
    "C95_frequency_moves_refuted",
    "C95_pure_sine",
    "C95_no_refinement"
   ],
   "note": "Refuted on an 8-sample record for every least-squares solver. Proved: kept without refinement, and for a pure sine with any number of refinements."
  },
  {
   "property": "C96",
   "status": "partial",
   "theorems": [
    "C96_residual_scale",
    "C96_decibels",
    "C96_constant",
    "C96_residual_rms_refuted"
   ],
   "note": "residual_rms is refuted: it is 2 sqrt 2 times the RMS (proved). The dB formulas, the exact -inf case and NaN for constant records are proved."
  },
  {
   "property": "C97",
   "status": "proved",
   "theorems": [
    "C97_transfer",
    "C97_accepts"
   ],
   "note": ""
  },
  {
   "property": "C98",
   "status": "proved",
   "theorems": [
    "C98_exact"
   ],
   "note": ""
  },
  {
   "property": "C99",
   "status": "partial",
   "theorems": [
    "C99_gain",
    "C99_refuted"
   ],
   "note": "Refuted on a 16-sample record. Proved: with g = 1 + 3/4 k3 A^2 the returned values are k2/g and k3/g^2, provided the harmonics are not larger than the fundamental and do not correlate with the derivative column of the frequency refinement (assumed as a hypothesis; when it fails the fitted frequency moves as well, see C95)."
  },
  {
   "property": "C100",
   "status": "proved",
   "theorems": [
    "C100_signal",
    "C100_ratios",
    "C100_noise",
    "C100_collided"
   ],
   "note": ""
  },
  {
   "property": "C101",
   "status": "proved",
   "theorems": [
    "C101_cutoff_bins",
    "C101_no_cutoff",
    "C101_zero_fs"
   ],
   "note": ""
  },
  {
   "property": "C102",
   "status": "proved",
   "theorems": [
    "C102_parabola_exact",
    "C102_no_interpolation"
   ],
   "note": ""
  },
  {
   "property": "C103",
   "status": "proved",
   "theorems": [
    "C103_samples",
    "C103_length",
    "C103_gain",
    "C103_leakage",
    "C103_names",
    "C103_half_widths"
   ],
   "note": "scipy's definitions of the cosine windows are part of the model; kaiser and chebwin samples are arguments. The Blackman-Harris and flattop ENBW are enclosed to 1e-7."
  },
  {
   "property": "C104",
   "status": "proved",
   "theorems": [
    "C104_least_squares"
   ],
   "note": "Single data set, frequency given; the solver and the rank routine are arguments assumed to be a least-squares solver and a correct rank."
  },
  {
   "property": "C105",
   "status": "proved",
   "theorems": [
    "C105_harmonics_kept",
    "C105_coprime",
    "C105_compute"
   ],
   "note": "The start offsets are whole samples, taken round the end of the record; the compute_spectrum statement is for the boxcar window and needs the coprime condition."
  },
  {
   "property": "C106",
   "status": "proved",
   "theorems": [
    "C106_below_power_average",
    "C106_fundamental",
    "C106_single",
    "C106_square"
   ],
   "note": "The power comparison is for runs that are not skipped as silent."
  },
  {
   "property": "C107",
   "status": "proved",
   "theorems": [
    "C107_phases",
    "C107_memoryless",
    "C107_degrees"
   ],
   "note": "The harmonics must fall on different bins below half the sample rate, and the runs must have the fundamental as strongest bin."
  },
  {
   "property": "C108",
   "status": "proved",
   "theorems": [
    "C108_silent",
    "C108_order",
    "C108_all_silent"
   ],
   "note": ""
  },
  {
   "property": "C109",
   "status": "proved",
   "theorems": [
    "C109_single_bin"
   ],
   "note": "The helper is not called anywhere in the library."
  },
  {
   "property": "C110",
   "status": "partial",
   "theorems": [
    "C110_unrelated_tone_refuted"
   ],
   "note": "Refuted: tones at bins 1 and 2 of 8, averaged with the copy half a record later; the tone at bin 1 is removed. C105 is the part that holds (bins carrying harmonics)."
  },
  {
   "property": "C111",
   "status": "partial",
   "theorems": [
    "C111_folded_phase_refuted"
   ],
   "note": "Refuted for a harmonic folded an odd number of times: its phase comes out negated. C107 gives the exact phases."
  },
  {
   "property": "C112",
   "status": "proved",
   "theorems": [
    "C112_outliers",
    "C112_lags",
    "C112_invariant",
    "C112_at_most_half",
    "C112_majority",
    "C112_circle"
   ],
   "note": ""
  },
  {
   "property": "C113",
   "status": "proved",
   "theorems": [
    "C113_auto",
    "C113_short",
    "C113_quality",
    "C113_slow",
    "C113_near_nyquist"
   ],
   "note": "Only records of at least four samples for the quality bound."
  },
  {
   "property": "C114",
   "status": "partial",
   "theorems": [
    "C114_ninety_degrees_refuted"
   ],
   "note": "Refuted: 4096 samples, strongest bin 2047: the lag found opens the ellipse by less than 4 percent, although lag 1024 is exactly a quarter period. C113 says what holds."
  },
  {
   "property": "C115",
   "status": "proved",
   "theorems": [
    "C115_result",
    "C115_nonnegative",
    "C115_exact",
    "C115_errors",
    "C115_memoryless",
    "C115_interior",
    "C115_pure_sine"
   ],
   "note": "The polynomial claims need a nonzero sample among those used (np.polyfit scales columns by their norm)."
  },
  {
   "property": "C116",
   "status": "proved",
   "theorems": [
    "C116_values",
    "C116_positive",
    "C116_spread",
    "C116_centred",
    "C116_resolution",
    "C116_errors"
   ],
   "note": ""
  },
  {
   "property": "C117",
   "status": "partial",
   "theorems": [
    "C117_lower_bound",
    "C117_negative",
    "C117_nonnegative_refuted"
   ],
   "note": "Refuted: the sum runs over the truncated grid without normalising the masses, and two samples +1, -1 (frequency 0, no refinement) give a negative divergence for every least-squares routine. Proved instead: it is at least P ln(P/Q) and P - Q for the masses P, Q on the grid, hence nonnegative when P >= Q, and for equal masses zero only for equal densities."
  },
  {
   "property": "C118",
   "status": "proved",
   "theorems": [
    "C118_real_part",
    "C118_dominates",
    "C118_gain",
    "C118_tones",
    "C118_pure_tone",
    "C118_modulation",
    "C118_energy"
   ],
   "note": ""
  },
  {
   "property": "C119",
   "status": "proved",
   "theorems": [
    "C119_invariant",
    "C119_level",
    "C119_errors",
    "C119_bins",
    "C119_tones",
    "C119_strongest"
   ],
   "note": ""
  },
  {
   "property": "C120",
   "status": "proved",
   "theorems": [
    "C120_modulation"
   ],
   "note": ""
  },
  {
   "property": "C121",
   "status": "proved",
   "theorems": [
    "C121_orders",
    "C121_floor"
   ],
   "note": "One record; cutoff 0."
  },
  {
   "property": "C122",
   "status": "proved",
   "theorems": [
    "C122_entries",
    "C122_errors",
    "C122_true_weights",
    "C122_first",
    "C122_last"
   ],
   "note": "Exact arithmetic; the ENOB itself is the analysis of C23-C29."
  },
  {
   "property": "C123",
   "status": "partial",
   "theorems": [
    "C123_wide_refuted"
   ],
   "note": "Refuted for matrices with more bits than samples (the calibration transposes them and returns as many weights as samples, so the product of l.82 raises ValueError). C122_errors gives the exact condition: it holds for M <= N."
  },
  {
   "property": "C124",
   "status": "proved",
   "theorems": [
    "C124_formula",
    "C124_errors",
    "C124_points",
    "C124_flat",
    "C124_gain",
    "C124_narrower",
    "C124_better",
    "C124_differencer",
    "C124_first_order"
   ],
   "note": "Exact arithmetic."
  },
  {
   "property": "C125",
   "status": "partial",
   "theorems": [
    "C125_offset",
    "C125_flat_refuted"
   ],
   "note": "Refuted: in the band (0, 1/4) NTF = 1 gives more than 3 dB. C125_offset proves the exact excess, 10 log10(65536 / points in the band), for every transfer function."
  },
  {
   "property": "C126",
   "status": "proved",
   "theorems": [
    "C126_errors",
    "C126_entries",
    "C126_pure_sine"
   ],
   "note": "Exact arithmetic."
  },
  {
   "property": "C127",
   "status": "proved",
   "theorems": [
    "C127_checks",
    "C127_slope",
    "C127_reach"
   ],
   "note": "Slope for finite SNDRs."
  },
  {
   "property": "C128",
   "status": "proved",
   "theorems": [
    "C128_limit",
    "C128_convert",
    "C128_convert_zero",
    "C128_reconstruct",
    "C128_weights",
    "C128_roundtrip"
   ],
   "note": "Bit-exact binary64 arithmetic (Flocq); noise off. The limit of 53 bits is sharp (C128_limit)."
  },
  {
   "property": "C129",
   "status": "proved",
   "theorems": [
    "C129_monotone"
   ],
   "note": "Bit-exact binary64 arithmetic (Flocq)."
  },
  {
   "property": "C130",
   "status": "partial",
   "theorems": [
    "C130_saturation",
    "C130_accepted_range_refuted"
   ],
   "note": "Refuted: the range (-2^1023, 2^1023) is accepted but its span overflows, and v_max gives code 00. C130_saturation proves it for every range with a finite span, for dyadic weights of total at most 1."
  },
  {
   "property": "C131",
   "status": "partial",
   "theorems": [
    "C131_reconversion_refuted",
    "C131_dyadic"
   ],
   "note": "Refuted: 2 bits, range (0, 3.3): code 11 comes back as 10. C131_dyadic proves it for power-of-two spans with v_min a multiple of the step."
  },
  {
   "property": "C132",
   "status": "proved",
   "theorems": [
    "C132_monotone",
    "C132_dyadic",
    "C132_exact"
   ],
   "note": "Bit-exact binary64 arithmetic (Flocq)."
  },
  {
   "property": "C133",
   "status": "partial",
   "theorems": [
    "C133_requantise_refuted",
    "C133_dyadic"
   ],
   "note": "Refuted: 2 bits, range (0, 0.7), input 0.65. C133_dyadic proves it when the step is a power of two and v_min a multiple of it."
  },
  {
   "property": "C134",
   "status": "proved",
   "theorems": [
    "C134_column_order",
    "C134_leading_bits",
    "C134_range",
    "C134_defined",
    "C134_exact"
   ],
   "note": "Exact arithmetic; argsort and lstsq are any routines meeting their specification."
  },
  {
   "property": "C135",
   "status": "proved",
   "theorems": [
    "C135_per_set",
    "C135_calibration"
   ],
   "note": "Exact arithmetic."
  },
  {
   "property": "C136",
   "status": "proved",
   "theorems": [
    "C136_axis_min",
    "C136_axis_fallback",
    "C136_level_axis",
    "C136_frequency_axis",
    "C136_noise_line",
    "C136_virtuoso_axis"
   ],
   "note": "Real arithmetic; the drawing is modelled as a record of what is drawn where."
  },
  {
   "property": "C137",
   "status": "proved",
   "theorems": [
    "C137_visible",
    "C137_hidden",
    "C137_label",
    "C137_in_plot"
   ],
   "note": "The matplotlib transform is any function that maps the axis limits to [0,1]."
  },
  {
   "property": "C138",
   "status": "partial",
   "theorems": [
    "C138_rate_text",
    "C138_fin_text",
    "C138_fin_refuted"
   ],
   "note": "Proved for the sampling rate and for input frequencies below 1 Hz or from 1 kHz. False from 1 Hz up to 1 kHz in plot_spectrum (c138_fin_refuted): the frequency is divided by 1000 but shown without a prefix."
  },
  {
   "property": "C139",
   "status": "partial",
   "theorems": [
    "C139_marked",
    "C139_both_plots",
    "C139_drawable",
    "C139_odd_refuted"
   ],
   "note": "Proved: which harmonics are marked, agreement of the styles, plottable for even record lengths and for tones in the middle of a bin. False for odd lengths in general (c139_odd_refuted): IndexError from analyze_spectrum although compute_spectrum succeeds."
  },
  {
   "property": "C140",
   "status": "proved",
   "theorems": [
    "C140_metrics",
    "C140_notes",
    "C140_block_height",
    "C140_block_side",
    "C140_signal_text",
    "C140_signal_span",
    "C140_title"
   ],
   "note": "Texts are modelled as numbers of decimals and digits; fonts and widths are not."
  },
  {
   "property": "C141",
   "status": "partial",
   "theorems": [
    "C141_limits",
    "C141_lines_refuted",
    "C141_ramp",
    "C141_signed_refuted",
    "C141_sine",
    "C141_sine_refuted"
   ],
   "note": "Proved: same result, ramp analysis never hides a point vertically and hides none horizontally for unsigned codes, sine analysis likewise without clamped codes. False: signed codes with the resolution given (c141_signed_refuted), INL of a record with missing codes (c141_sine_refuted), the +-1 reference lines (c141_lines_refuted)."
  },
  {
   "property": "C142",
   "status": "partial",
   "theorems": [
    "C142_window",
    "C142_cycles",
    "C142_vertical",
    "C142_cycles_refuted",
    "C142_fit_hidden_refuted"
   ],
   "note": "Proved: which samples, how many (within n_cycles+1 samples), limits of the signal and both error curves. False: the number of cycles asked for (c142_cycles_refuted), the fitted sine inside the axes (c142_fit_hidden_refuted)."
  },
  {
   "property": "C143",
   "status": "partial",
   "theorems": [
    "C143_reading",
    "C143_accepts",
    "C143_perfect_refuted",
    "C143_circle_refuted"
   ],
   "note": "Proved: points, ring labels, outer radius, residual circle and text; drawn exactly when the record is not constant and a residual is left. False: a record without residual raises ValueError (c143_perfect_refuted); the residual circle can be outside (c143_circle_refuted)."
  },
  {
   "property": "C144",
   "status": "partial",
   "theorems": [
    "C144_points",
    "C144_bars",
    "C144_bars_refuted"
   ],
   "note": "Proved: the points, means and bars drawn and their positions inside the axes. False: the outermost bars are cut off for 2 to 23 bins (c144_bars_refuted)."
  },
  {
   "property": "C145",
   "status": "partial",
   "theorems": [
    "C145_accepts",
    "C145_upper",
    "C145_bars",
    "C145_curves",
    "C145_texts",
    "C145_curve_refuted"
   ],
   "note": "Proved: accepted records, upper panel, bars, curves, texts. False: a curve can lie above the axis, which is set by the bars alone (c145_curve_refuted)."
  },
  {
   "property": "C146",
   "status": "partial",
   "theorems": [
    "C146_accepts",
    "C146_points",
    "C146_centre",
    "C146_short",
    "C146_ticks",
    "C146_ticks_refuted",
    "C146_points_refuted",
    "C146_marks",
    "C146_texts",
    "C146_fundamental"
   ],
   "note": "Proved: the points, the centre as 1st percentile, marks, texts, ring labels within 5 dB and exact for multiples of 10 dB, the fundamental at angle 0. False: exact labels for any range (c146_ticks_refuted), bins above 0 dB inside the axes (c146_points_refuted). Short records put the centre far below the noise floor (c146_short)."
  },
  {
   "property": "C147",
   "status": "partial",
   "theorems": [
    "C147_exact",
    "C147_first_zone",
    "C147_bound",
    "C147_range_refuted",
    "C147_large_refuted",
    "C147_overflow_refuted"
   ],
   "note": "Proved: c147_exact, c147_first_zone, c147_bound. False: the documented range [0, fs/2] (exceeded by a rounding error, c147_range_refuted), any accuracy beyond 2^53 steps (c147_large_refuted), finite result when the quotient overflows (c147_overflow_refuted)."
  },
  {
   "property": "C148",
   "status": "partial",
   "theorems": [
    "C148_nonneg",
    "C148_integer",
    "C148_even",
    "C148_negative_refuted",
    "C148_errors"
   ],
   "note": "Proved: c148_nonneg, c148_integer, c148_even, c148_errors. False: exactness for negative fractional bins (c148_negative_refuted: -2^-60 folds to 0)."
  },
  {
   "property": "C149",
   "status": "proved",
   "theorems": [
    "C149_valid",
    "C149_frequency",
    "C149_idempotent",
    "C149_nearest",
    "C149_power_of_two",
    "C149_coherent_refuted",
    "C149_errors"
   ],
   "note": "c149_coherent_refuted shows that the power-of-two condition of c149_power_of_two is needed."
  },
  {
   "property": "C150",
   "status": "partial",
   "theorems": [
    "C150_bars",
    "C150_marked",
    "C150_visible",
    "C150_errors",
    "C150_visible_refuted"
   ],
   "note": "Proved: c150_bars, c150_marked, c150_errors, c150_visible (when the text fits). False: the text always lies inside the limits (c150_visible_refuted)."
  },
  {
   "property": "C151",
   "status": "partial",
   "theorems": [
    "C151_points",
    "C151_envelope",
    "C151_texts",
    "C151_inside",
    "C151_default",
    "C151_opacity",
    "C151_inside_refuted"
   ],
   "note": "Proved for positive weights: c151_inside. False for weights of mixed sign (c151_inside_refuted)."
  },
  {
   "property": "C152",
   "status": "proved",
   "theorems": [
    "C152_points",
    "C152_texts",
    "C152_labels",
    "C152_errors",
    "C152_labels_refuted"
   ],
   "note": "c152_labels_refuted shows that which of several equal weights carries the label depends on the sorting routine."
  },
  {
   "property": "C153",
   "status": "partial",
   "theorems": [
    "C153_accepts",
    "C153_points",
    "C153_notes",
    "C153_note_text",
    "C153_notes_inside",
    "C153_sign_refuted",
    "C153_drawn",
    "C153_stuck",
    "C153_stuck_refuted"
   ],
   "note": "Proved: c153_points, c153_notes, c153_drawn (exact condition), c153_stuck. False: the plot is drawn whenever the sweep succeeds (c153_stuck_refuted); a loss is marked with a single sign (c153_sign_refuted: '+-0.50')."
  },
  {
   "property": "C154",
   "status": "proved",
   "theorems": [
    "C154_same",
    "C154_drawn",
    "C154_total"
   ],
   "note": ""
  },
  {
   "property": "C155",
   "status": "partial",
   "theorems": [
    "C155_drawn",
    "C155_texts",
    "C155_units",
    "C155_auto_refuted"
   ],
   "note": "Proved: c155_drawn, c155_texts, c155_units. False: the automatic unit suits the record (c155_auto_refuted: the codes 0, 1, 2 are labelled microvolts)."
  },
  {
   "property": "C156",
   "status": "proved",
   "theorems": [
    "C156_density",
    "C156_stems",
    "C156_spectra"
   ],
   "note": "The figure for infinite or undefined errors (no full scale) is not modelled; c156_spectra covers records of even length, for odd ones see c139_odd_refuted."
  },
  {
   "property": "C157",
   "status": "partial",
   "theorems": [
    "C157_same",
    "C157_no_pairs_refuted",
    "C157_grid",
    "C157_points",
    "C157_alpha"
   ],
   "note": "Proved: c157_same, c157_grid, c157_points, c157_alpha. False: plotting succeeds whenever the computation does (c157_no_pairs_refuted)."
  },
  {
   "property": "C158",
   "status": "partial",
   "theorems": [
    "C158_panels",
    "C158_nominal",
    "C158_accepts",
    "C158_stuck",
    "C158_frequency",
    "C158_ideal",
    "C158_stuck_refuted"
   ],
   "note": "Proved: c158_panels, c158_nominal, c158_accepts, c158_stuck, c158_frequency, c158_ideal. False: the dashboard is drawn whenever the calibration succeeds (c158_stuck_refuted: one stuck leading bit and ValueError is raised)."
  },
  {
   "property": "C159",
   "status": "partial",
   "theorems": [
    "C159_panels",
    "C159_arguments",
    "C159_twelve",
    "C159_accepts",
    "C159_pause",
    "C159_clean",
    "C159_short",
    "C159_twelve_accepts",
    "C159_two_level",
    "C159_clean_refuted"
   ],
   "note": "Proved: c159_panels, c159_arguments, c159_twelve, and for records of even length exactly when each dashboard is drawn (c159_accepts, c159_twelve_accepts), never below 50 samples (c159_short), always if the record stands still for twelve samples (c159_pause). False: every non-constant record of 50 samples gets one (c159_clean, c159_clean_refuted: a coherent noise-free sine; in doubles its noise is rounding error instead of 0). Two-level records never get the larger one (c159_two_level). Whether an odd record is drawn is open (see c139_odd_refuted)."
  },
  {
   "property": "C160",
   "status": "proved",
   "theorems": [
    "C160_steps",
    "C160_ends",
    "C160_nearest"
   ],
   "note": "For every draw of the random numbers; see c160_steps, c160_ends, c160_nearest."
  },
  {
   "property": "C161",
   "status": "partial",
   "theorems": [
    "C161_samples",
    "C161_aligned",
    "C161_common",
    "C161_hd3",
    "C161_hd3_refuted",
    "C161_ideal_codes",
    "C161_initial",
    "C161_errors"
   ],
   "note": "Proved: c161_samples, c161_aligned, c161_common, c161_ideal_codes, c161_errors, and what the harmonic option does (c161_hd3: the third harmonic is at h relative to the amplitude asked for, but the carrier grows by 1 + 3r). False: h is the level relative to the carrier in the record (c161_hd3_refuted)."
  },
  {
   "property": "C162",
   "status": "partial",
   "theorems": [
    "C162_mad",
    "C162_gap",
    "C162_step",
    "C162_run",
    "C162_best",
    "C162_total",
    "C162_locks",
    "C162_rests_refuted"
   ],
   "note": "Proved: c162_mad, c162_gap, c162_step, c162_run, c162_best, c162_total, c162_locks. False: an aligned sampler stays aligned (c162_rests_refuted: every pass moves every inner code, so it leaves the aligned state at once). The SFDR of a pass is an argument; that decisions are right is a hypothesis of c162_locks."
  },
  {
   "property": "C163",
   "status": "partial",
   "theorems": [
    "C163_alias",
    "C163_findbin",
    "C163_positive_refuted",
    "C163_power_of_two",
    "C163_nearest_refuted"
   ],
   "note": "Proved: c163_alias, c163_findbin, c163_power_of_two (same bin except at an exact positive even target, where MATLAB goes up and Python down). False: the bin found is positive (c163_positive_refuted, negative frequency) and the same for other lengths (c163_nearest_refuted)."
  },
  {
   "property": "C164",
   "status": "proved",
   "theorems": [
    "C164_agree"
   ],
   "note": "For all lists; see c164_agree."
  },
  {
   "property": "C165",
   "status": "partial",
   "theorems": [
    "C165_agree",
    "C165_mask",
    "C165_symmetric",
    "C165_odd_refuted",
    "C165_tie_refuted"
   ],
   "note": "Proved: c165_agree for even lengths and edges that are not halfway above an even bin, c165_mask, c165_symmetric. False for odd lengths (c165_odd_refuted: Python loses half of the top bin) and for such edges (c165_tie_refuted)."
  },
  {
   "property": "C166",
   "status": "partial",
   "theorems": [
    "C166_agree",
    "C166_tie_refuted",
    "C166_nan_refuted"
   ],
   "note": "Proved: c166_agree when the excluded number of codes is not halfway above an even number; then the results are the same or MATLAB's DNL is -1 throughout where Python's is NaN. False otherwise: c166_tie_refuted, c166_nan_refuted."
  },
  {
   "property": "C167",
   "status": "partial",
   "theorems": [
    "C167_agree",
    "C167_position",
    "C167_wide_refuted"
   ],
   "note": "Proved: c167_agree for at least as many rows as bits and a check position among the bits; c167_position for positions beyond. False for wide inputs, which MATLAB transposes (c167_wide_refuted)."
  },
  {
   "property": "C168",
   "status": "proved",
   "theorems": [
    "C168_outputs",
    "C168_given",
    "C168_lag",
    "C168_exact",
    "C168_estimate",
    "C168_auto",
    "C168_last_bin_refuted",
    "C168_refuses",
    "C168_constant",
    "C168_constant_refuted",
    "C168_findfreq_scales"
   ],
   "note": "Findings: at the last bin of the half spectrum the MATLAB estimate is half a bin off (c168_last_bin_refuted) and for a constant record it is 0/0 (c168_constant_refuted); Python's is exact, respectively 0. The lag is proved while neither side stops early and Python's clamp does not act."
  },
  {
   "property": "C169",
   "status": "proved",
   "theorems": [
    "C169_adds_up",
    "C169_agree"
   ],
   "note": "Equality of the estimated frequencies is C168."
  },
  {
   "property": "C170",
   "status": "proved",
   "theorems": [
    "C170_bins",
    "C170_error",
    "C170_range",
    "C170_refuses",
    "C170_noise",
    "C170_empty_bin",
    "C170_few_samples",
    "C170_agree",
    "C170_flat_refuted",
    "C170_constant"
   ],
   "note": "Findings: with an empty bin (fewer samples than the default 100 bins) both noises read 0 (c170_empty_bin, c170_few_samples); errors of constant size read as amplitude and as phase noise, in the Python base mode as neither (c170_flat_refuted)."
  },
  {
   "property": "C171",
   "status": "proved",
   "theorems": [
    "C171_bins",
    "C171_agree",
    "C171_rising",
    "C171_rising_refuted"
   ],
   "note": "Finding: the trace named rising belongs to phases where the fitted cosine falls (c171_rising_refuted)."
  },
  {
   "property": "C172",
   "status": "proved",
   "theorems": [
    "C172_bins",
    "C172_refuses",
    "C172_entries",
    "C172_count",
    "C172_never_lower",
    "C172_edge_refuted",
    "C172_default",
    "C172_pure_sine",
    "C172_slope",
    "C172_smooth_refuted"
   ],
   "note": "Findings: an error in the band-edge bin is in band for Python and not for MATLAB (c172_edge_refuted); with 65 points the smoothing widths are 7 and 6 (c172_smooth_refuted)."
  },
  {
   "property": "C173",
   "status": "partial",
   "theorems": [
    "C173_refuses",
    "C173_formula",
    "C173_points",
    "C173_flat",
    "C173_flat_refuted",
    "C173_fir",
    "C173_full_band"
   ],
   "note": "The announced improvement relative to NTF = 1 is not 0 for NTF = 1 (c173_flat_refuted): the mean is taken over all points, not over the band; everything else of the property is proved."
  },
  {
   "property": "C174",
   "status": "proved",
   "theorems": [
    "C174_recovers",
    "C174_search_exact",
    "C174_agrees",
    "C174_orientation",
    "C174_refuses",
    "C174_patch",
    "C174_patch_step",
    "C174_invariants",
    "C174_constant_bits",
    "C174_automatic",
    "C174_derivative",
    "C174_step",
    "C174_default_weights"
   ],
   "note": "Finding: the MATLAB search keeps an exact starting frequency where the port moves off it (C80), and refuses a constant record where the port fails with an index error."
  },
  {
   "property": "C175",
   "status": "proved",
   "theorems": [
    "C175_recovers",
    "C175_searches",
    "C175_invariants",
    "C175_refuses",
    "C175_two_equal_records"
   ],
   "note": "Finding: on the two equal records for which the port's weights are too small by the square root of 2 (C79) MATLAB returns the true ones (c175_two_equal_records)."
  },
  {
   "property": "C176",
   "status": "partial",
   "theorems": [
    "C176_fin",
    "C176_filter",
    "C176_agrees",
    "C176_outputs",
    "C176_refuses",
    "C176_order_refuted"
   ],
   "note": "Refuted side: MATLAB checks the order even when a transfer function is given and refuses calls Python accepts (c176_order_refuted); with valid options the two agree (c176_agrees)."
  },
  {
   "property": "C177",
   "status": "partial",
   "theorems": [
    "C177_agrees",
    "C177_scale",
    "C177_scale_refuted",
    "C177_empty",
    "C177_figure",
    "C177_room"
   ],
   "note": "Refuted in general: the weights 5, 3, 2 get an exact scale in MATLAB and not in Python (c177_scale_refuted), since a half is rounded away from zero; off such ties the two agree (c177_agrees)."
  },
  {
   "property": "C178",
   "status": "partial",
   "theorems": [
    "C178_cap",
    "C178_acf",
    "C178_acf_refuted",
    "C178_pdf"
   ],
   "note": "Refuted beyond the record length: MATLAB returns values where Python raises ValueError (c178_acf_refuted); equal up to it (c178_acf)."
  },
  {
   "property": "C179",
   "status": "proved",
   "theorems": [
    "C179_transfer",
    "C179_agrees",
    "C179_refuses",
    "C179_constant",
    "C179_gain_given"
   ],
   "note": "With the frequency given, no condition on the harmonics is needed; the port has no such argument (C99)."
  },
  {
   "property": "C180",
   "status": "partial",
   "theorems": [
    "C180_windows",
    "C180_band",
    "C180_band_refuted",
    "C180_spectrum",
    "C180_prepared",
    "C180_auto",
    "C180_orientation",
    "C180_orientation_refuted",
    "C180_silent_runs"
   ],
   "note": "Refuted in two corners: a band edge just below a bin (c180_band_refuted) and matrices with more than twice as many rows as columns (c180_orientation_refuted); equal elsewhere (c180_spectrum, c180_band, c180_orientation)."
  },
  {
   "property": "C181",
   "status": "proved",
   "theorems": [
    "C181_scale",
    "C181_partition",
    "C181_order"
   ],
   "note": ""
  },
  {
   "property": "C182",
   "status": "partial",
   "theorems": [
    "C182_tone_and_noise",
    "C182_spur_and_noise",
    "C182_thd",
    "C182_thd_refuted",
    "C182_harmonics",
    "C182_harmonics_refuted",
    "C182_position",
    "C182_position_refuted"
   ],
   "note": "Refuted: the rest of a harmonic's window that touches the tone is counted (c182_thd_refuted), the harmonic bin of a fractional position differs for odd lengths (c182_harmonics_refuted), a tone in the Nyquist bin gets position + 0.5 (c182_position_refuted); equal elsewhere."
  },
  {
   "property": "C183",
   "status": "proved",
   "theorems": [
    "C183_tones",
    "C183_sfdr",
    "C183_thd"
   ],
   "note": "Whole-bin tones, Hann and rectangular windows."
  },
  {
   "property": "C184",
   "status": "proved",
   "theorems": [
    "C184_turned",
    "C184_below",
    "C184_single",
    "C184_python",
    "C184_delays"
   ],
   "note": "The statement about delays is for the rectangular window."
  },
  {
   "property": "C185",
   "status": "partial",
   "theorems": [
    "C185_cutoff",
    "C185_cutoff_refuted",
    "C185_printed",
    "C185_printed_refuted",
    "C185_ideal",
    "C185_auto"
   ],
   "note": "Refuted: the tone is looked for before the cutoff is applied (c185_cutoff_refuted), and a frequency below 1 is printed one bin too high (c185_printed_refuted); what is computed is proved in c185_cutoff, c185_auto and c185_printed."
  },
  {
   "property": "C186",
   "status": "partial",
   "theorems": [
    "C186_drawn",
    "C186_presets",
    "C186_refuses",
    "C186_column_weights",
    "C186_agrees",
    "C186_negative_refuted",
    "C186_beyond_refuted",
    "C186_default_weights"
   ],
   "note": "Equal for stages 0..M (c186_agrees); refuted outside: a negative stage counts from the end in Python only (c186_negative_refuted), a stage beyond the last bit is refused in MATLAB only (c186_beyond_refuted)."
  },
  {
   "property": "C187",
   "status": "proved",
   "theorems": [
    "C187_drawn",
    "C187_true"
   ],
   "note": ""
  },
  {
   "property": "C188",
   "status": "partial",
   "theorems": [
    "C188_usage",
    "C188_marks",
    "C188_silent",
    "C188_marks_inside",
    "C188_marks_refuted"
   ],
   "note": "Refuted: the text of a bit above 97 percent starts above the axis (c188_marks_refuted, c188_marks_inside); the rest is proved."
  },
  {
   "property": "C189",
   "status": "proved",
   "theorems": [
    "C189_entries",
    "C189_prefix",
    "C189_refuses",
    "C189_constant",
    "C189_exact",
    "C189_figure"
   ],
   "note": "The value of k bits comes from a calibration of its own; the Python sweep calibrates once with all bits."
  },
  {
   "property": "C190",
   "status": "partial",
   "theorems": [
    "C190_best",
    "C190_perfect",
    "C190_reading",
    "C190_recovers",
    "C190_python",
    "C190_invariant",
    "C190_offset_refuted",
    "C190_frequency",
    "C190_inband"
   ],
   "note": "Refuted for records that do not hold whole periods: the fit has no constant, a cosine of amplitude 1 comes out as 14/15 where the Python code finds 1 (c190_offset_refuted). Records fitted exactly are an error (c190_perfect): the axis would start at -inf."
  },
  {
   "property": "C191",
   "status": "partial",
   "theorems": [
    "C191_reading",
    "C191_centre",
    "C191_hundred",
    "C191_single",
    "C191_delays",
    "C191_tone",
    "C191_tone_refuted",
    "C191_position",
    "C191_position_edge"
   ],
   "note": "Refuted: a clean tone is an error when one of the harmonics to be marked falls on half the sampling rate, which happens with the default of five (c191_tone_refuted; c191_tone says exactly when)."
  },
  {
   "property": "C192",
   "status": "partial",
   "theorems": [
    "C192_unsigned",
    "C192_signed",
    "C192_whole",
    "C192_one_bit",
    "C192_orientation",
    "C192_types",
    "C192_codes",
    "C192_overflow_refuted"
   ],
   "note": "Refuted for the overflow check of signed codes: their two's complement bits are read as unsigned, codes next to zero count as overflow (c192_overflow_refuted). The rest of the statement is proved."
  },
  {
   "property": "C193",
   "status": "partial",
   "theorems": [
    "C193_given",
    "C193_auto",
    "C193_postcal",
    "C193_range",
    "C193_span",
    "C193_recovers",
    "C193_range_refuted"
   ],
   "note": "The range is refuted where the maximum code is given and a weight is negative (c193_range_refuted); proved for positive weights (c193_range) and, as a span, for any without a given maximum (c193_span)."
  },
  {
   "property": "C194",
   "status": "partial",
   "theorems": [
    "C194_graceful",
    "C194_raises",
    "C194_values",
    "C194_exact_sine",
    "C194_bits",
    "C194_bits_failed",
    "C194_other",
    "C194_unknown",
    "C194_display_refuted",
    "C194_silent_refuted",
    "C194_linearity",
    "C194_settings"
   ],
   "note": "Refuted with a display: a perfectly fitted record makes the panel fail (c194_display_refuted; c194_raises says exactly when), and other signals are drawn without one (c194_silent_refuted)."
  },
  {
   "property": "C195",
   "status": "partial",
   "theorems": [
    "C195_window",
    "C195_halves",
    "C195_cycles",
    "C195_cycles_refuted"
   ],
   "note": "The three periods are refuted: the window is at least 101 samples wide, 25 periods at a quarter of the sampling rate (c195_cycles_refuted); c195_cycles gives its true width."
  },
  {
   "property": "C196",
   "status": "partial",
   "theorems": [
    "C196_first",
    "C196_rows",
    "C196_matrix_refuted"
   ],
   "note": "Refuted for the spectrum, which takes the rows for runs (c196_matrix_refuted, c196_rows)."
  },
  {
   "property": "C197",
   "status": "partial",
   "theorems": [
    "C197_when",
    "C197_is_spline",
    "C197_one_spline",
    "C197_no_jitter",
    "C197_cubic",
    "C197_small",
    "C197_linear",
    "C197_from_scratch",
    "C197_bounded_refuted"
   ],
   "note": "Refuted for the range: beyond the ends of the record the outermost cubic goes on, so jitter on the last sample can leave the range of the signal (c197_bounded_refuted). The rest of the statement is proved."
  },
  {
   "property": "C198",
   "status": "proved",
   "theorems": [
    "C198_when",
    "C198_short",
    "C198_filtered",
    "C198_response",
    "C198_linear",
    "C198_constant",
    "C198_zero"
   ],
   "note": ""
  },
  {
   "property": "C199",
   "status": "proved",
   "theorems": [
    "C199_target",
    "C199_steps"
   ],
   "note": ""
  },
  {
   "property": "C200",
   "status": "partial",
   "theorems": [
    "C200_two",
    "C200_three",
    "C200_scripts",
    "C200_normalised",
    "C200_overload_refuted",
    "C200_saturates"
   ],
   "note": "Refuted for the order above the range: the bits are saturated, the residue is not, so the code at full scale is below the code just under it (c200_overload_refuted). The rest of the statement is proved."
  },
  {
   "property": "C201",
   "status": "partial",
   "theorems": [
    "C201_weights",
    "C201_monotone_refuted"
   ],
   "note": "Refuted for the weights: those of every stage but the last are too small by the stage gain, and the output falls when the last stage wraps (c201_monotone_refuted). Proved: with the right factor the digits give the code of one converter (c201_weights)."
  },
  {
   "property": "C202",
   "status": "partial",
   "theorems": [
    "C202_error",
    "C202_ideal",
    "C202_resolution",
    "C202_scripts",
    "C202_missing_refuted"
   ],
   "note": "Refuted without the condition on the capacitors (c202_missing_refuted). The rest of the statement is proved."
  },
  {
   "property": "C203",
   "status": "partial",
   "theorems": [
    "C203_two_step",
    "C203_errors",
    "C203_kickback",
    "C203_memory_agrees",
    "C203_first_refuted",
    "C203_gain_agrees"
   ],
   "note": "Refuted for the memory effect at the first sample: Python takes the coarse code of the last sample, MATLAB that of the first (c203_first_refuted). Proved for every other sample and for the gain error (on the signal without its offset)."
  },
  {
   "property": "C204",
   "status": "proved",
   "theorems": [
    "C204_noise",
    "C204_jitter",
    "C204_am_noise",
    "C204_am_tone",
    "C204_glitch",
    "C204_am_pm",
    "C204_static",
    "C204_hd",
    "C204_settling",
    "C204_clip",
    "C204_drift"
   ],
   "note": "Static distortion and harmonic distortion at an offset of one half, as in the scripts."
  },
  {
   "property": "C205",
   "status": "partial",
   "theorems": [
    "C205_harmonics",
    "C205_level_refuted"
   ],
   "note": "Refuted: the third harmonic relative to the fundamental, which the cubic term moves (c205_level_refuted). Proved: the exact harmonics (c205_harmonics)."
  },
  {
   "property": "C206",
   "status": "partial",
   "theorems": [
    "C206_zones_refuted",
    "C206_zone",
    "C206_dynamic",
    "C206_name_refuted",
    "C206_name"
   ],
   "note": "Refuted: both files of gen_sinewave_nyquist_zones.m name the first zone, so the second overwrites the first (c206_zones_refuted); the name of gen_sinewave_nonlin_dynamic.m states a frequency that is not the one generated (c206_name_refuted). Proved: the zone in a name is that of the frequency (c206_zone), the name is an odd bin near the target (c206_name)."
  },
  {
   "property": "C207",
   "status": "partial",
   "theorems": [
    "C207_exact",
    "C207_r2_le",
    "C207_alone",
    "C207_r2_range_refuted",
    "C207_bins",
    "C207_value",
    "C207_run",
    "C207_phase",
    "C207_mean"
   ],
   "note": "Refuted for the range of R2: the curve is fitted to all samples but judged on the means of bins at their lower edges, and R2 = -9 occurs (c207_r2_range_refuted). The rest of the statement is proved."
  },
  {
   "property": "C208",
   "status": "partial",
   "theorems": [
    "C208_low",
    "C208_high",
    "C208_orders_refuted",
    "C208_exact",
    "C208_percent"
   ],
   "note": "Refuted for full scale with weights that are not whole multiples of one power of two: product and sum add in different orders, and a sample with all bits 1 is not counted (c208_orders_refuted); with one order it is (c208_high). The rest of the statement is proved."
  },
  {
   "property": "C209",
   "status": "partial",
   "theorems": [
    "C209_roundtrip",
    "C209_nearest",
    "C209_large_refuted",
    "C209_errors"
   ],
   "note": "Refuted for bins beyond 2^51 (c209_large_refuted). Proved for bins up to 2^49 (c209_roundtrip) and for the nearest bin (c209_nearest)."
  },
  {
   "property": "C210",
   "status": "partial",
   "theorems": [
    "C210_roundtrip",
    "C210_codes",
    "C210_power",
    "C210_exact_refuted",
    "C210_errors"
   ],
   "note": "Refuted: code 3 at 3.3 V and 12 bits comes back below 3 (c210_exact_refuted). Proved: the error bound (c210_roundtrip), codes up to 2^49 after rounding (c210_codes), exact for references that are powers of two (c210_power)."
  },
  {
   "property": "C211",
   "status": "partial",
   "theorems": [
    "C211_coarse",
    "C211_fine",
    "C211_quantiser",
    "C211_memory",
    "C211_gain",
    "C211_unit_gain",
    "C211_tiny_refuted"
   ],
   "note": "Refuted for negative samples below half a coarse step: -2^-100 gives 0 instead of -1/4096 (c211_tiny_refuted). Proved for all other samples (c211_quantiser, c211_fine, c211_memory, c211_gain, c211_unit_gain) and for the coarse code always (c211_coarse)."
  },
  {
   "property": "C212",
   "status": "partial",
   "theorems": [
    "C212_priority",
    "C212_always",
    "C212_hann_refuted",
    "C212_old_names",
    "C212_rejects"
   ],
   "note": "Refuted for window 'hann' and averageMode 'normal': named explicitly they do not overrule winType or coAvg (c212_hann_refuted). Proved for all other combinations (c212_priority, c212_always) with the rest of the statement."
  },
  {
   "property": "C213",
   "status": "proved",
   "theorems": [
    "C213_spelling",
    "C213_pairs",
    "C213_missing",
    "C213_length"
   ],
   "note": ""
  },
  {
   "property": "C214",
   "status": "partial",
   "theorems": [
    "C214_rate",
    "C214_numbers",
    "C214_documented_refuted"
   ],
   "note": "Refuted: the first number is taken as the number of harmonics and the second as full scale (c214_numbers), and the documented call fails for every coherent tone in an odd bin (c214_documented_refuted). Proved: the sampling rate, as which the documentation says N_fft is taken, has no effect without a cutoff (c214_rate)."
  },
  {
   "property": "C215",
   "status": "proved",
   "theorems": [
    "C215_outputs",
    "C215_gain",
    "C215_steady",
    "C215_parts",
    "C215_which",
    "C215_errors"
   ],
   "note": ""
  },
  {
   "property": "C216",
   "status": "partial",
   "theorems": [
    "C216_names",
    "C216_all",
    "C216_stop",
    "C216_panel",
    "C216_refused",
    "C216_stale_refuted",
    "C216_files",
    "C216_capitals"
   ],
   "note": "Refuted for a folder with pictures of an earlier run: the panel shows them and reports success (c216_stale_refuted). The rest of the statement is proved (c216_all, c216_stop, c216_panel, c216_refused)."
  },
  {
   "property": "C217",
   "status": "partial",
   "theorems": [
    "C217_weights",
    "C217_exact",
    "C217_total_refuted",
    "C217_overflow_refuted",
    "C217_lengths",
    "C217_unit_refuted"
   ],
   "note": "Refuted: the two weights of capacitors 1 and 4 add up to more than 1 by a rounding error (c217_total_refuted), and two capacitors of 2^1023 give the weights 0 and 0 and an infinite total without an error (c217_overflow_refuted), and a bridge between two capacitors of 2^600 gives an infinite total (c217_unit_refuted). The bounds on each weight and the exact case are proved (c217_weights, c217_exact)."
  },
  {
   "property": "C218",
   "status": "proved",
   "theorems": [
    "C218_monotone",
    "C218_enob",
    "C218_snr",
    "C218_roundtrip",
    "C218_inexact"
   ],
   "note": "Constants are the doubles nearest to 1.76 and 6.02."
  },
  {
   "property": "C219",
   "status": "proved",
   "theorems": [
    "C219_range",
    "C219_error",
    "C219_nan",
    "C219_limit"
   ],
   "note": "52 and 53 bits are not covered; C219_limit shows 54 is too many."
  },
  {
   "property": "C220",
   "status": "proved",
   "theorems": [
    "C220_entries",
    "C220_copies",
    "C220_report",
    "C220_flag",
    "C220_unrefined",
    "C220_converged_refuted"
   ],
   "note": "C220_converged_refuted: with max_iterations = 0 a fit that misses every sample is reported as converged."
  }
 ]
}