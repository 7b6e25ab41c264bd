# Formal model of ADCToolbox (python package) in Rocq/Coq 8.16.1

Sources: `/repo/python/src/adctoolbox` (paths below are relative to it). All Coq files are in
`rocq/theories`. File roles: `*Model.v` (definitions mirroring the code, each citing file and lines, no
proofs), `*Spec.v` (small independent specifications), `*Proofs.v` (lemmas), `*Properties.v` (only the
property theorems, each `exact lemma`, followed by `Print Assumptions`, and the non-vacuity examples).

## Modelling conventions

* **Numbers.** Python floats are modelled by exact real numbers (stdlib `R`); integers by `Z`/`nat`.
  Floating-point rounding, overflow and signed zero are NOT modelled there. Where the code itself produces or
  tests `inf`/`nan` the model uses an extended number type (finite / +inf / -inf / nan) with numpy's rules.
  The modules Flt and Ffreq (C128-C133, C147-C149) are the exception: their numbers are IEEE-754 binary64
  values (Flocq's `binary_float 53 1024`, signed zeros, infinities, nan) and every operation rounds to nearest even.
* **Exceptions are values.** Functions return `result A := Ok a | Err e`; every `raise`, and every
  exception numpy would raise on a path we model, is an `Err` branch. No silent defaults: out-of-range
  accesses go through explicit guards or are excluded by lemmas.
* **Arrays** are lists; 2-D arrays are lists of rows.
* **Oracles.** Library routines we do not verify (scipy/numpy least squares, matrix rank, FFT library,
  random generators, file copying) are universally quantified function arguments (closed `Section`
  variables), with any assumed behaviour an explicit hypothesis of the theorem.
* **Round** is round-half-to-even, as Python `round` and `np.round`.
* **Plots** (modules Plot, Draw, Panel, Dplot, Eplot, Dash) are records of what is drawn where: points, bars, lines, texts as
  numbers with decimals and unit, axis limits. matplotlib's rendering, colours and fonts are not modelled.
* Printing, warnings (unless stated) and performance are not modelled.

## Trusted base

Coq 8.16.1 kernel; the axioms printed by `Print Assumptions` beneath every theorem. For theorems over `R`
these are the standard library's `ClassicalDedekindReals.sig_forall_dec`,
`ClassicalDedekindReals.sig_not_dec`, `FunctionalExtensionality.functional_extensionality_dep`
(and `Classical_Prop.classic` where stdlib analysis lemmas use it). Theorems over `Z`/`nat`/strings are
closed under the global context. No axioms of our own. The double-precision modules use the Flocq library
(4.1, definitions and theorems only; it declares no axioms). `vcheck` also lists the stdlib's module-parameter
constants (`Rdefinitions.RbaseSymbolsImpl.*`, `ssrunder.Under_rel.*`); those are sealed definitions, not assumptions.
The faithfulness of the model to the Python text is by reading only (the code is not run).

Per theorem, `Print Assumptions` lists (table written by `tools/mkassum.py`):

<!-- axioms -->
* **no axioms (closed under the global context)** (44 theorems): C25_excludes_fundamental, C42_empty, C44_fails, C44_flags, C44_names, C45_no_clobber, C45_only_targets, C45_outcome, C45_unknown_untouched, C46_installed_content, C46_missing_source, C46_row, C46_row_synced, C46_synced, C53_content, C53_no_clobber, C53_refuses, C53_succeeds, C73_synced_identical, C73_synced_identical_refuted, C73_synced_meaning, C74_install_exit, C74_no_dest, C74_read_only, C74_status_exit_refuted, C75_atomic_refuted, C75_complete_when_clear, C75_force_keeps_old_refuted, C103_half_widths, C103_names, C161_initial, C186_presets, C188_silent, C213_spelling, C216_all, C216_capitals, C216_files, C216_names, C216_panel, C216_refused, C216_stale_refuted, C216_stop, C220_copies, C220_entries
* **`ClassicalDedekindReals.sig_forall_dec`** (11 theorems): C17_channel_samples, C17_deinterleave_domain, C17_deinterleave_interleave, C17_interleave_deinterleave, C36_runs, C43_errors, C81_prepare, C81_rejects, C162_locks, C180_orientation, C180_orientation_refuted
* **`ClassicalDedekindReals.sig_forall_dec`, `FunctionalExtensionality.functional_extensionality_dep`** (223 theorems): C01_errors, C01_minus_one, C01_plain, C01_redundant, C01_sum_plus_lsb, C02_ideal_accuracy, C03_covering_error, C03_noncovering_gap, C04_batch_independent, C04_lexicographic, C04_monotone, C05_idempotent, C05_idempotent_codes, C05_range_and_saturation, C06_bounded_noise, C07_legacy, C08_conservation, C08_electrostatics, C09_length_mismatch, C09_no_bridge, C09_scale, C10_error, C10_nearest_bin, C10_power_of_two, C11_fold_frequency, C12_even_length, C12_general_bound, C12_integer_bin, C12_odd_fractional_refuted, C13_bin_roundtrip, C13_enob, C13_lsb_volts, C13_nearest_bin, C20_polynomial_delay, C20_taps_sum_to_one, C21_error_iff, C21_integer_delay, C21_output_length, C21_same_length_refuted, C21_zero_delay, C23_antitone, C23_counts_bins, C23_error_iff, C23_exact, C23_full_band, C23_range, C24_even_length, C24_integer_fundamental, C24_odd_length_refuted, C25_dc_window_refuted, C25_harmonic_power, C25_out_of_band_refuted, C25_thd_is_union_power, C25_thd_le_sum, C25_thd_within_noise, C29_auto_is_middle, C29_domain, C29_exclusion_sums, C29_ignores_windows, C29_median_method, C29_positive, C29_trim_nonempty, C29_trimmed_method, C30_default_osr, C31_counts, C31_dnl, C31_fit, C31_inl, C31_missing, C31_order_irrelevant, C31_success_iff, C33_bound, C33_constant_error, C33_unnormalised, C33_values, C41_binary, C41_errors, C41_grows, C41_stats, C43_any_index, C43_exact, C43_telescope, C47_aout_accepts, C47_dout_accepts, C47_dout_warnings, C47_errors, C47_low_warning, C48_error, C48_monotone, C49_zero_dc, C50_mask, C50_mask_nyquist, C50_mask_odd_top, C50_mask_symmetric, C50_symmetric_refuted, C51_column_vector, C51_errors, C51_gain_offset_invariant, C51_given_range, C51_orientation, C51_peak_to_peak_two, C51_unit_range_refuted, C51_within_two, C51_zero_mean, C54_fundamental_is_peak, C64_ramp_accuracy, C72_mean, C72_percentage, C76_aout_samples_refuted, C76_dout_bool_refuted, C76_low_amplitude_refuted, C76_one_dimensional, C76_unsigned, C87_edge, C87_lag_limit, C88_covers_refuted, C88_inferred, C109_single_bin, C115_interior, C124_points, C136_axis_fallback, C136_axis_min, C137_hidden, C137_label, C137_visible, C138_fin_refuted, C138_fin_text, C138_rate_text, C141_limits, C141_lines_refuted, C141_ramp, C141_signed_refuted, C150_bars, C150_errors, C150_marked, C150_visible, C150_visible_refuted, C151_default, C151_envelope, C151_inside, C151_inside_refuted, C151_opacity, C151_points, C151_texts, C153_accepts, C153_note_text, C153_notes, C153_notes_inside, C153_points, C153_sign_refuted, C157_alpha, C157_grid, C157_no_pairs_refuted, C157_points, C157_same, C160_ends, C160_nearest, C160_steps, C161_ideal_codes, C162_mad, C163_alias, C163_findbin, C163_nearest_refuted, C163_positive_refuted, C163_power_of_two, C164_agree, C165_mask, C165_symmetric, C167_agree, C167_position, C167_wide_refuted, C172_bins, C172_count, C172_default, C172_smooth_refuted, C173_points, C176_filter, C177_room, C178_acf, C178_acf_refuted, C178_cap, C180_auto, C180_band, C180_band_refuted, C180_prepared, C182_harmonics, C182_harmonics_refuted, C182_thd_refuted, C185_printed, C185_printed_refuted, C186_default_weights, C195_cycles, C195_cycles_refuted, C195_halves, C195_window, C197_one_spline, C200_normalised, C200_overload_refuted, C200_saturates, C200_scripts, C200_three, C200_two, C201_monotone_refuted, C201_weights, C202_error, C202_ideal, C202_missing_refuted, C202_scripts, C203_errors, C203_kickback, C203_two_step, C204_clip, C206_zone, C206_zones_refuted, C207_bins, C212_always, C212_hann_refuted, C212_old_names, C212_priority, C212_rejects, C213_length, C213_missing, C213_pairs
* **`ClassicalDedekindReals.sig_forall_dec`, `functional_extensionality_dep`** (11 theorems): C186_agrees, C186_beyond_refuted, C186_column_weights, C186_drawn, C186_negative_refuted, C186_refuses, C188_marks, C188_marks_inside, C188_marks_refuted, C188_usage, C189_figure
* **`ClassicalDedekindReals.sig_forall_dec`, `ClassicalDedekindReals.sig_not_dec`, `FunctionalExtensionality.functional_extensionality_dep`** (171 theorems): C07_default_units, C07_errors, C07_given_units, C07_scale, C07_zero_sigma, C18_restores_signal, C18_unknown_method, C18_wrong_sizes, C22_no_spurs_iff_matched, C22_size_check, C22_spur_list, C28_auto_reference, C28_first_crossing, C28_inside_band, C32_eval, C32_inl_end, C32_missing_label, C32_missing_refuted, C32_no_interior, C32_shape, C32_total, C32_values, C35_split, C37_bit_weights, C37_error, C37_output_preserved, C39_frequency_guard, C39_nonneg_sum, C39_recovers, C48_idempotent, C48_levels, C49_builtin, C49_custom, C49_errors, C49_fir, C49_integrated, C50_brickwall, C50_columns, C50_errors, C50_full_band_even, C50_full_band_refuted, C50_idempotent, C50_odd_top_halved, C50_response, C50_tone, C50_wide, C57_bandlimited_delay, C57_compose_even_refuted, C57_integer_delay_circular, C58_offset_amplitude_refuted, C60_fft_calibration_exact, C62_rectangular_total, C62_total_power, C63_tone_counted_twice, C63_total_bounds, C66_polynomial, C67_coarse, C67_dynamic, C67_dynamic_static, C67_errors, C67_residue, C67_unity, C68_constant, C68_short, C69_closed_form, C70_clip, C70_errors, C70_flat, C70_identity, C71_additive, C71_am_tone, C71_jitter, C71_memory, C71_values, C77_pure_sine_refuted, C78_complementary_bits_refuted, C84_centroid, C84_coherent, C84_odd_top_bin, C84_odd_top_bin_refuted, C84_range, C85_derivative_column, C85_gauss_newton, C85_stationary, C85_update, C103_gain, C103_leakage, C103_length, C103_samples, C112_at_most_half, C112_circle, C112_invariant, C112_lags, C112_majority, C112_outliers, C113_auto, C113_quality, C113_short, C118_dominates, C118_energy, C118_gain, C118_modulation, C118_pure_tone, C118_real_part, C118_tones, C124_differencer, C141_sine, C141_sine_refuted, C154_drawn, C154_same, C154_total, C165_agree, C165_odd_refuted, C165_tie_refuted, C166_agree, C166_nan_refuted, C166_tie_refuted, C168_estimate, C168_last_bin_refuted, C171_rising, C171_rising_refuted, C173_fir, C174_derivative, C174_patch, C174_patch_step, C174_step, C176_agrees, C176_order_refuted, C176_outputs, C176_refuses, C180_windows, C185_auto, C185_ideal, C190_inband, C194_linearity, C197_bounded_refuted, C197_cubic, C197_from_scratch, C197_is_spline, C197_linear, C197_no_jitter, C197_small, C197_when, C198_constant, C198_filtered, C198_linear, C198_response, C198_short, C198_when, C198_zero, C203_first_refuted, C203_gain_agrees, C203_memory_agrees, C204_am_noise, C204_am_pm, C204_am_tone, C204_glitch, C204_jitter, C204_noise, C204_settling, C204_static, C206_dynamic, C206_name, C206_name_refuted, C207_alone, C207_exact, C207_mean, C207_phase, C207_r2_le, C207_r2_range_refuted, C207_value
* **`ClassicalDedekindReals.sig_forall_dec`, `ClassicalDedekindReals.sig_not_dec`, `Classical_Prop.classic`, `FunctionalExtensionality.functional_extensionality_dep`** (507 theorems): C14_dbm, C14_domain, C14_inverse, C14_monotone, C14_products, C15_agree, C15_osr_doubling, C15_positional_order_refuted, C15_value_and_inverse, C16_infinite_iff, C16_osr, C16_scale_and_monotone, C16_value, C19_constant_moves_offset_only, C19_error_iff, C19_normalised, C26_partition, C26_sfdr_ge_sndr, C26_spur_is_maximal, C27_same_domain, C27_same_sndr, C28_window_complete, C30_monotone, C30_reorder, C30_sfdr_monotone, C30_sweep_is_direct, C33_analysis, C33_at_most_one_refuted, C34_accepts, C34_statistics, C34_totals, C35_reproduces, C35_variances, C36_accepts, C36_adds_up, C37_own_column, C38_factor, C38_range, C38_undone, C40_figures, C40_invariants, C42_binary, C42_invariant, C42_lower, C42_radix, C42_scale, C42_significant, C52_channels, C52_failure, C52_iterations, C52_negative_limit, C52_parameters, C54_dc_neighbour_refuted, C54_single_bin, C54_within_half_bin, C55_recovers, C56_jitter, C56_schreier, C56_sine_power, C56_thermal, C56_walden, C57_delays_compose_odd, C58_gain_skew_exact, C58_offset_decomposition, C59_recovers_mismatch, C60_extract_then_calibrate, C61_defined, C61_sfdr, C61_sfdr_clean, C61_sndr, C61_thd, C61_tone_powers, C63_power_ratio_refuted, C65_levels, C65_sine_accuracy, C66_harmonics, C66_hd2, C66_hd3_refuted, C66_side_products, C68_bounded, C68_step, C69_bound, C71_shaping, C79_two_data_sets_refuted, C80_exact_start_moves_refuted, C80_one_iteration_scale, C81_calibrate_errors, C81_known_frequencies, C82_three_parameter_optimal, C83_exact_sine, C84_auto_fit, C86_constant_refuted, C86_constant_split, C87_default_refuted, C89_balance_refuted, C89_power_balance, C90_both_refuted, C90_recovery, C91_r2_binned, C91_r2_raw, C91_raw_definition, C92_bin_count, C92_phase_bins, C92_reference, C93_components, C93_optimal, C94_auto, C94_coherent_independent, C94_exact, C94_phase_sign_refuted, C95_frequency_moves_refuted, C95_no_refinement, C95_pure_sine, C96_constant, C96_decibels, C96_residual_rms_refuted, C96_residual_scale, C97_accepts, C97_transfer, C98_exact, C99_gain, C99_refuted, C100_collided, C100_noise, C100_ratios, C100_signal, C101_cutoff_bins, C101_no_cutoff, C101_zero_fs, C102_no_interpolation, C102_parabola_exact, C104_least_squares, C105_compute, C105_coprime, C105_harmonics_kept, C106_below_power_average, C106_fundamental, C106_single, C106_square, C107_degrees, C107_memoryless, C107_phases, C108_all_silent, C108_order, C108_silent, C110_unrelated_tone_refuted, C111_folded_phase_refuted, C113_near_nyquist, C113_slow, C114_ninety_degrees_refuted, C115_errors, C115_exact, C115_memoryless, C115_nonnegative, C115_pure_sine, C115_result, C116_centred, C116_errors, C116_positive, C116_resolution, C116_spread, C116_values, C117_lower_bound, C117_negative, C117_nonnegative_refuted, C119_bins, C119_errors, C119_invariant, C119_level, C119_strongest, C119_tones, C120_modulation, C121_floor, C121_orders, C122_entries, C122_errors, C122_first, C122_last, C122_true_weights, C123_wide_refuted, C124_better, C124_errors, C124_first_order, C124_flat, C124_formula, C124_gain, C124_narrower, C125_flat_refuted, C125_offset, C126_entries, C126_errors, C126_pure_sine, C127_checks, C127_reach, C127_slope, C128_convert, C128_convert_zero, C128_limit, C128_reconstruct, C128_roundtrip, C128_weights, C129_monotone, C130_accepted_range_refuted, C130_saturation, C131_dyadic, C131_reconversion_refuted, C132_dyadic, C132_exact, C132_monotone, C133_dyadic, C133_requantise_refuted, C134_column_order, C134_defined, C134_exact, C134_leading_bits, C134_range, C135_calibration, C135_per_set, C136_frequency_axis, C136_level_axis, C136_noise_line, C136_virtuoso_axis, C137_in_plot, C139_both_plots, C139_drawable, C139_marked, C139_odd_refuted, C140_block_height, C140_block_side, C140_metrics, C140_notes, C140_signal_span, C140_signal_text, C140_title, C142_cycles, C142_cycles_refuted, C142_fit_hidden_refuted, C142_vertical, C142_window, C143_accepts, C143_circle_refuted, C143_perfect_refuted, C143_reading, C144_bars, C144_bars_refuted, C144_points, C145_accepts, C145_bars, C145_curve_refuted, C145_curves, C145_texts, C145_upper, C146_accepts, C146_centre, C146_fundamental, C146_marks, C146_points, C146_points_refuted, C146_short, C146_texts, C146_ticks, C146_ticks_refuted, C147_bound, C147_exact, C147_first_zone, C147_large_refuted, C147_overflow_refuted, C147_range_refuted, C148_errors, C148_even, C148_integer, C148_negative_refuted, C148_nonneg, C149_coherent_refuted, C149_errors, C149_frequency, C149_idempotent, C149_nearest, C149_power_of_two, C149_valid, C152_errors, C152_labels, C152_labels_refuted, C152_points, C152_texts, C153_drawn, C153_stuck, C153_stuck_refuted, C155_auto_refuted, C155_drawn, C155_texts, C155_units, C156_density, C156_spectra, C156_stems, C158_accepts, C158_frequency, C158_ideal, C158_nominal, C158_panels, C158_stuck, C158_stuck_refuted, C159_accepts, C159_arguments, C159_clean, C159_clean_refuted, C159_panels, C159_pause, C159_short, C159_twelve, C159_twelve_accepts, C159_two_level, C161_aligned, C161_common, C161_errors, C161_hd3, C161_hd3_refuted, C161_samples, C162_best, C162_gap, C162_rests_refuted, C162_run, C162_step, C162_total, C168_auto, C168_constant, C168_constant_refuted, C168_exact, C168_findfreq_scales, C168_given, C168_lag, C168_outputs, C168_refuses, C169_adds_up, C169_agree, C170_agree, C170_bins, C170_constant, C170_empty_bin, C170_error, C170_few_samples, C170_flat_refuted, C170_noise, C170_range, C170_refuses, C171_agree, C171_bins, C172_edge_refuted, C172_entries, C172_never_lower, C172_pure_sine, C172_refuses, C172_slope, C173_flat, C173_flat_refuted, C173_formula, C173_full_band, C173_refuses, C174_agrees, C174_automatic, C174_constant_bits, C174_default_weights, C174_invariants, C174_orientation, C174_recovers, C174_refuses, C174_search_exact, C175_invariants, C175_recovers, C175_refuses, C175_searches, C175_two_equal_records, C176_fin, C177_agrees, C177_empty, C177_figure, C177_scale, C177_scale_refuted, C178_pdf, C179_agrees, C179_constant, C179_gain_given, C179_refuses, C179_transfer, C180_silent_runs, C180_spectrum, C181_order, C181_partition, C182_position, C182_position_refuted, C182_spur_and_noise, C182_thd, C182_tone_and_noise, C183_sfdr, C183_thd, C183_tones, C184_below, C184_delays, C184_python, C184_single, C184_turned, C185_cutoff, C185_cutoff_refuted, C190_best, C190_frequency, C190_invariant, C190_offset_refuted, C190_perfect, C190_python, C190_reading, C190_recovers, C191_centre, C191_delays, C191_hundred, C191_position, C191_position_edge, C191_reading, C191_single, C191_tone, C191_tone_refuted, C192_codes, C192_one_bit, C192_orientation, C192_overflow_refuted, C192_signed, C192_types, C192_unsigned, C192_whole, C193_auto, C193_given, C193_postcal, C193_range, C193_range_refuted, C193_recovers, C193_span, C194_bits, C194_bits_failed, C194_display_refuted, C194_exact_sine, C194_graceful, C194_other, C194_raises, C194_settings, C194_silent_refuted, C194_unknown, C194_values, C196_first, C196_matrix_refuted, C196_rows, C199_steps, C199_target, C202_resolution, C204_drift, C204_hd, C205_harmonics, C205_level_refuted, C207_run, C208_exact, C208_high, C208_low, C208_orders_refuted, C208_percent, C209_errors, C209_large_refuted, C209_nearest, C209_roundtrip, C210_codes, C210_errors, C210_exact_refuted, C210_power, C210_roundtrip, C211_coarse, C211_fine, C211_gain, C211_memory, C211_quantiser, C211_tiny_refuted, C211_unit_gain, C214_documented_refuted, C214_numbers, C214_rate, C215_errors, C215_gain, C215_outputs, C215_parts, C215_steady, C215_which, C217_exact, C217_lengths, C217_overflow_refuted, C217_total_refuted, C217_unit_refuted, C217_weights, C218_enob, C218_inexact, C218_monotone, C218_roundtrip, C218_snr, C219_error, C219_limit, C219_nan, C219_range, C220_converged_refuted, C220_flag, C220_report, C220_unrefined, C602_fin
* **`ClassicalDedekindReals.sig_forall_dec`, `ClassicalDedekindReals.sig_not_dec`, `Classical_Prop.classic`, `functional_extensionality_dep`** (8 theorems): C181_scale, C187_drawn, C187_true, C189_constant, C189_entries, C189_exact, C189_prefix, C189_refuses
<!-- end axioms -->

## Plan per property (written before the proofs)

* **C01 Ideal SAR weights are normalised by sum plus one LSB** - SarModel `ideal_weights` (Z index semantics of list insert/index). Induction on n; geometric sum.
* **C02 Noise-free ideal SAR conversion is accurate to one LSB** - Instance of C03 for the ideal arrays.
* **C03 SAR accuracy holds for any covering weight array** - Greedy bit-trial loop as structural recursion over weights; residual invariant by induction.
* **C04 SAR conversion is monotonic** - Induction over weights generalising the DAC accumulator.
* **C05 SAR reconstruction is idempotent, bounded and saturates** - Same; idempotence by code equality.
* **C06 SAR redundancy absorbs bounded comparator errors** - Bit-trial loop with an arbitrary noise list; residual interval invariant.
* **C07 Capacitor mismatch model: validation and scaling** - Mismatch functions with the RNG draws as an arbitrary list argument; full guard chain.
* **C08 CDAC capacitor-to-weight conversion conserves charge** - Loop from LSB to MSB as a fold over (bit, parasitic, bridge) triples; invariant sum<=1.
* **C09 CDAC weights: closed form, scale invariance, length check** - Closed form by induction; scaling by a simulation argument.
* **C10 Coherent frequency search returns the nearest admissible bin** - Integer window scan on Z; stable minimum; optimality over all Z.
* **C11 Frequency folding lands in the first Nyquist zone** - Round-half-even on R built from the stdlib integer part.
* **C12 Bin folding lands in [0, n/2]** - Modulo on R; refuted for odd n and fractional bins, proved for integers and for even n.
* **C13 Bin/frequency and code conversions are consistent** - Direct real arithmetic.
* **C14 Decibel conversions are mutually inverse** - ln/exp of the standard library.
* **C15 NSD and SNR conversions are inverse and the two implementations agree** - ln/exp.
* **C16 Amplitude-to-SNR conversion** - Extended result (inf) value.
* **C17 Deinterleave and interleave are inverse** - Lists and nat indices.
* **C18 Foreground calibration undoes offset and gain mismatch** - Map over channels through deinterleave/interleave.
* **C19 Extracted mismatch is normalised** - Real arithmetic over arbitrary phasors; phase oracle for numpy angle/unwrap.
* **C20 Farrow taps reproduce polynomials** - Lagrange basis; polynomial identity by root counting.
* **C21 Farrow integer delays are pure shifts** - Convolution 'same' on lists.
* **C22 Predicted spurs are exactly the interleaving images** - List construction and sort; DFT magnitudes over R pairs.
* **C23 In-band bin count** - Real floor; Z result.
* **C24 Harmonic bins are valid spectrum indices** - fold + round-half-even.
* **C25 THD counts each distinct harmonic bin once** - Loop with a visited list.
* **C26 Signal, noise and spur are a consistent partition; SFDR >= SNDR** - List slicing and sums.
* **C27 quick_sndr agrees with compute_spectrum** - Two functions over the same prepared spectrum.
* **C28 Automatic side-bin stays inside the band** - Arithmetic on Z.
* **C29 Noise estimate is positive and ignores the signal window** - Sorting, median, trimmed mean on lists.
* **C30 OSR sweep equals direct in-band integration** - Loop over sorted list; invariant accumulated = prefix sum.
* **C31 Ramp DNL/INL laws** - Histogram lists.
* **C32 Sine-histogram DNL/INL laws** - Histogram + cos; label refuted.
* **C33 Error autocorrelation is normalised and bounded** - Sums; |acf|<=1 refuted by witness.
* **C34 Value-binned error statistics are consistent** - Histogram, Cauchy-Schwarz.
* **C35 AM/PM split reproduces the fitted error power** - Trig identity, case split.
* **C36 Harmonic decomposition adds back to the signal** - Oracle least squares.
* **C37 Rank-deficiency patch preserves the reconstructed signal** - Loop over bits, rank oracle; invariant on columns.
* **C38 Column scaling for conditioning is undone exactly** - Power-of-ten scales.
* **C39 Lite sine calibration recovers the true weights** - Least-squares oracle specified as a minimiser; full column rank hypothesis.
* **C40 Calibration post-processing invariants** - Lists.
* **C41 Overflow analysis ranges** - Lists.
* **C42 Weight-radix effective resolution** - Sorting; log2.
* **C43 Residual scatter telescopes** - Dot products.
* **C44 Skill name resolution** - Strings and lists.
* **C45 Skill installation never clobbers without --force** - File system as finite map, install as a step trace with crash points.
* **C46 Status after a successful install is synced** - Same file system.
* **C47 Input validation accepts exactly well-formed data** - Array descriptor record.
* **C48 Quantiser model laws** - floor/clip.
* **C49 Noise shaping adds exactly the filtered quantisation error** - FIR filter on lists.
* **C50 Brick-wall filter mask is symmetric** - Mask over nat indices; refuted for odd N.
* **C51 FFT input preparation normalises consistently** - Lists; +-1 claim refuted.
* **C52 Sine fit bookkeeping** - Loop with oracle solver.
* **C53 Example copy command never overwrites** - File system.
* **C54 Fundamental location interpolates within half a bin** - ln interpolation.
* **C55 Known-frequency sine calibration recovers the true weights** - Least-squares oracle with explicit column layout.
* **C56 Figures of merit scale as documented** - ln/exp, monotonicity by cases.
* **C57 FFT fractional delay is exact for band-limited records** - DFT inversion over Cplx.v; composition by phase addition, even length refuted at the Nyquist bin.
* **C58 Predicted spur amplitudes match the interleaved signal** - Geometric sums of roots of unity; explicit image phasors.
* **C59 Mismatch extraction recovers the true mismatch** - C52/C83 per channel plus angle bookkeeping.
* **C60 Foreground calibration is exact end to end** - Composition of C18, C57, C59.
* **C61 Coherent tones are measured exactly** - DFT of cosines, Parseval-style window sums, partition of C26.
* **C62 The corrected spectrum conserves power** - Parseval for the windowed record.
* **C63 The OSR sweep's SNDR is the ratio of signal power to in-band error power** - Hann side-bin algebra: each tone counted twice.
* **C64 Ramp DNL and INL track the converter's transition levels** - Histogram of a uniform ramp against transition levels.
* **C65 Sine-histogram DNL/INL track the converter's transition levels** - Limit statement by counting bounds on cos.
* **C66 Harmonic-distortion requests produce the requested harmonics** - Chebyshev expansion of the polynomial.
* **C67 Two-stage pipeline gain error** - Case analysis of the stage decisions.
* **C68 Incomplete settling stays between the previous output and the input** - Convexity by induction.
* **C69 Reference droop is a fading sum with a bounded relative error** - Linear recurrence, geometric weights.
* **C70 Percentile clipping** - Linear interpolation of order statistics.
* **C71 Impairments of strength zero leave the signal alone** - Unfolding with zero strength.
* **C72 Bit activity is the share of ones and determines the mean code** - Sums of 0/1.
* **C73 Synced means the installed copy is identical** - Tree comparison; witness trees.
* **C74 Command-line exit codes of the skill installer** - Exit codes by case analysis of the command.
* **C75 Skill installation is all-or-nothing** - Step traces.
* **C76 Validation follows its documented conventions** - Witness arrays.
* **C77 Lite calibration works for every phase of the input** - Witness record, every least-squares solver.
* **C78 Merging dependent bits keeps the information** - Witness bit matrix.
* **C79 Calibration from several data sets has the same scale as from one** - Normalisation index algebra.
* **C80 Frequency search keeps an exact frequency and its scale** - One iteration of the search by hand.
* **C81 Calibration input preparation accepts exactly well-formed input** - Decision table for shapes.
* **C82 Three-parameter sine fit is least-squares optimal** - Normal equations from the minimiser property.
* **C83 An exact sine is returned unchanged by the fit** - Uniqueness of least squares on an exact sine.
* **C84 Automatic frequency estimate** - Centroid formula; leakage of a coherent sine.
* **C85 Frequency refinement is a Gauss-Newton step** - Column layout of the derivative.
* **C86 A constant record has zero amplitude** - Minimum-norm solution of the degenerate system.
* **C87 Error autocorrelation works for any max_lag** - Slice semantics.
* **C88 Inferred value range covers the signal** - Decision table.
* **C89 AM/PM/base power balances the measured error power** - Clamping cases.
* **C90 Exact AM and PM variances are recovered** - Two-parameter least squares in closed form.
* **C91 R squared values are proper** - Cauchy-Schwarz, sum of squares decomposition.
* **C92 Phase bins partition the samples** - Floor arithmetic.
* **C93 Harmonic fit is optimal and powers add up** - Normal equations, orthogonality.
* **C94 Exact harmonic content is recovered** - Uniqueness of the harmonic fit.
* **C95 A supplied exact frequency is kept** - Hand-solved refinement step.
* **C96 Residual RMS and dB figures** - Definitions.
* **C97 Static nonlinearity fit is the optimal polynomial** - Change of columns in least squares.
* **C98 Exact polynomial transfer is recovered** - Uniqueness with enough distinct abscissae.
* **C99 The documented model's k2 and k3 are returned** - Composition of C98 with the fit of a distorted sine.
* **C100 Reported spectrum figures follow from the measured powers** - Algebra of the record fields.
* **C101 Cutoff removes exactly the bins below the cutoff frequency** - Bin arithmetic.
* **C102 Fundamental interpolation is exact for log-parabolic peaks** - Vertex of a parabola in log magnitude.
* **C103 Window table: samples, coherent gain, ENBW, leakage width** - Trigonometric sums; comparison of tables.
* **C104 Calibration is the least-squares solution** - Minimiser property through scaling and patching.
* **C105 Coherent averaging of shifted records** - Phase alignment as modular arithmetic on bins.
* **C106 Coherent average versus power average** - Triangle inequality for complex sums.
* **C107 Phases of harmonics after alignment** - Integer folding of harmonic orders.
* **C108 Silent runs and run order** - Filtering; permutation of a finite sum.
* **C109 Single-bin THD helper** - Unfolding.
* **C110 Tones unrelated to the fundamental survive coherent averaging** - Two-run witness.
* **C111 Documented harmonic phase** - Witness record.
* **C112 Phase-plane outliers** - Order statistics; counting.
* **C113 Automatic lag of the phase plane** - Parabola/peak arithmetic.
* **C114 Automatic lag gives about 90 degrees** - Witness with 4096 samples, bounds on cos.
* **C115 Error phase plane: trend and hysteresis gap** - Normal equations of polyfit.
* **C116 Error density: reported statistics** - Kernel density sums.
* **C117 KL divergence of the error density is a distance** - Log-sum inequality; witness.
* **C118 Hilbert envelope of the error** - Analytic signal of a cosine by orthogonality.
* **C119 Error spectrum analyses exactly what the sine fit leaves** - Span of the fit columns and its orthogonal complement.
* **C120 Envelope spectrum reports the modulation of the error** - Envelope of two tones.
* **C121 Polar analysis always locates HD2 and HD3** - max 3 and field projection.
* **C122 ENOB sweep reports the ENOB of the leading bits** - Unfolding the loop; affine invariance of the spectrum.
* **C123 ENOB sweep accepts what the calibration accepts** - Witness matrix.
* **C124 Noise-transfer-function analysis integrates the response over the band** - Grid of 65536 points, trapezoidal sum; z-transform on the unit circle.
* **C125 NTF = 1 has no noise suppression** - Closed form of the excess; witness band.
* **C126 OSR sweep is the fitted sine against the in-band residual** - Pythagoras for the fitted sine and the residual; Parseval for the band.
* **C127 perfosr validates its arguments and the slope is the local slope** - Guard chain; np.gradient-style differences.
* **C128 In double precision the binary SAR converter is exact** - Flocq doubles; sums of dyadic numbers below 2^53 are exact.
* **C129 In double precision the SAR converter is monotone** - Monotone rounding, infinities included, induction over the bits.
* **C130 Inputs beyond an accepted range saturate** - Normalised input at or beyond the ends; witness with an overflowing span.
* **C131 Converting a reconstructed code gives the code back** - Dyadic case by C128; witness found by search.
* **C132 Quantiser in double precision** - Monotone operators composed; dyadic step exact.
* **C133 Quantising twice changes nothing** - Dyadic case; witness.
* **C134 Automatic start frequency of the calibration** - Normal equations of the two-column start model; argsort as an oracle.
* **C135 Each data set has its own start frequency** - Loop over data sets, index lemma.
* **C136 Axes of the spectrum plot** - Axis limits as min/max expressions, case split.
* **C137 Spur label** - Label position through an abstract monotone transform.
* **C138 Frequency texts of the plot** - Interval of the prefix; witness at 1 Hz..1 kHz.
* **C139 Harmonic markers** - Index bounds of folded harmonics; witness of odd length.
* **C140 Text block and signal markers** - Formatting as rounding to a decimal grid.
* **C141 DNL/INL plots show every point** - Extremes of lists inside padded axes; witnesses.
* **C142 Time plot of the decomposition** - Ceil/floor of the sample window; witnesses.
* **C143 Polar plot of the decomposition** - Hypotenuse bounds; log of zero raises.
* **C144 Error-by-value plot** - Bin centres and widths; witness.
* **C145 Error-by-phase plot** - Sorting and wrapping of phases; witness curve.
* **C146 Polar spectrum plot** - Percentile bounds, ring labels; witnesses.
* **C147 Frequency folding in double precision** - Relative error of the quotient against the gap 1/(2b) to a half integer.
* **C148 Bin folding in double precision** - fmod on integers mantissas; the mirror image keeps the binade.
* **C149 Coherent frequency in double precision** - Four relative errors of 2^-53; stable minimum as in C10.
* **C150 Bit activity plot** - Bars as (index, percentage) pairs; axis limits against text positions.
* **C151 Overflow plot** - Linear map of residues into [0,1]; sign of the weights decides.
* **C152 Weight radix plot** - Labels follow argsort (oracle); ratio texts from the model of C42.
* **C153 ENOB sweep plot** - Axis limits from finite ENOBs only; exact condition for the limits to exist.
* **C154 Phase plane plot** - Partition of the indices by the outlier mask.
* **C155 Error phase plane plot** - Unit factor applied once; polynomial curves over sorted samples.
* **C156 Plots of the error density, autocorrelation and spectra** - np.linspace ends cover the extremes; composition with the spectrum analysis.
* **C157 Residual scatter plot** - Division with remainder for the grid.
* **C158 Dashboard of digital output** - Composition of C01-C153; scaling of the spectrum panel for ideal weights.
* **C159 Dashboards of analog output** - Composition; a trigonometric sum with 6 frequencies that vanishes on 12 consecutive samples vanishes everywhere.
* **C160 Variable delay line** - Running sums telescope; argmin by induction on the list.
* **C161 Multi-channel sampler** - Each sample by evaluation; the cubic term through cos 3x; the refutation solves two samples for the two amplitudes.
* **C162 Background skew calibration** - cos a - cos b as a product of sines; induction on the passes with the list of code sets; clipping by integer arithmetic.
* **C163 MATLAB alias and findbin against the Python functions** - alias: both values are the distance to the nearest multiple of fs, which is unique. findbin: the search visits start, start+1, start-1, ... and some coprime bin is within N of any start; for powers of two coprime means odd.
* **C164 MATLAB cdacwgt against convert_cap_to_weight** - Induction over the bits with the reversed lists; both keep the same running capacitance and rescaled weights.
* **C165 MATLAB ifilter against extract_freq_components** - The mask of both is membership in the rounded band or its mirror; m_round and round-half-even differ only at ties; the two inverse transforms are then equal sums.
* **C166 MATLAB inlsin against compute_inl_from_sine** - The same histogram and cosine transform; the exclusions are equal off ties; the normalisation differs only when the mean step is zero.
* **C167 MATLAB bitchk against analyze_overflow** - Unfolding of both definitions; column sums of the low bits are the same lists.
* **C168 MATLAB sinfit against fit_sine_4param** - Fitted values of a least-squares problem are unique, coefficients when the columns are independent; pass k of one loop is matched with refinement k of the other by induction.
* **C169 MATLAB tomdec against decompose_harmonic_error** - Uniqueness of fitted values over the same columns in another order.
* **C170 MATLAB errsin by phase against rearrange_error_by_phase** - Bin sums against class sums of the spec; rounding of degrees against floor of twice the bins; normal equations of the two-column noise fit.
* **C171 MATLAB errsin by value against rearrange_error_by_value** - Equal bins with the last one closed; floor of the doubled index against round; derivative of the fitted cosine.
* **C172 MATLAB perfosr against sweep_performance_vs_osr** - Characterise the kept bins by the band edge; sorting routine as an argument with its specification; compare the two bin counts; exact fit from C168 for the pure sine.
* **C173 MATLAB ntfperf against ntf_analyzer** - Count the grid points by floor and ceiling; finite trigonometric sums over the grid for the FIR energy.
* **C174 MATLAB wcalsin against calibrate_weight_sine, one record** - Uniqueness of the two least-squares solutions from separability, then the same formulas on both sides; patch invariant as for C37; a zero residual in the extended solve stops the search.
* **C175 MATLAB wcalsin, several records** - Row and column lemmas for stacked blocks turn the joint system into one tone equation per record; then the single-record argument.
* **C176 MATLAB noiseshape against apply_noise_shaping** - Invariant relating the state of the transposed form to the difference equation of lfilter; quantiser lemmas of C125.
* **C177 MATLAB plotwgt against analyze_weight_radix** - The order list is a permutation sorted by size; compare the two search ranges; optimality over the range by induction.
* **C178 MATLAB cap2weight, errac and errpdf against Python** - The reversed lists of C164; the two lags differ by commuting the product; the density by unfolding.
* **C179 MATLAB fitstaticnl against fit_static_nonlin** - Uniqueness of the least-squares polynomial on distinct values, from uniqueness of fitted values and the zeros of a polynomial; orthogonality of the harmonics to the three columns.
* **C180 MATLAB plotspec: the spectrum against Python** - Linearity of the DFT in the window's scale; the bands from C23.
* **C181 MATLAB plotspec: powers partition the band** - Characterise every field of the result as a sum over a set of bins, then compare the sets.
* **C182 MATLAB plotspec: metrics against Python** - Both sides as sums over sets of bins (C25, C54); folding lemmas of C24 for the harmonics.
* **C183 MATLAB plotspec: exact metrics of a sum of tones** - Tone spectra of C59 carried over through C180, then the sets of C181.
* **C184 MATLAB plotspec: coherent averaging** - Closed form of the turned spectrum from the first harmonic order that lands in a bin (C60).
* **C185 MATLAB plotspec: cutoff, automatic half-width and printed frequency** - Read off the result; induction on the scan for the half-width.
* **C186 MATLAB plotres: residuals between stages** - Panels are a map over the pairs; both programs reduce to the same per-sample difference.
* **C187 MATLAB plotressin: residuals of a calibrated capture** - c174_invariants and c174_recovers give signal and weights; the panels from C186.
* **C188 MATLAB bitact: share of ones per bit** - Reuse of C72; case split on the thresholds.
* **C189 MATLAB bitsweep: ENOB against the number of bits** - Leading columns as a truncated matrix; c174_constant_bits, c174_recovers and invariance of the spectrum under scaling (c181_scale).
* **C190 MATLAB plotphase, LMS mode: harmonics of a capture** - Normal equations of the harmonic basis; uniqueness of the solution for independent columns; orthogonality of harmonics over whole periods.
* **C191 MATLAB plotphase, FFT mode: the polar spectrum** - The alignment loop of C184 with another exponent; level and radius are monotone in the magnitude; the tone's DFT gives one non-empty bin, aliasing by the nearest multiple.
* **C192 MATLAB adcpanel: which data it takes for what** - Binary expansion by induction; ceil(log2) against powers of two; transposition twice.
* **C193 MATLAB adcpanel: calibrated bits and their full scale** - Inversion of the calibration call; sums of scaled weights; recovery from C174.
* **C194 MATLAB adcpanel: the report** - Inversion of the try blocks; the limits of the tile increase exactly when neither signal nor error is constant; an exact sine is fitted exactly when the harmonics are independent.
* **C195 MATLAB adcpanel: the time-domain tile** - Extremes of lists; rounding within half a sample; witness of 201 samples.
* **C196 MATLAB adcpanel: several waveforms** - Inversion of plotspec; a spectrum of two bins always has a position.
* **C197 Jitter on a given signal** - The tridiagonal matrix has trivial kernel (growth of the interior values), so normal equations give an exact solution; two splines differ by a homogeneous one; explicit coefficients of a cubic.
* **C198 Drift** - The filter and the extension commute with weighted sums; steady state of the initial conditions; half-angle identities for the gain.
* **C199 Amplitude for a wanted level** - Inverse of log10 and powers of ten.
* **C200 Pipelined test data, two and three stages** - Induction over the stages: the floor of a residue times a power of two plus the weighted digit is the floor of the whole; saturation never acts within the range.
* **C201 Pipelined test data, many equal stages** - The same induction over equal stages; the script's weights rescaled are those of the induction; two inputs on either side of a digit change.
* **C202 Successive-approximation test data** - Induction over the capacitors with the residue bounded by the sum still to come; a multiple of the step within one step is the ceiling.
* **C203 Two-step test data** - Moving whole multiples through floors; rolling a list.
* **C204 Sine wave test data with one error each** - Sample by sample: the phase 2 pi F t of both programs is the same product; running sums by induction.
* **C205 Level of the harmonics in the test data** - Powers of the sine as multiple angles; a concrete level.
* **C206 Names of the sine wave files** - Concrete zones; floor bounds for the rounded bin.
* **C207 Regression of the raw squared error** - Floor bounds for the bin of a phase; sums over bins as sums over samples with an indicator; the normal equations for the fit.
* **C208 Overflow counts in double precision** - Sums of multiples of one power of two are exact in any order; a share of whole numbers below 2^53 cannot round to 1 or 0; two summation orders evaluated on bits.
* **C209 Bins and frequencies in double precision** - Relative error of each rounding; their product stays below half a bin.
* **C210 Codes and volts in double precision** - The step is exact; two relative errors; an evaluation on bits.
* **C211 Two-step quantisers in double precision** - Scaling a double up by a power of two is exact; the difference to the coarse code is a multiple of 2^(-m-53) no larger than 2^-m; the sum is a double because one quantiser yields it.
* **C212 Two names for one option** - Case analysis over given and missing options.
* **C213 Old arguments of errHistSine** - Induction on the argument list; the spellings by evaluation of all characters.
* **C214 Old calls of specPlotPhase** - The figure of a pure tone (C191): harmonic N/2 of an odd bin falls on bin N/2, which is not drawn.
* **C215 Error envelope spectrum and old decomposition** - The envelope scales with the absolute gain (C118), the automatic full scale cancels it.
* **C216 Toolset scripts and their panels** - Induction on the list of tools; names are distinct because suffixes are.
* **C217 Capacitor weights in double precision** - Invariant of the loop: the load is a non-negative double and every weight is in [0, 1], or the load is not finite, which never heals. Exact case: every intermediate value is k 2^e with k up to 2^53.
* **C218 Effective bits in double precision** - One bound for every rounding, |rnd x - x| <= 2^-53 (|x| + 1/1000), added up over the operations; monotone because each operation is.
* **C219 Quantiser output stays in range in double precision** - Three roundings of relative error 2^-53 are less than the missing step 2^-n; rounding is monotone and v_min, v_max are doubles.
* **C220 Fit diagnostics in the results of the error analyses** - Look up the nine keys; fitted signal and residuals from C52.

## What is modelled

| Coq module | Source |
|---|---|
| Sar | models/sar.py |
| Cap | fundamentals/convert_cap_to_weight.py |
| Freq, Units, Valid | fundamentals/frequency.py, units.py, snr_nsd.py, metrics.py, validate.py |
| Fit | fundamentals/fit_sine_4param.py |
| Ti | timeinterleave/*.py |
| Spec (SpecMetric, SpecPrep, SpecTone, SpecReport: more theorems) | spectrum/_*.py, compute_spectrum.py, quick_sndr.py, analyze_spectrum.py |
| Coh | spectrum/_align_spectrum_phase.py, coherent averaging, analyze_spectrum_polar.py |
| Osr, Over, Band | spectrum/sweep_performance_vs_osr.py, extract_freq_components.py, oversampling/ntf_analyzer.py, perfosr.py |
| Ramp, SineHist | aout/compute_inl_from_ramp.py, compute_inl_from_sine.py |
| Acf, Rear, Harm, Nonlin, Plane, Eplane, Epdf, Env | aout/analyze_error_autocorr.py, rearrange_error_by_*.py, _fit_error_phase.py, _infer_signal_range.py, decompose_harmonic_error.py, _fit_sine_harmonics.py, fit_static_nonlin.py, analyze_phase_plane.py, analyze_error_phase_plane.py, analyze_error_pdf.py, analyze_error_spectrum.py, analyze_error_envelope_spectrum.py |
| Cal (CalEx, CalMore: more theorems) | calibration/*.py |
| Dout, Sweep | dout/*.py |
| Siggen | siggen/nonidealities.py except apply_jitter on an input signal and apply_drift |
| Est | calibration/_estimate_frequencies.py, fundamentals/frequency.py estimate_frequency |
| Plot, Draw, Panel | spectrum/plot_spectrum.py, plot_spectrum_virtuoso.py, plot_spectrum_polar.py; aout/plot_dnl_inl.py, plot_decomposition_time.py, plot_decomposition_polar.py, plot_rearranged_error_by_value.py, plot_rearranged_error_by_phase.py and the analyze_* functions that call them |
| Dplot | the figures of dout/analyze_bit_activity.py, analyze_overflow.py, analyze_weight_radix.py, analyze_enob_sweep.py |
| Eplot | the figures of aout/analyze_phase_plane.py, analyze_error_phase_plane.py, analyze_error_pdf.py, analyze_error_autocorr.py, analyze_error_spectrum.py, analyze_error_envelope_spectrum.py, dout/plot_residual_scatter.py |
| Dash, Adash | toolset/generate_dout_dashboard.py, generate_aout_dashboard.py, generate_aout_dashboard_3x4.py |
| Vdl | examples/08_time_interleave/variable_delay_line.py, calibration loop of exp_ti02_autocorr_background_skew_calibration.py (the SFDR of a pass is an argument) |
| Mat | `matlab/src/alias.m`, `findbin.m`, `cdacwgt.m`, `ifilter.m`, `inlsin.m`, `bitchk.m`: all of the computation (MATLAB `round` is half away from zero, `error` is one exception, a search that does not end is `None` after the given fuel); not the plotting of `bitchk` nor MATLAB's type checks |
| Msin | `matlab/src/sinfit.m`, `findfreq.m`, `tomdec.m`: all of the computation (`linsolve` is an argument, NaN results are `None`); not the messages, plots and type checks |
| Merr | `matlab/src/errsin.m`: all of the computation in both modes, and the two averaged traces of the value plot (`linsolve` is an argument); not the other drawing, the messages and the type checks |
| Mosr | `matlab/src/perfosr.m`, `ntfperf.m`: all of the computation (`linsolve` and the sorting are arguments); not the plots, the markers on the slope curve and the type checks |
| Mcal | `matlab/src/wcalsin.m`: both modes (one matrix, several matrices), patching, scaling, coarse estimate, fine search, signs (`linsolve`, `rank` are arguments; `findfreq` is the model of Msin); not the messages, the type checks of the input parser and the output forms other than the structure |
| Mgen | `matlab/src/noiseshape.m`, `plotwgt.m` (with what it draws), `legacy/cap2weight.m`, `dumped/errac.m`, `dumped/errpdf.m`, `dumped/fitstaticnl.m` (numbers only; `linsolve` is an argument); not type checks, tf objects and warnings |
| Mspec, MspecTone, MspecCoh | `matlab/src/plotspec.m`: orientation, full scale, windows, power and coherent averaging, band, tone, half-width, all metrics, the printed frequency; not the other plotting |
| Mbit | `matlab/src/plotres.m`, `shortcut/plotressin.m`, `legacy/bitact.m`, `legacy/bitsweep.m` (the legacy and shortcut wrappers that only rename a function are covered by the function called) |
| Mtight | further theorems about Msin, Merr, Mcal found necessary by mutation testing |
| Mphase | `matlab/src/plotphase.m`, both modes |
| Mpanel | `matlab/src/adcpanel.m` |
| Chain | `siggen/nonidealities.py` (`apply_jitter` on a signal, `apply_drift`), `utils/vpp_for_target_dbfs.py`; scipy's CubicSpline, butter, lfilter_zi and filtfilt as documented |
| Mdata | `matlab/data_generation/gen_pipeline2s_dout.m`, `gen_pipeline3s_dout.m`, `gen_pipeline8s_dout.m`, `gen_sar_dout.m`, and the two-step quantiser of `gen_sinewave_gain_error.m`, `gen_sinewave_ref_error.m`, `gen_sinewave_kickback.m` (one sample at a time; not the spectra and files) |
| Mwave | `matlab/data_generation/gen_sinewave_*.m` other than those in Mdata (the samples, and file names where two runs or name and data can disagree; not the spectra and files), `matlab/src/dumped/errsin_hp.m` (not its figure) |
| Mold | option names of plotspec.m (l.144-241), legacy/errHistSine.m, legacy/specPlotPhase.m, legacy/specPlot.m, legacy/tomDecomp.m, dumped/errevspec.m |
| Mtool | toolset_aout.m, toolset_dout.m, toolset_aout_panel.m, toolset_dout_panel.m of matlab/src/dumped: which files are written and shown; the pictures are arguments |
| Fcap (doubles) | fundamentals/convert_cap_to_weight.py with every operation rounded |
| Fenob (doubles) | snr_to_enob and enob_to_snr of fundamentals/units.py with every operation rounded |
| Frange (doubles) | no new model: more about the quantiser of Flt |
| Diag | aout/_fit_diagnostics.py, the option return_fit of analyze_error_pdf / spectrum / autocorr / envelope_spectrum |
| Flt (doubles) | models/sar.py, apply_quantization_noise of siggen/nonidealities.py |
| Fdout (doubles) | residues, flags and percentages of dout/analyze_overflow.py; bin_to_freq, freq_to_bin, lsb_to_volts, volts_to_lsb of fundamentals/units.py |
| Fstep (doubles) | the two-step quantisers of siggen/nonidealities.py (apply_memory_effect, apply_ra_gain_error), one sample at a time |
| Ffreq (doubles) | fundamentals/frequency.py find_coherent_frequency, fold_frequency_to_nyquist, fold_bin_to_nyquist |
| Skill | skill_cli.py, cli.py |

Each model file starts with a comment listing its simplifications. The main ones:

* The FFT is the exact DFT sum; scipy's Kaiser/Chebyshev windows are arbitrary sample functions, the other
  windows and `scipy.signal.hilbert` are written out from their documented definitions.
* `lstsq` is any function meeting the least-squares specification (`least_squares` of CalSpec.v), `matrix_rank`
  any function meeting `rank_correct`; CalExLemmas.v constructs both (Gram-Schmidt), so the hypotheses are
  satisfiable.
* The file system is a tree of names with whole-file contents; links, permissions and concurrent writers are left out.
* arctan2 of exact zeros follows the mathematical convention (no signed zero).
* Printing, warnings (except where a property speaks about them), timing and memory are not modelled.

## Findings (what the proofs showed about the code)

Refuted properties carry a `_refuted` theorem with a concrete witness; the part that does hold is proved beside it.

* C12/C24: folding a fractional bin of an odd-length record can land above n//2, one past the last bin.
* C15: the two NSD helpers take their positional arguments in different orders.
* C21: the Farrow delay returns max(len, n_taps) samples, longer than a short record.
* C25: a harmonic's window may reach into the DC window, or beyond the band for osr > 1.
* C31/C32: the end-point correction is a no-op for already end-pointed data; sine-histogram DNL is reported one code too low.
* C33/C87: the normalised autocorrelation may exceed 1; max_lag above the record length raises.
* C50: the top bin of an odd-length record passes at half amplitude; C57: two half delays of an even-length record are not one whole delay.
* C51: the prepared input can reach +-2, not +-1. C54: interpolation can be pulled towards DC.
* C58: predicted offset spurs are half the real amplitude. C63: OSR sweep is 3 dB pessimistic.
* C65: full-scale gain n/(n-2) in the sine histogram. C66: HD3..HD5 requests also change other harmonics.
* C70/C71/C41: percentile clipping above 50 inverts the range; the memory effect wraps around; the overflow flag wraps for negative weights.
* C73-C76: dircmp skips some names; `--status` with an unknown name raises; installs are not atomic; validation takes max(shape) as the sample count, rejects bool, and overflows in np.ptp.
* C77-C80: lite calibration fails for a pure sine; complementary bits are merged; two data sets are scaled by the wrong coefficient (also: the derivative column index is one off, dc_offset comes from data set 0 only); the frequency search moves off an exact frequency.
* C84/C86: the top bin of an odd record is never found; a constant is split between offset and amplitude; negative max_iterations gives an all-zero fit.
* C88-C90: inferred range may not cover the data; clamped variances unbalance the power; AM and PM together are partly reported as base noise.
* C94-C96, C99: harmonic magnitudes doubled and phases negated; refinement moves an exact frequency; residual_rms is 2 sqrt 2 times the RMS; gain compression scales k2, k3.
* C110/C111: coherent averaging can remove unrelated tones; phases of folded harmonics are negated.
* C112-C117: lag 0 and negative lags raise; automatic lag near Nyquist; two-level records raise TypeError; KL divergence can be negative.
* C119: the error-spectrum figures do not depend on the size of the error. C123: the ENOB sweep fails for matrices with more bits than samples.
* C125: an all-pass NTF is reported with noise suppression (the mean is over all 65536 points, not the band).
* C130/C131/C133 (doubles): a span that overflows gives wrong codes; conversion of a reconstructed code, and quantising twice, may move by one code when the step is not a power of two.
* C138: input frequencies of 1 Hz to 1 kHz are shown divided by 1000 without a prefix. C139: odd record lengths can raise IndexError in the plot.
* C141-C143: signed codes, missing codes and the +-1 LSB lines can be outside the INL axes; the decomposition plot shows one cycle too few or too many; a record without residual raises.
* C144-C146: outermost bars are cut off, a fitted curve can leave the axis, ring labels are rounded to 10 dB, bins above 0 dB leave the polar plot.
* C147/C148 (doubles): folding can exceed fs/2 by a rounding error, returns inf when fin/fs overflows, is meaningless beyond 2^53 steps; tiny negative bins fold to 0.
* C150/C151: texts of the activity plot can lie outside its limits; overflow points leave the axes for weights of mixed sign.
* C152/C153: which of several equal weights is labelled depends on the sorting routine; a leading bit that never changes makes the ENOB plot raise; losses are marked "+-0.50".
* C155-C157: small codes get the unit microvolt, the text "RMS" is a standard deviation; the error spectra are drawn even if no plot is asked for; an empty pair list raises in the scatter plot only.
* C158/C159: a stuck leading bit stops the digital dashboard; the analog ones raise for fewer than 50 samples, for constant records and for records without noise beside the harmonics, the larger one also for two-level records.
* C161/C162: hd3_dbc sets the third harmonic relative to the requested amplitude while the carrier itself grows by 1 + 3r; the background calibration moves every inner code in every pass, also from perfectly aligned channels.
* C163–C167: the MATLAB originals and the Python ports differ: `findbin` steps up from an exact even target bin and the port down, and for other lengths it is not the nearest coprime bin; `extract_freq_components` halves the top bin of odd records; `ifilter` and `inlsin` round halves away from zero, the ports to even; `inlsin` gives a DNL of -1 where the port gives NaN; `bitchk` transposes wide inputs and refuses check positions beyond the bits.
* C168: `sinfit` starts half a bin off when the peak is in the last bin of the half spectrum, returns NaN for a constant record, and reports the frequency of the last pass without its correction (one refinement behind the port).
* C170, C171: in `errsin` one empty bin (always, with fewer samples than bins) turns both noises into 0; errors of constant size read as amplitude and as phase noise; the trace drawn as rising averages the samples where the fitted sine falls; a frequency in (1/2, 1) passes its own check and is refused inside.
* C172, C173: `perfosr` leaves the band-edge bin out that the port counts, so its SNDR is never lower; default smoothing widths differ at ties; `ntfperf` reads more than 3 dB of improvement for NTF = 1 in a quarter band, like the port, and refuses bands the port accepts.
* C174, C175: `wcalsin` and the port agree at a known frequency for one record; the MATLAB search stays at an exact frequency and several records are scaled right, where the port moves off (C80) and scales wrong (C79).
* C176 - C179: the MATLAB generators agree with the ports except that an order is checked even when unused (C176), halves are rounded away from zero in the search for a scale (C177) and lags beyond the record give NaN instead of an error (C178).
* C180 - C185: plotspec.m and its port differ at bin number sideBin (noise in MATLAB), at colliding harmonics, at tall matrices, in coherent mode by the port's 1e-20 guard; plotspec.m looks for the tone before it applies the cutoff and prints a frequency below 1 one bin too high.
* C186 - C189: plotres.m and its port differ for negative stages and for stages beyond the last bit; a column of weights works in plotres.m for the first stage only; bitact.m writes the numbers of bits above 97 percent outside its axis; bitsweep.m calibrates anew for every bit count, the port once.
* C190 - C191: plotphase.m fits harmonics without a constant and is biased for records without whole periods; a record fitted exactly is an error; in FFT mode the last bin is not shown, so that a harmonic on half the sampling rate (or outside the band when oversampling) makes the call fail; up to 100 bins the axis always starts at -100 dB.
* C192 - C196: adcpanel.m reads the two's complement bits of signed codes as unsigned in its overflow check; a given maximum code is not the range when a weight is negative; with a display a record that is fitted exactly, or a constant one, makes the whole panel fail because the limits of the time-domain tile do not increase (outside any try); other signals are drawn without a display and their numbers are dropped; bits are analysed as a sine whatever 'signalType' says; an unknown 'dataType' gives an empty report without a message; of several waveforms in columns the spectrum takes the rows for runs; the window of about 3 cycles is at least 101 samples.
* C197 - C198: apply_jitter on a given signal continues the outermost cubic beyond the record, so the first and last samples can leave the range of the signal; apply_drift raises a ValueError for records of fewer than ten samples, which every other applier accepts.
* C200 - C203: gen_pipeline8s_dout.m gives the bits of all stages but the last weights that are too small by the stage gain (the exponents lack one gain), so the waveform it analyses is not monotone in the input; gen_pipeline2s/3s saturate the bits but not the residue, so a full-scale input reads lower than one just below; gen_sinewave_kickback.m and apply_memory_effect differ at the first sample (repeat against wrap-around).
* C204 - C207: gen_sinewave_nyquist_zones.m writes both its "zones" under the name of the first, so one file is lost; gen_sinewave_nonlin_dynamic.m names its files after a frequency it does not generate; the harmonic levels of the scripts (and of Python) hold relative to the undistorted amplitude only; the R2 of errsin_hp.m can be far below 0 although documented as 0 to 1, and is 1 for any data with at most one sample per bin.
* C208 - C210 (doubles): analyze_overflow compares the residue with 1 exactly, but computes numerator and denominator by two routines, so with calibrated weights a full-scale sample can be missed; volts_to_lsb(lsb_to_volts(3, 3.3, 12), 3.3, 12) is below 3; bin_to_freq and freq_to_bin are inverse up to 2^49 and not beyond 2^51.
* C211 (doubles): the two-step quantiser is exact except for negative samples smaller than half a coarse step, where the difference to the coarse code rounds to a whole coarse step and the sample is quantised one fine step too high.
* C212 - C214: plotspec ignores an explicit window 'hann' or averageMode 'normal' when the old names say otherwise; specPlotPhase passes N_fft as the number of harmonics (its documentation says as Fs) and the number of harmonics as full scale.
* C216: after a run that stopped halfway the toolset panels show the pictures of an earlier run in the same folder and report success.
* C217: capacitor weights can add up to more than 1 by a rounding error; capacitances whose total overflows give zero weights without an error.

## Not modelled

matplotlib itself (rendering, colours, fonts, the arrangement of axes), the legacy MATLAB wrappers that only pass their arguments on, example scripts,
floating-point rounding except in Flt, Ffreq, Fdout, Fstep, Fcap and Fenob.
