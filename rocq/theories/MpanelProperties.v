(** * Property theorems of Mpanel: statements only, proofs in MpanelProofs.v.
    Generated by tools/mkprops.py from the final lemmas. *)
From Coq Require Import Psatz.
From Verif Require Import Base BaseLemmas Cplx FreqModel UnitsModel TiModel TiSpec TiProofs SpecModel SpecLemmas CalModel CalSpec CalProofs CalExLemmas CalExProofs FitModel FitSpec FitProofs HarmModel HarmSpec HarmProofs DoutModel DoutProofs SineHistModel SineHistProofs MatModel CohModel MsinModel MsinProofs MerrModel MosrModel McalModel McalProofs MgenModel MgenProofs MspecModel MspecProofs MbitModel MphaseModel MphaseProofs MpanelModel MpanelSpec.
Local Open Scope R_scope.
From Verif Require Import MpanelProofs.

(** C192: codes that are not negative become as many bits as the largest needs, and the bits stand for the codes. *)
Theorem C192_unsigned :
  forall codes,
  codes <> [] -> (forall v, In v codes -> (0 <= v)%Z) ->
  exists n rows, a_decompose (map IZR codes) = Ok rows /\ fewest (fun n => holds_unsigned n codes) n /\ bit_rows n rows /\ map binary rows = map IZR codes.
Proof. exact c192_unsigned. Qed.
Print Assumptions C192_unsigned.

(** C192: with a negative code among them the bits are two's complement, of the fewest bits. *)
Theorem C192_signed :
  forall codes,
  (exists v, In v codes /\ (v < 0)%Z) ->
  exists n rows, a_decompose (map IZR codes) = Ok rows /\ fewest (fun n => holds_signed n codes) n /\ bit_rows n rows /\ map twos_complement rows = map IZR codes.
Proof. exact c192_signed. Qed.
Print Assumptions C192_signed.

(** C192: a code that is not whole is refused. *)
Theorem C192_whole :
  forall codes,
  (exists rows, a_decompose codes = Ok rows) <-> exists z, codes = map IZR z.
Proof. exact c192_whole. Qed.
Print Assumptions C192_whole.

(** C192: the record of a one-bit converter is its own bit column. *)
Theorem C192_one_bit :
  forall codes,
  codes <> [] -> (forall b, In b codes -> b = 0 \/ b = 1) -> a_decompose codes = Ok (map (fun b => [b]) codes).
Proof. exact c192_one_bit. Qed.
Print Assumptions C192_one_bit.

(** C192: whichever way round the matrix is given, as long as it is not square, the panel works on the same data. *)
Theorem C192_orientation :
  forall lin rank sortd n m d o,
  rect n m d -> (0 < n)%nat -> (0 < m)%nat -> n <> m -> ao_type o = TAuto \/ ao_type o = TBits ->
  m_adcpanel lin rank sortd (TiModel.transpose m d) o = m_adcpanel lin rank sortd d o.
Proof. exact c192_orientation. Qed.
Print Assumptions C192_orientation.

(** C192: what counts as what.  A vector is a waveform and a matrix is bits unless the caller says otherwise; with 'values' the
    columns are waveforms. *)
Theorem C192_types :
  forall n m d,
  rect n m d -> (0 < n)%nat -> (0 < m)%nat ->
  (n = 1%nat \/ m = 1%nat -> exists v, a_data TAuto d = Ok (TValues, map (fun x => [x]) v) /\ concat d = v) /\
  ((1 < m <= n)%nat -> a_data TAuto d = Ok (TBits, d) /\ a_data TBits d = Ok (TBits, d)) /\
  ((1 < n < m)%nat -> a_data TAuto d = Ok (TBits, TiModel.transpose m d) /\ a_data TBits d = Ok (TBits, TiModel.transpose m d)) /\
  ((1 < n)%nat -> a_data TValues d = Ok (TValues, d)) /\ a_data TUnknown d = Ok (TUnknown, d).
Proof. exact c192_types. Qed.
Print Assumptions C192_types.

(** C192: codes in a vector, row or column, come out as the bits of C192. *)
Theorem C192_codes :
  forall codes rows,
  (0 < length codes)%nat -> a_decompose codes = Ok rows -> a_data TBits [codes] = Ok (TBits, rows) /\ a_data TBits (map (fun x => [x]) codes) = Ok (TBits, rows).
Proof. exact c192_codes. Qed.
Print Assumptions C192_codes.

(** C192: the overflow check reads the bits as unsigned, so of signed codes it reports those next to zero as the ends of the range:
    none of these codes is -4 or 3, and a quarter of them each is said to be at the bottom and at the top. *)
Theorem C192_overflow_refuted :
  exists codes rows y, (forall v, In v codes -> (-4 < v < 3)%Z) /\ a_decompose (map IZR codes) = Ok rows /\ bit_rows 3 rows /\
  m_bitchk rows [4; 2; 1] None = Ok y /\ nth 0 y (0, 0, 0, 0) = (0, 1, 25, 25).
Proof. exact c192_overflow_refuted. Qed.
Print Assumptions C192_overflow_refuted.

(** C193: a maximum code that is given is the sum of the weights reported. *)
Theorem C193_given :
  forall lin rank d fin harm m b,
  a_calibrate lin rank d fin harm (Some m) = Ok (Some b) -> lsum (ab_weights b) = m /\ ab_max b = m.
Proof. exact c193_given. Qed.
Print Assumptions C193_given.

(** C193: without one it is the sum of their magnitudes (weights other than zero). *)
Theorem C193_auto :
  forall lin rank d fin harm b,
  a_calibrate lin rank d fin harm None = Ok (Some b) -> (0 < ncols d)%nat -> (forall x, In x (ab_weights b) -> x <> 0) ->
  lsum (map Rabs (ab_weights b)) = ab_max b /\ 0 < ab_max b.
Proof. exact c193_auto. Qed.
Print Assumptions C193_auto.

(** C193: the values analysed are wcalsin's calibrated values times the factor that also scales weights and offset; the offset is
    not taken off. *)
Theorem C193_postcal :
  forall lin rank n m d fin harm mx b,
  rect n m d -> (0 < m <= n)%nat -> a_calibrate lin rank d fin harm mx = Ok (Some b) ->
  exists c set s, m_wcalsin lin rank (a_matrix d) fin 0.5 (1 / 10 ^ 12) 100 (IZR harm) false true true [] = Ok (Some c) /\ mc_sets c = [set] /\ mc_freq c = [ab_freq b] /\
    length (ab_weights b) = m /\ (forall j, (j < m)%nat -> nth j (ab_weights b) 0 = s * mc_weight c j) /\ ab_offset b = s * mc_offset c /\
    length (ab_postcal b) = n /\ (forall i, (i < n)%nat -> nth i (ab_postcal b) 0 = s * ms_postcal set i /\ nth i (ab_postcal b) 0 - ab_offset b = s * (ms_ideal set i + ms_err set i)).
Proof. exact c193_postcal. Qed.
Print Assumptions C193_postcal.

Theorem C193_range :
  forall lin rank n m d fin harm mx b,
  rect n m d -> (0 < m <= n)%nat -> bit_rows m d -> a_calibrate lin rank d fin harm mx = Ok (Some b) -> (forall x, In x (ab_weights b) -> 0 < x) ->
  forall v, In v (ab_postcal b) -> 0 <= v <= ab_max b.
Proof. exact c193_range. Qed.
Print Assumptions C193_range.

Theorem C193_span :
  forall lin rank n m d fin harm b,
  rect n m d -> (0 < m <= n)%nat -> bit_rows m d -> a_calibrate lin rank d fin harm None = Ok (Some b) -> (forall x, In x (ab_weights b) -> x <> 0) ->
  forall u v, In u (ab_postcal b) -> In v (ab_postcal b) -> Rabs (u - v) <= ab_max b.
Proof. exact c193_span. Qed.
Print Assumptions C193_span.

(** C193: at a known frequency the true weights come back, scaled to the maximum code, whatever the sign of their sum. *)
Theorem C193_recovers :
  forall lin rank n m d fin harm mc w off a b0,
  least_squares lin -> rank_correct rank -> rect n m d -> (0 < m <= n)%nat -> 0 < fin -> (1 <= harm)%Z ->
  true_weights (a_matrix d) (Z.to_nat harm) fin w off a b0 -> identifiable (a_matrix d) (Z.to_nat harm) fin w off a b0 -> a 0%nat <> 0 \/ b0 0%nat <> 0 -> rsum m w <> 0 ->
  exists b, a_calibrate lin rank d fin harm (Some mc) = Ok (Some b) /\ ab_freq b = fin /\ ab_max b = mc /\ length (ab_weights b) = m /\
    (forall j, (j < m)%nat -> nth j (ab_weights b) 0 = w j * (mc / rsum m w)) /\ ab_offset b = off * (mc / rsum m w) /\
    (forall t, (t < n)%nat -> nth t (ab_postcal b) 0 = tone (Z.to_nat harm) off a b0 fin t * (mc / rsum m w)).
Proof. exact c193_recovers. Qed.
Print Assumptions C193_recovers.

Theorem C193_range_refuted :
  exists d m b, bit_rows 2 d /\ 0 < m /\ a_calibrate gs_lstsq gs_rank d (1 / 4) 1 (Some m) = Ok (Some b) /\ In (2 * m) (ab_postcal b) /\ ab_max b = m.
Proof. exact c193_range_refuted. Qed.
Print Assumptions C193_range_refuted.

(** C195: the tile shows every sample of the record, the fitted sine and the error over the sample numbers from 1; its window is
    around the sample with the largest error, lies in the record and is not empty. *)
Theorem C195_window :
  forall sig sine err f g,
  length err = length sig -> length sine = length sig -> sig <> [] -> a_timedomain sig sine err f = Ok g ->
  (forall t, (t < length sig)%nat -> nth t (at_sig g) (0, 0) = (INR (t + 1), nth t sig 0) /\ nth t (at_sine g) (0, 0) = (INR (t + 1), nth t sine 0) /\ nth t (at_err g) (0, 0) = (INR (t + 1), nth t err 0)) /\
  (1 <= at_idx g <= length sig)%nat /\ (forall t, (t < length sig)%nat -> Rabs (nth t err 0) <= Rabs (nth (at_idx g - 1) err 0)) /\
  (1 <= fst (at_x g) <= Z.of_nat (at_idx g))%Z /\ (Z.of_nat (at_idx g) <= snd (at_x g) <= Z.of_nat (length sig))%Z /\ (fst (at_x g) < snd (at_x g))%Z.
Proof. exact c195_window. Qed.
Print Assumptions C195_window.

(** C195: the record is drawn in the upper half of the tile and the error in the lower half. *)
Theorem C195_halves :
  forall sig sine err f g,
  length err = length sig -> sig <> [] -> a_timedomain sig sine err f = Ok g ->
  (forall v, In v sig -> 1 / 2 <= height (at_left g) v <= 21 / 22) /\ (forall v, In v err -> 1 / 22 <= height (at_right g) v <= 1 / 2).
Proof. exact c195_halves. Qed.
Print Assumptions C195_halves.

(** C195: the window reaches one and a half periods to either side, a period being 1/f up to a quarter of the sampling rate and
    1/(1/2 - f) above, or 50 samples where that is more. *)
Theorem C195_cycles :
  forall sig sine err f g,
  length err = length sig -> sig <> [] -> 0 < f < 1 / 2 -> a_timedomain sig sine err f = Ok g ->
  let p := if Rle_dec f (1 / 4) then 1 / f else 1 / (1 / 2 - f) in
  (forall t : Z, (1 <= t <= Z.of_nat (length sig))%Z -> Rabs (IZR t - INR (at_idx g)) <= Rmax (3 / 2 * p - 3 / 4) 50 - 1 / 2 -> (fst (at_x g) <= t <= snd (at_x g))%Z) /\
  (forall t : Z, (fst (at_x g) <= t <= snd (at_x g))%Z -> Rabs (IZR t - INR (at_idx g)) <= Rmax (3 / 2 * p + 3 / 4) 50 + 1 / 2).
Proof. exact c195_cycles. Qed.
Print Assumptions C195_cycles.

(** C194: without a display the panel returns whatever becomes of the analyses, once the options and the data are accepted. *)
Theorem C194_graceful :
  forall lin rank sortd dat o td,
  a_bad o = false -> a_data (ao_type o) dat = Ok td -> ao_disp o = false -> exists r, m_adcpanel lin rank sortd dat o = Ok r.
Proof. exact c194_graceful. Qed.
Print Assumptions C194_graceful.

(** C194: with a display the panel of one waveform fails exactly when the fit succeeded and the waveform or the fit's error is constant:
    the limits of the time-domain tile would not increase. *)
Theorem C194_raises :
  forall lin rank sortd y o,
  a_bad o = false -> y <> [] -> ao_type o = TAuto \/ ao_type o = TValues -> ao_sine o = true ->
  (exists e, m_adcpanel lin rank sortd (col y) o = Err e) <->
  ao_disp o = true /\ exists q, m_tomdec lin y (Some (ao_fin o)) (m_round (ao_harm o)) = Ok (Some q) /\ 0 < mp_freq q /\ (constant y \/ constant (mp_err q)).
Proof. exact c194_raises. Qed.
Print Assumptions C194_raises.

(** C194: the panel of one waveform, given as a row or a column, holds what the analyses give when called on it. *)
Theorem C194_values :
  forall lin rank sortd dat y o r,
  y <> [] -> dat = [y] \/ dat = col y -> ao_type o = TAuto \/ ao_type o = TValues -> ao_sine o = true -> m_adcpanel lin rank sortd dat o = Ok (Some r) ->
  let harm := m_round (ao_harm o) in let mc := the_max o y in let win := if ao_hann o then MHann else MRect in
  ar_type r = TValues /\ ar_sine r = true /\ ar_overflow r = Absent /\ ar_bits r = Absent /\
  ar_decomp r = outcome (m_tomdec lin y (Some (ao_fin o)) harm) /\
  (forall q, ar_decomp r = Value (Some q) -> ar_errphase r = outcome (m_errsin lin y 100 (Some (mp_freq q)) false None (ao_osr o) (ao_hann o)) /\ ar_errvalue r = outcome (m_errsin lin y 100 (Some (mp_freq q)) true None (ao_osr o) (ao_hann o))) /\
  ar_spectrum r = outcome (a_spectrum [y] (ao_fs o) mc harm (ao_osr o) (ao_hann o)) /\ ar_linearity r = outcome (a_inl y) /\ ar_osr r = outcome (m_perfosr lin sortd y [] (IZR harm) None) /\
  ar_fft r = (if ao_disp o then outcome (m_plotphase_fft (col y) (Z.to_nat harm) (Some mc) (ao_fs o) (ao_osr o) 0 win) else Absent) /\
  ar_lms r = (if ao_disp o then outcome (m_plotphase_lms lin (col y) harm (Some mc) (ao_fs o) (ao_osr o) 0 win) else Absent) /\
  (ar_few r = true <-> INR (length y) < mc) /\ ar_wave r = None /\ ar_drawn r = ao_disp o /\ ar_title r = (if ao_disp o then Some (length y, None) else None) /\
  (ao_disp o = false -> ar_time r = None) /\
  (ao_disp o = true -> forall q, ar_decomp r = Value (Some q) -> 0 < mp_freq q -> exists g, ar_time r = Some g /\ a_timedomain y (mp_sine q) (mp_err q) (mp_freq q) = Ok g).
Proof. exact c194_values. Qed.
Print Assumptions C194_values.

(** C194: with a display, an exact sine of known frequency makes the panel fail. *)
Theorem C194_exact_sine :
  forall lin rank sortd y A ph off o,
  least_squares lin -> a_bad o = false -> y <> [] -> ao_type o = TAuto \/ ao_type o = TValues -> ao_sine o = true -> ao_disp o = true -> 0 < ao_fin o -> 1 / 2 <= ao_harm o ->
  is_record y (sine A (ao_fin o) ph off) -> independent (harm_basis (length y) (ao_fin o) (Z.to_nat (m_round (ao_harm o)))) -> exists e, m_adcpanel lin rank sortd (col y) o = Err e.
Proof. exact c194_exact_sine. Qed.
Print Assumptions C194_exact_sine.

(** C194: bits are analysed as the calibrated waveform, at the frequency the calibration found, as a sine whatever 'signalType' says. *)
Theorem C194_bits :
  forall lin rank sortd dat d o b r,
  a_data (ao_type o) dat = Ok (TBits, d) -> d <> [] -> a_calibrate lin rank d (ao_fin o) (m_round (ao_harm o)) (ao_max o) = Ok (Some b) -> 0 <= ab_freq b -> m_adcpanel lin rank sortd dat o = Ok (Some r) ->
  let harm := m_round (ao_harm o) in let y := ab_postcal b in
  ar_type r = TBits /\ ar_sine r = ao_sine o /\ ar_bits r = Value b /\ ar_overflow r = outcome (m_bitchk d (map (fun i => 2 ^ (ncols d - 1 - i)) (seq 0 (ncols d))) None) /\
  ar_decomp r = outcome (m_tomdec lin y (Some (ab_freq b)) harm) /\
  (forall q, ar_decomp r = Value (Some q) -> ar_errphase r = outcome (m_errsin lin y 100 (Some (mp_freq q)) false None (ao_osr o) (ao_hann o)) /\ ar_errvalue r = outcome (m_errsin lin y 100 (Some (mp_freq q)) true None (ao_osr o) (ao_hann o))) /\
  ar_spectrum r = outcome (a_spectrum [y] (ao_fs o) (ab_max b) harm (ao_osr o) (ao_hann o)) /\ ar_linearity r = outcome (a_inl y) /\ ar_osr r = outcome (m_perfosr lin sortd y [] (IZR harm) None) /\
  (ar_few r = true <-> INR (length d) < ab_max b) /\ ar_title r = (if ao_disp o then Some (length d, Some (ncols d)) else None).
Proof. exact c194_bits. Qed.
Print Assumptions C194_bits.

(** C194: when the calibration fails the panel still returns; every later analysis is reported as failed. *)
Theorem C194_bits_failed :
  forall lin rank sortd dat d o e,
  a_bad o = false -> a_data (ao_type o) dat = Ok (TBits, d) -> a_calibrate lin rank d (ao_fin o) (m_round (ao_harm o)) (ao_max o) = Err e ->
  exists r, m_adcpanel lin rank sortd dat o = Ok (Some r) /\ ar_bits r = Failed /\ ar_decomp r = Failed /\ ar_errphase r = Failed /\ ar_errvalue r = Failed /\ ar_spectrum r = Failed /\ ar_linearity r = Failed /\ ar_osr r = Failed /\ ar_time r = None /\
    ar_overflow r = outcome (m_bitchk d (map (fun i => 2 ^ (ncols d - 1 - i)) (seq 0 (ncols d))) None).
Proof. exact c194_bits_failed. Qed.
Print Assumptions C194_bits_failed.

(** C194: other signals get a spectrum only, whose numbers are not reported; it is drawn even when no display is wanted. *)
Theorem C194_other :
  forall lin rank sortd dat d o,
  a_bad o = false -> a_data (ao_type o) dat = Ok (TValues, d) -> concat d <> [] -> ao_sine o = false ->
  exists r, m_adcpanel lin rank sortd dat o = Ok (Some r) /\ ar_type r = TValues /\ ar_sine r = false /\ ar_decomp r = Skipped /\ ar_errphase r = Skipped /\ ar_errvalue r = Skipped /\ ar_linearity r = Skipped /\ ar_osr r = Skipped /\ ar_fft r = Skipped /\ ar_lms r = Skipped /\
    ar_drawn r = true /\ ar_spectrum r = (if result_ok (a_spectrum d (ao_fs o) (the_max o (concat d)) 0 (ao_osr o) (ao_hann o)) then Nothing else Failed) /\
    ar_wave r = (if ao_disp o then Some (a_curve (map (fun r => nth 0 r 0) d)) else None) /\ ar_time r = None.
Proof. exact c194_other. Qed.
Print Assumptions C194_other.

(** C194: a 'dataType' the panel does not know is not refused: nothing is analysed. *)
Theorem C194_unknown :
  forall lin rank sortd dat o,
  a_bad o = false -> concat dat <> [] -> ao_type o = TUnknown ->
  exists r, m_adcpanel lin rank sortd dat o = Ok (Some r) /\ ar_type r = TUnknown /\ ar_decomp r = Absent /\ ar_errphase r = Absent /\ ar_errvalue r = Absent /\ ar_spectrum r = Absent /\ ar_linearity r = Absent /\ ar_osr r = Absent /\ ar_fft r = Absent /\ ar_lms r = Absent.
Proof. exact c194_unknown. Qed.
Print Assumptions C194_unknown.

(** C196: of several waveforms given as columns every analysis but the spectrum is of the first one. *)
Theorem C196_first :
  forall lin rank sortd n m d o r,
  rect n m d -> (1 < n)%nat -> (0 < m)%nat -> ao_type o = TValues -> ao_sine o = true -> m_adcpanel lin rank sortd d o = Ok (Some r) ->
  exists y, length y = n /\ (forall t, (t < n)%nat -> nth t y 0 = nth 0 (nth t d []) 0) /\ ar_decomp r = outcome (m_tomdec lin y (Some (ao_fin o)) (m_round (ao_harm o))) /\
    ar_linearity r = outcome (a_inl y) /\ ar_osr r = outcome (m_perfosr lin sortd y [] (IZR (m_round (ao_harm o))) None) /\
    (forall q, ar_decomp r = Value (Some q) -> ar_errphase r = outcome (m_errsin lin y 100 (Some (mp_freq q)) false None (ao_osr o) (ao_hann o)) /\ ar_errvalue r = outcome (m_errsin lin y 100 (Some (mp_freq q)) true None (ao_osr o) (ao_hann o))) /\
    ar_spectrum r = outcome (a_spectrum d (ao_fs o) (the_max o (concat d)) (m_round (ao_harm o)) (ao_osr o) (ao_hann o)).
Proof. exact c196_first. Qed.
Print Assumptions C196_first.

(** C196: the spectrum has as many bins as a run of as many samples as there are columns: plotspec takes the rows for runs, unless there
    is one column only. *)
Theorem C196_rows :
  forall lin rank sortd n m d o r q,
  rect n m d -> (1 < n)%nat -> (0 < m)%nat -> ao_type o = TValues -> ao_sine o = true -> m_adcpanel lin rank sortd d o = Ok (Some r) -> ar_spectrum r = Value (Some q) ->
  length (ms_power q) = ((if (m =? 1)%nat then n else m) / 2 + 1)%nat.
Proof. exact c196_rows. Qed.
Print Assumptions C196_rows.

(** C194 is false with a display: a perfect record of eight samples of one period makes the whole panel fail. *)
Theorem C194_display_refuted :
  exists y o, a_bad o = false /\ (0 < length y)%nat /\ is_record y (sine 1 (ao_fin o) 0 0) /\ ao_type o = TAuto /\ ao_sine o = true /\
  forall lin rank sortd, least_squares lin -> exists e, m_adcpanel lin rank sortd (col y) o = Err e.
Proof. exact c194_display_refuted. Qed.
Print Assumptions C194_display_refuted.

(** C194 is false of signals other than sines: without a display the spectrum is still drawn. *)
Theorem C194_silent_refuted :
  exists dat o, a_bad o = false /\ ao_disp o = false /\ forall lin rank sortd, exists r, m_adcpanel lin rank sortd dat o = Ok (Some r) /\ ar_drawn r = true.
Proof. exact c194_silent_refuted. Qed.
Print Assumptions C194_silent_refuted.

(** C195 is false of the tile's title: around 3 cycles are not shown; at a quarter of the sampling rate it is 25. *)
Theorem C195_cycles_refuted :
  exists sig sine err g, a_timedomain sig sine err (1 / 4) = Ok g /\ 25 <= (IZR (snd (at_x g)) - IZR (fst (at_x g))) * (1 / 4).
Proof. exact c195_cycles_refuted. Qed.
Print Assumptions C195_cycles_refuted.

(** C196 is false of the spectrum: of two captures of eight samples, given as the two columns, it has two bins, not five. *)
Theorem C196_matrix_refuted :
  exists d o, rect 8 2 d /\ a_bad o = false /\ ao_type o = TValues /\ ao_sine o = true /\
  forall lin rank sortd, exists r q, m_adcpanel lin rank sortd d o = Ok (Some r) /\ ar_spectrum r = Value (Some q) /\ length (ms_power q) = 2%nat.
Proof. exact c196_matrix_refuted. Qed.
Print Assumptions C196_matrix_refuted.

(** The linearity of the panel is that of inlsin on the rounded samples with one percent left out at both ends; the two numbers it
    reports are the largest minus the smallest value, or nothing for an empty curve. *)
Theorem C194_linearity :
  forall s r,
  a_inl s = Ok r -> m_inlsin (map (fun x => IZR (m_round x)) s) (1 / 100) = Ok (al_inl r, al_dnl r, al_code r) /\ spread (al_inl r) (al_inlpp r) /\ spread (al_dnl r) (al_dnlpp r).
Proof. exact c194_linearity. Qed.
Print Assumptions C194_linearity.

(** The spectrum is plotspec with the panel's rate, full scale, window, oversampling and number of harmonics and the defaults for the rest. *)
Theorem C194_settings :
  forall d fs mc harm osr hann,
  (mc <= 0 -> a_spectrum d fs mc harm osr hann = Err RuntimeError) /\
  (0 < mc -> a_spectrum d fs mc harm osr hann = m_plotspec d fs (Some mc) false (if hann then MHann else MRect) None osr harm 5 0 None 0).
Proof. exact c194_settings. Qed.
Print Assumptions C194_settings.
