(** * Property theorems of TiTone: statements only, proofs in TiToneProofs.v.
    Generated by tools/mkprops.py from the final lemmas. *)
From Verif Require Import Base BaseLemmas Cplx FreqModel FreqSpec FreqProofs TiModel TiSpec TiToneSpec TiProofs.
From Coq Require Import Psatz Permutation.
Local Open Scope R_scope.
From Verif Require Import TiToneProofs.

(** A record holding any set of tones strictly below the Nyquist frequency is delayed exactly
    by fractional_delay_fft, for every real delay: the result holds the same tones evaluated
    at n - delay*fs. *)
Theorem C57_bandlimited_delay :
  forall N H a ph delay fs,
  (0 < N)%nat -> (2 * H <= N + 1)%nat ->
  fractional_delay_fft (map (fun n => tones N H a ph (INR n)) (seq 0 N)) delay fs
  = Ok (map (fun n => tones N H a ph (INR n - delay * fs)) (seq 0 N)).
Proof. exact c57_bandlimited_delay. Qed.
Print Assumptions C57_bandlimited_delay.

(** A whole-sample delay d is a circular shift of any record, whatever its content. *)
Theorem C57_integer_delay_circular :
  forall x delay fs (d : Z),
  x <> [] -> delay * fs = IZR d ->
  fractional_delay_fft x delay fs = Ok (map (fun n => cget x (Z.of_nat n - d)) (seq 0 (length x))).
Proof. exact c57_integer_delay_circular. Qed.
Print Assumptions C57_integer_delay_circular.

(** On odd-length records delays compose additively: delay by d1 then by d2 is delay by
    d1 + d2; in particular delaying by d then by -d restores any odd-length record. *)
Theorem C57_delays_compose_odd :
  forall x fs d1 d2,
  Nat.Odd (length x) ->
  exists y, fractional_delay_fft x d1 fs = Ok y /\
    fractional_delay_fft y d2 fs = fractional_delay_fft x (d1 + d2) fs /\
    (d1 + d2 = 0 -> fractional_delay_fft y d2 fs = Ok x).
Proof. exact c57_delays_compose_odd. Qed.
Print Assumptions C57_delays_compose_odd.

(** For even lengths composition fails: the Nyquist component is destroyed by a half-sample
    delay, so a delay and its opposite do not cancel. *)
Theorem C57_compose_even_refuted :
  exists x fs d y, fractional_delay_fft x d fs = Ok y /\ fractional_delay_fft y (- d) fs <> Ok x.
Proof. exact c57_compose_even_refuted. Qed.
Print Assumptions C57_compose_even_refuted.

Example C57_quarter_ex :
  fractional_delay_fft (map (fun n => tones 5 2 (fun _ => 1) (fun _ => 0) (INR n)) (seq 0 5)) (1/4) 1
  = Ok (map (fun n => 1 + cos (2 * PI * (INR n - 1/4) / 5)) (seq 0 5)) /\
  fractional_delay_fft [1; 2; 3; 4] 1 1 = Ok [4; 1; 2; 3].
Proof. exact c57_quarter_ex. Qed.

(** The gain/skew entries are exact, not first-order: the interleaved capture of the tone
    A cos(2 pi fin t) by channels with gains g and skews s (offsets zero) is, sample for
    sample, a fundamental plus one sinusoid per k = 1..M-1 at frequency fin + k fs/M whose
    amplitude is the entry's amp. *)
Theorem C58_gain_skew_exact :
  forall gain offset skew A fs fin l,
  0 < fs -> 0 <= A -> (0 < length gain)%nat -> predict_spurs gain offset skew A fs fin = Ok l ->
  let M := length gain in
  exists (a0 th0 : R) (amp th : nat -> R),
    (forall n, ti_sample M fs gain (repeat 0 M) skew (fun t => A * cos (2 * PI * fin * t)) n =
       a0 * cos (2 * PI * fin * (INR n / fs) + th0) +
       rsum (M - 1) (fun i => amp (S i) * cos (2 * PI * (fin + INR (S i) * fs / INR M) * (INR n / fs) + th (S i)))) /\
    (forall s, In s l -> sp_kind s = KGainSkew -> sp_amp s = amp (sp_k s)).
Proof. exact c58_gain_skew_exact. Qed.
Print Assumptions C58_gain_skew_exact.

(** The offset entries pair up: the capture's offset sequence is its mean plus, for every
    1 <= k < M/2, one sinusoid at k fs/M of amplitude twice the entry's amp, plus (M even) an
    alternating component of amplitude exactly the entry k = M/2. *)
Theorem C58_offset_decomposition :
  forall gain offset skew A fs fin l,
  0 < fs -> (0 < length gain)%nat -> predict_spurs gain offset skew A fs fin = Ok l ->
  let M := length gain in
  exists (amp th : nat -> R),
    (forall n, nth (n mod M) offset 0 = lmean offset +
       rsum ((M - 1) / 2) (fun i => 2 * amp (S i) * cos (2 * PI * (INR (S i) * fs / INR M) * (INR n / fs) + th (S i))) +
       (if Nat.even M then amp (M / 2)%nat * cos (2 * PI * (fs / 2) * (INR n / fs) + th (M / 2)%nat) else 0)) /\
    (forall s, In s l -> sp_kind s = KOffset -> sp_amp s = amp (sp_k s)).
Proof. exact c58_offset_decomposition. Qed.
Print Assumptions C58_offset_decomposition.

(** Consequence: the documented meaning of amp ("spur amplitude in the same units as x") is
    wrong for offset spurs below fs/2.  With four channels and offsets 1, 0, -1, 0 the capture
    of a zero input is exactly cos(2 pi (fs/4) t), amplitude 1, but every entry at fs/4 (kind
    offset) says 1/2. *)
Theorem C58_offset_amplitude_refuted :
  exists gain offset skew A fs fin l,
    predict_spurs gain offset skew A fs fin = Ok l /\
    (forall n, ti_sample 4 fs gain offset skew (fun _ => 0) n = cos (2 * PI * (fs / 4) * (INR n / fs))) /\
    (exists s, In s l /\ sp_kind s = KOffset /\ sp_freq s = fs / 4) /\
    (forall s, In s l -> sp_kind s = KOffset -> sp_freq s = fs / 4 -> sp_amp s = 1 / 2).
Proof. exact c58_offset_amplitude_refuted. Qed.
Print Assumptions C58_offset_amplitude_refuted.

(** A coherent tone A cos(2 pi fin t + phi) captured by M channels with positive gains,
    arbitrary offsets and skews: extract_mismatch_sine returns exactly the offsets, the gains
    divided by their mean, the amplitude times the mean gain, and (when neighbouring channels
    differ by less than half a period of phase) the skews minus their mean.  Coherent means
    fin = J fs/N with the per-channel record length K = N/M not dividing 2 J. *)
Theorem C59_recovers_mismatch :
  forall M K (J : Z) gain offset skew A phi fs,
  (0 < M)%nat -> (0 < K)%nat -> 0 < fs -> 0 < A -> ~ (Z.of_nat K | 2 * J)%Z ->
  length gain = M -> length offset = M -> length skew = M ->
  (forall m, (m < M)%nat -> 0 < nth m gain 0) ->
  let fin := IZR J * fs / INR (K * M) in
  (forall m, (S m < M)%nat -> Rabs (2 * PI * fin * (nth (S m) skew 0 - nth m skew 0)) < PI) ->
  exists phases,
  extract_mismatch_sine
    (map (ti_sample M fs gain offset skew (fun t => A * cos (2 * PI * fin * t + phi))) (seq 0 (K * M)))
    (Z.of_nat M) fs fin
  = Ok (mkMismatch (A * lmean gain) (map (fun g => g / lmean gain) gain) offset
          (map (fun s => s - lmean skew) skew) phases).
Proof. exact c59_recovers_mismatch. Qed.
Print Assumptions C59_recovers_mismatch.

(** The fft method undoes offset, gain and skew exactly: any input that is periodic over the
    record with all its tones strictly below the channel Nyquist frequency fs/(2M) is restored
    sample for sample.  (Skews smaller than 1e-18 s but not zero are skipped by the code.) *)
Theorem C60_fft_calibration_exact :
  forall M K H a ph gain offset skew fs n_taps,
  (0 < M)%nat -> (0 < K)%nat -> 0 < fs -> (2 * H <= K + 1)%nat ->
  length gain = M -> length offset = M -> length skew = M ->
  (forall m, (m < M)%nat -> nth m gain 0 <> 0) ->
  (forall m, (m < M)%nat -> nth m skew 0 = 0 \/ / 10 ^ 18 <= Rabs (nth m skew 0)) ->
  let s := fun t => tones (K * M) H a ph (t * fs) in
  calibrate_foreground (map (ti_sample M fs gain offset skew s) (seq 0 (K * M))) (Z.of_nat M)
    offset gain skew fs SkewFft n_taps
  = Ok (map (fun n => s (INR n / fs)) (seq 0 (K * M))).
Proof. exact c60_fft_calibration_exact. Qed.
Print Assumptions C60_fft_calibration_exact.

(** Extract then calibrate: measuring the mismatch on a coherent tone below fs/(2M) and feeding
    the result to calibrate_foreground returns that tone exactly, with the mean gain and the
    mean skew (which one capture cannot reveal) as the only remaining change. *)
Theorem C60_extract_then_calibrate :
  forall M K J gain offset skew A phi fs n_taps,
  (0 < M)%nat -> 0 < fs -> 0 < A -> (0 < 2 * J < K)%nat ->
  length gain = M -> length offset = M -> length skew = M ->
  (forall m, (m < M)%nat -> 0 < nth m gain 0) ->
  let fin := INR J * fs / INR (K * M) in
  (forall m, (S m < M)%nat -> Rabs (2 * PI * fin * (nth (S m) skew 0 - nth m skew 0)) < PI) ->
  (forall m, (m < M)%nat -> nth m skew 0 = lmean skew \/ / 10 ^ 18 <= Rabs (nth m skew 0 - lmean skew)) ->
  let x := map (ti_sample M fs gain offset skew (fun t => A * cos (2 * PI * fin * t + phi))) (seq 0 (K * M)) in
  exists r, extract_mismatch_sine x (Z.of_nat M) fs fin = Ok r /\
    calibrate_foreground x (Z.of_nat M) (mm_offset r) (mm_gain r) (mm_skew r) fs SkewFft n_taps
    = Ok (map (fun n => A * lmean gain * cos (2 * PI * fin * (INR n / fs + lmean skew) + phi)) (seq 0 (K * M))).
Proof. exact c60_extract_then_calibrate. Qed.
Print Assumptions C60_extract_then_calibrate.

(** A two-channel capture with gains 1 and 3, offsets 5 and -1 and skews 0 and 1/10. *)
Example C59_two_channel_ex :
  let fin := 1 / 6 in
  exists phases, extract_mismatch_sine
    (map (ti_sample 2 1 [1; 3] [5; -1] [0; 1/10] (fun t => 7 * cos (2 * PI * fin * t + 1))) (seq 0 6)) 2 1 fin
  = Ok (mkMismatch 14 [1/2; 3/2] [5; -1] [-1/20; 1/20] phases).
Proof. exact c59_two_channel_ex. Qed.

Example C60_pipeline_ex :
  exists r, let x := map (ti_sample 2 1 [1; 3] [5; -1] [0; 1/10] (fun t => 7 * cos (2 * PI * (1/6) * t + 1))) (seq 0 6) in
    extract_mismatch_sine x 2 1 (1/6) = Ok r /\
    calibrate_foreground x 2 (mm_offset r) (mm_gain r) (mm_skew r) 1 SkewFft 7
    = Ok (map (fun n => 14 * cos (2 * PI * (1/6) * (INR n / 1 + 1/20) + 1)) (seq 0 6)).
Proof. exact c60_pipeline_ex. Qed.

(** Two channels with gains 1 and 3: amplitude 2 fundamental and one spur of amplitude 1. *)
Example C58_gain_spur_ex :
  exists l s, predict_spurs [1; 3] [0; 0] [0; 0] 1 1 (1/8) = Ok l /\ In s l /\ sp_kind s = KGainSkew /\ sp_amp s = 1 /\ sp_freq s = 3/8 /\
  forall n, ti_sample 2 1 [1; 3] [0; 0] [0; 0] (fun t => cos (2 * PI * (1/8) * t)) n
    = 2 * cos (2 * PI * (1/8) * INR n) - cos (2 * PI * (1/8 + 1/2) * INR n).
Proof. exact c58_gain_spur_ex. Qed.
