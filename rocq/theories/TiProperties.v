(** * Property theorems of Ti: statements only, proofs in TiProofs.v.
    Generated by tools/mkprops.py from the final lemmas. *)
From Verif Require Import Base BaseLemmas Cplx FreqModel FreqSpec FreqProofs TiModel TiSpec.
From Coq Require Import Psatz Sorted Permutation.
Local Open Scope R_scope.
From Verif Require Import TiProofs.

(** deinterleave succeeds exactly when M >= 1 divides the length, and otherwise raises
    ValueError. *)
Theorem C17_deinterleave_domain :
  forall x M,
  ((0 < M)%Z /\ (M | Z.of_nat (length x))%Z <-> exists ch, deinterleave x M = Ok ch) /\
  (~ ((0 < M)%Z /\ (M | Z.of_nat (length x))%Z) <-> deinterleave x M = Err ValueError).
Proof. exact c17_deinterleave_domain. Qed.
Print Assumptions C17_deinterleave_domain.

(** The result is an M x (N/M) array whose row m holds x[m], x[m+M], ... *)
Theorem C17_channel_samples :
  forall x (M : nat) ch,
  deinterleave x (Z.of_nat M) = Ok ch ->
  rect M (length x / M) ch /\
  forall m k, (m < M)%nat -> (k < length x / M)%nat -> nth k (nth m ch []) 0 = nth (k * M + m) x 0.
Proof. exact c17_channel_samples. Qed.
Print Assumptions C17_channel_samples.

(** Interleaving the channels of a capture gives the capture back. *)
Theorem C17_interleave_deinterleave :
  forall x M ch,
  deinterleave x M = Ok ch -> interleave ch = Ok x.
Proof. exact c17_interleave_deinterleave. Qed.
Print Assumptions C17_interleave_deinterleave.

(** Deinterleaving an interleaved M x K array gives the array back. *)
Theorem C17_deinterleave_interleave :
  forall M K ch,
  (0 < M)%nat -> rect M K ch ->
  exists x, interleave ch = Ok x /\ length x = (M * K)%nat /\ deinterleave x (Z.of_nat M) = Ok ch.
Proof. exact c17_deinterleave_interleave. Qed.
Print Assumptions C17_deinterleave_interleave.

Example C17_roundtrip_ex :
  deinterleave [1; 2; 3; 4; 5; 6] 3 = Ok [[1; 4]; [2; 5]; [3; 6]] /\
  interleave [[1; 4]; [2; 5]; [3; 6]] = Ok [1; 2; 3; 4; 5; 6] /\
  deinterleave [1; 2; 3; 4; 5] 3 = Err ValueError /\ deinterleave [1] (-1) = Err ValueError /\
  interleave [[1; 2]; [3]] = Err ValueError.
Proof. exact c17_roundtrip_ex. Qed.

(** A capture in which channel m multiplied by gain m and added offset m is restored exactly
    by the true parameters when every skew is negligible, whatever skew method is named. *)
Theorem C18_restores_signal :
  forall s M K offset gain skew fs method n_taps,
  (0 < M)%nat -> length offset = M -> length gain = M -> length skew = M ->
  (forall m, (m < M)%nat -> nth m gain 0 <> 0) ->
  (forall m, (m < M)%nat -> Rabs (nth m skew 0) < / 10 ^ 18) ->
  calibrate_foreground (map (mismatched M gain offset s) (seq 0 (K * M))) (Z.of_nat M)
    offset gain skew fs method n_taps = Ok (map s (seq 0 (K * M))).
Proof. exact c18_restores_signal. Qed.
Print Assumptions C18_restores_signal.

(** Parameter vectors of a wrong size, or an unusable signal/channel count, raise ValueError. *)
Theorem C18_wrong_sizes :
  forall x M offset gain skew fs method n_taps,
  Z.of_nat (length offset) <> M \/ Z.of_nat (length gain) <> M \/ Z.of_nat (length skew) <> M
  \/ (M <= 0)%Z \/ ~ (M | Z.of_nat (length x))%Z ->
  calibrate_foreground x M offset gain skew fs method n_taps = Err ValueError.
Proof. exact c18_wrong_sizes. Qed.
Print Assumptions C18_wrong_sizes.

(** An unknown skew_method raises ValueError as soon as one skew is not negligible. *)
Theorem C18_unknown_method :
  forall x M offset gain skew fs n_taps m,
  (m < length skew)%nat -> / 10 ^ 18 <= Rabs (nth m skew 0) ->
  calibrate_foreground x M offset gain skew fs SkewOther n_taps = Err ValueError.
Proof. exact c18_unknown_method. Qed.
Print Assumptions C18_unknown_method.

Example C18_restores_ex :
  let s := fun n => INR n in
  map (mismatched 2 [2; 4] [10; 20] s) (seq 0 4) = [10; 24; 14; 32] /\
  calibrate_foreground [10; 24; 14; 32] 2 [10; 20] [2; 4] [0; 0] 1 SkewFft 7 = Ok [0; 1; 2; 3].
Proof. exact c18_restores_ex. Qed.

(** The taps sum to 1 for every tap count and evaluation point. *)
Theorem C20_taps_sum_to_one :
  forall n p,
  (0 < n)%nat -> rsum n (fun i => nth i (lagrange_taps n p) 0) = 1.
Proof. exact c20_taps_sum_to_one. Qed.
Print Assumptions C20_taps_sum_to_one.

(** Every polynomial of degree below n_taps = 2P+1 is delayed exactly, for every real delay,
    at each output sample whose filter window lies inside the (shifted) record. *)
Theorem C20_polynomial_delay :
  forall c N P delay fs y t,
  (2 * P + 1 <= N)%nat -> (length c <= 2 * P + 1)%nat ->
  fractional_delay_farrow (map (fun n => poly c (INR n)) (seq 0 N)) delay fs (2 * Z.of_nat P + 1) = Ok y ->
  let D := delay * fs in let Di := round_he D in
  (Z.of_nat P + Z.max 0 Di <= Z.of_nat t)%Z -> (Z.of_nat t + Z.of_nat P < Z.of_nat N + Z.min 0 Di)%Z ->
  nth t y 0 = poly c (INR t - D).
Proof. exact c20_polynomial_delay. Qed.
Print Assumptions C20_polynomial_delay.

(** An integer delay d (of either sign and any size) is a zero-filled shift by d samples. *)
Theorem C21_integer_delay :
  forall x delay fs n_taps (d : Z),
  (Z.Odd n_taps) -> (1 <= n_taps <= Z.of_nat (length x))%Z -> delay * fs = IZR d ->
  exists y, fractional_delay_farrow x delay fs n_taps = Ok y /\ length y = length x /\
  forall t, (t < length x)%nat -> nth t y 0 = zget x (Z.of_nat t - d).
Proof. exact c21_integer_delay. Qed.
Print Assumptions C21_integer_delay.

(** Zero delay is the identity. *)
Theorem C21_zero_delay :
  forall x delay fs n_taps,
  (Z.Odd n_taps) -> (1 <= n_taps <= Z.of_nat (length x))%Z -> delay * fs = 0 ->
  fractional_delay_farrow x delay fs n_taps = Ok x.
Proof. exact c21_zero_delay. Qed.
Print Assumptions C21_zero_delay.

(** The output length is max(len(x), n_taps): the record length exactly when n_taps fits. *)
Theorem C21_output_length :
  forall x delay fs n_taps y,
  fractional_delay_farrow x delay fs n_taps = Ok y ->
  length y = Nat.max (length x) (Z.to_nat n_taps).
Proof. exact c21_output_length. Qed.
Print Assumptions C21_output_length.

(** The call fails exactly for an even or non-positive n_taps or an empty signal. *)
Theorem C21_error_iff :
  forall x delay fs n_taps,
  fractional_delay_farrow x delay fs n_taps = Err ValueError <->
  (Z.Even n_taps \/ (n_taps <= 0)%Z \/ x = []).
Proof. exact c21_error_iff. Qed.
Print Assumptions C21_error_iff.

(** The length is not preserved when the record is shorter than the filter. *)
Theorem C21_same_length_refuted :
  exists x delay fs n_taps y, fractional_delay_farrow x delay fs n_taps = Ok y /\ length y <> length x.
Proof. exact c21_same_length_refuted. Qed.
Print Assumptions C21_same_length_refuted.

Example C21_shift_ex :
  fractional_delay_farrow [1; 2; 3; 4] 1 1 3 = Ok [0; 1; 2; 3] /\
  fractional_delay_farrow [1; 2; 3; 4] (-6) 1 3 = Ok [0; 0; 0; 0] /\
  fractional_delay_farrow [1; 2; 3; 4] 1 1 2 = Err ValueError.
Proof. exact c21_shift_ex. Qed.

(** A parabola delayed by a quarter sample: 3 taps suffice, sample 2 is exact. *)
Example C20_parabola_ex :
  exists y, fractional_delay_farrow (map (fun n => poly [0; 0; 1] (INR n)) (seq 0 5)) (1/4) 1 3 = Ok y /\
  nth 2 y 0 = 49 / 16.
Proof. exact c20_parabola_ex. Qed.

(** The call returns one offset spur and one gain/skew spur for every k in 1..M-1, sorted by
    frequency; each frequency is the fold of k fs/M (resp. fin + k fs/M), i.e. the distance
    to the nearest multiple of fs, and lies in [0, fs/2]; each amplitude is 1/M times the DFT
    coefficient k of the offsets (resp. A times that of gain e^{j 2 pi fin skew}). *)
Theorem C22_spur_list :
  forall gain offset skew A fs fin l,
  0 < fs -> predict_spurs gain offset skew A fs fin = Ok l ->
  let M := length gain in
  length l = (2 * (M - 1))%nat /\
  Sorted (fun a b => sp_freq a <= sp_freq b) l /\
  Permutation (map (fun s => (sp_kind s, sp_k s)) l)
    (map (fun k => (KOffset, k)) (seq 1 (M - 1)) ++ map (fun k => (KGainSkew, k)) (seq 1 (M - 1))) /\
  forall s, In s l -> 0 <= sp_freq s <= fs / 2 /\
    match sp_kind s with
    | KOffset => nearest_multiple_distance (INR (sp_k s) * fs / INR M) fs (sp_freq s) /\
        sp_amp s = Cmod (rdft M (fun m => nth m offset 0) (sp_k s)) / INR M
    | KGainSkew => nearest_multiple_distance (fin + INR (sp_k s) * fs / INR M) fs (sp_freq s) /\
        sp_amp s = A * Cmod (dft M (fun m => Cscale (nth m gain 0) (cis (2 * PI * fin * nth m skew 0))) (sp_k s)) / INR M
    end.
Proof. exact c22_spur_list. Qed.
Print Assumptions C22_spur_list.

(** Vectors of different lengths raise ValueError and nothing else does. *)
Theorem C22_size_check :
  forall gain offset skew A fs fin,
  (length offset = length gain /\ length skew = length gain <-> exists l, predict_spurs gain offset skew A fs fin = Ok l) /\
  (~ (length offset = length gain /\ length skew = length gain) <-> predict_spurs gain offset skew A fs fin = Err ValueError).
Proof. exact c22_size_check. Qed.
Print Assumptions C22_size_check.

(** All offset spurs vanish exactly when the channel offsets are equal; all gain/skew spurs
    vanish exactly when the complex channel gains are equal (for A <> 0). *)
Theorem C22_no_spurs_iff_matched :
  forall gain offset skew A fs fin l,
  0 < fs -> A <> 0 -> predict_spurs gain offset skew A fs fin = Ok l ->
  let M := length gain in
  ((forall s, In s l -> sp_kind s = KOffset -> sp_amp s = 0) <->
   (forall i j, (i < M)%nat -> (j < M)%nat -> nth i offset 0 = nth j offset 0)) /\
  ((forall s, In s l -> sp_kind s = KGainSkew -> sp_amp s = 0) <->
   (forall i j, (i < M)%nat -> (j < M)%nat ->
      Cscale (nth i gain 0) (cis (2 * PI * fin * nth i skew 0)) = Cscale (nth j gain 0) (cis (2 * PI * fin * nth j skew 0)))).
Proof. exact c22_no_spurs_iff_matched. Qed.
Print Assumptions C22_no_spurs_iff_matched.

(** Two channels with offsets +-1 and equal gains: one offset spur at fs/2 of amplitude 1. *)
Example C22_two_channel_ex :
  exists l, predict_spurs [1; 1] [1; -1] [0; 0] 1 1 (1/8) = Ok l /\
  exists s, In s l /\ sp_kind s = KOffset /\ sp_amp s = 1 /\ sp_freq s = 1/2.
Proof. exact c22_two_channel_ex. Qed.

(** Gains average to exactly 1, skews to exactly 0, there is one of each per channel, and
    offset m is the mean of channel m's samples. *)
Theorem C19_normalised :
  forall x (M : nat) fs fin r,
  extract_mismatch_sine x (Z.of_nat M) fs fin = Ok r ->
  (length (mm_gain r) = M /\ length (mm_skew r) = M /\ length (mm_offset r) = M) /\
  lmean (mm_gain r) = 1 /\ lmean (mm_skew r) = 0 /\
  let K := (length x / M)%nat in
  forall m, (m < M)%nat -> nth m (mm_offset r) 0 = rsum K (fun k => nth (k * M + m) x 0) / INR K.
Proof. exact c19_normalised. Qed.
Print Assumptions C19_normalised.

(** Adding a constant c to every sample of channel j moves only offset j, by exactly c. *)
Theorem C19_constant_moves_offset_only :
  forall x M fs fin j c r,
  (j < M)%nat -> (M <= length x)%nat ->
  extract_mismatch_sine x (Z.of_nat M) fs fin = Ok r ->
  exists r', extract_mismatch_sine
    (map (fun n => nth n x 0 + (if (n mod M =? j)%nat then c else 0)) (seq 0 (length x))) (Z.of_nat M) fs fin = Ok r' /\
  mm_A r' = mm_A r /\ mm_gain r' = mm_gain r /\ mm_skew r' = mm_skew r /\ mm_phases r' = mm_phases r /\
  forall m, (m < M)%nat -> nth m (mm_offset r') 0 = nth m (mm_offset r) 0 + (if (m =? j)%nat then c else 0).
Proof. exact c19_constant_moves_offset_only. Qed.
Print Assumptions C19_constant_moves_offset_only.

(** Validation: same domain as deinterleave. *)
Theorem C19_error_iff :
  forall x M fs fin,
  extract_mismatch_sine x M fs fin = Err ValueError <-> ~ ((0 < M)%Z /\ (M | Z.of_nat (length x))%Z).
Proof. exact c19_error_iff. Qed.
Print Assumptions C19_error_iff.

Example C19_constant_ex :
  exists r, extract_mismatch_sine [1; 5; 1; 7] 2 1 (1/4) = Ok r /\ nth 0 (mm_offset r) 0 = 1 /\ nth 1 (mm_offset r) 0 = 6 /\ lmean (mm_gain r) = 1.
Proof. exact c19_constant_ex. Qed.
