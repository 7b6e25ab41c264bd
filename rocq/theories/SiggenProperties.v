(** * Property theorems of Siggen: statements only, proofs in SiggenProofs.v.
    Generated by tools/mkprops.py from the final lemmas. *)
From Verif Require Import Base BaseLemmas FreqProofs SpecLemmas SpecProofs SiggenModel SiggenSpec.
From Coq Require Import Psatz ZifyBool Reals.Binomial Permutation.
Local Open Scope R_scope.
From Verif Require Import SiggenProofs.

(** Every output is one of the 2^n levels v_min + k*lsb, so it lies in [v_min, v_max - lsb]. *)
Theorem C48_levels :
  forall g s n a b i,
  a < b -> let x := resolve_signal g s in let y := apply_quantization_noise g s n a b in
  length y = length x /\
  ((i < length x)%nat -> exists k, (0 <= k < 2 ^ Z.of_nat n)%Z /\ nth i y 0 = a + IZR k * lsb_of n a b /\ a <= nth i y 0 <= b - lsb_of n a b).
Proof. exact c48_levels. Qed.
Print Assumptions C48_levels.

(** The transfer is monotone. *)
Theorem C48_monotone :
  forall n a b x y,
  a < b -> x <= y -> quantise n a b x <= quantise n a b y.
Proof. exact c48_monotone. Qed.
Print Assumptions C48_monotone.

(** In range the output is below the input by less than one LSB; outside it saturates. *)
Theorem C48_error :
  forall n a b x,
  a < b ->
  (a <= x < b -> 0 <= x - quantise n a b x < lsb_of n a b) /\
  (x <= a -> quantise n a b x = a) /\ (b <= x -> quantise n a b x = b - lsb_of n a b).
Proof. exact c48_error. Qed.
Print Assumptions C48_error.

(** Quantising twice changes nothing. *)
Theorem C48_idempotent :
  forall g s n a b,
  a < b -> let y := apply_quantization_noise g s n a b in apply_quantization_noise g (Some y) n a b = y.
Proof. exact c48_idempotent. Qed.
Print Assumptions C48_idempotent.

(** 3 bits over (0, 1): 0.3 falls to 0.25; 1.7 saturates at 0.875. *)
Example C48_values_ex :
  quantise 3 0 1 0.3 = 0.25 /\ quantise 3 0 1 1.7 = 0.875.
Proof. exact c48_values_ex. Qed.

(** With a custom FIR or IIR transfer function, output minus input is the quantisation error
    filtered by num/den. *)
Theorem C49_custom :
  forall g s n a b order num den out,
  apply_noise_shaping g s n a b order (NtfIir num den) = Ok out ->
  let x := resolve_signal g s in length out = length x /\ hd 0 den <> 0 /\
  forall i, (i < length x)%nat -> convolve den (out_minus_in x out) i = convolve num (quant_error n a b x) i.
Proof. exact c49_custom. Qed.
Print Assumptions C49_custom.

Theorem C49_fir :
  forall g s n a b order num out,
  apply_noise_shaping g s n a b order (NtfFir num) = Ok out ->
  let x := resolve_signal g s in length out = length x /\
  forall i, (i < length x)%nat -> nth i out 0 - nth i x 0 = convolve num (quant_error n a b x) i.
Proof. exact c49_fir. Qed.
Print Assumptions C49_fir.

(** The built-in orders 1..5 use the coefficients of (1 - z^-1)^L; any other order raises. *)
Theorem C49_builtin :
  forall g s n a b L out,
  apply_noise_shaping g s n a b (Z.of_nat L) NtfNone = Ok out -> 
  let x := resolve_signal g s in length out = length x /\ (1 <= L <= 5)%nat /\
  forall i, (i < length x)%nat -> nth i out 0 - nth i x 0 = rsum (S L) (fun k => if (k <=? i)%nat then binomial_ntf L k * nth (i - k) (quant_error n a b x) 0 else 0).
Proof. exact c49_builtin. Qed.
Print Assumptions C49_builtin.

(** Orders outside 1..5 raise ValueError unless a transfer function is given. *)
Theorem C49_errors :
  forall g s n a b order,
  (forall L, (1 <= L <= 5)%nat -> order <> Z.of_nat L) -> apply_noise_shaping g s n a b order NtfNone = Err ValueError.
Proof. exact c49_errors. Qed.
Print Assumptions C49_errors.

(** The coefficients add up to zero: a constant error is removed. *)
Theorem C49_zero_dc :
  forall L,
  (1 <= L <= 5)%nat -> rsum (S L) (binomial_ntf L) = 0.
Proof. exact c49_zero_dc. Qed.
Print Assumptions C49_zero_dc.

(** Order L: the L-fold running sum of (output - input) is exactly the quantisation error, hence
    never leaves (-lsb, 0] while the input is in range. *)
Theorem C49_integrated :
  forall g s n a b L out i,
  apply_noise_shaping g s n a b (Z.of_nat L) NtfNone = Ok out ->
  let x := resolve_signal g s in (i < length x)%nat ->
  let acc := Nat.iter L running_sum (fun j => nth j out 0 - nth j x 0) i in
  acc = nth i (quant_error n a b x) 0 /\ (a < b -> a <= nth i x 0 < b -> - lsb_of n a b < acc <= 0).
Proof. exact c49_integrated. Qed.
Print Assumptions C49_integrated.

(** A concrete first-order run: 1 bit over (0,1) on the input 0.75, 0.75, 0.25. *)
Example C49_shape_ex :
  forall g,
  apply_noise_shaping g (Some [0.75; 0.75; 0.25]) 1 0 1 1 NtfNone = Ok [0.5; 0.75; 0.25].
Proof. exact c49_shape_ex. Qed.

(** Every sample is the polynomial x + k2 a^2 + k3 a^3 + k4 a^4 + k5 a^5 of a = x - DC. *)
Theorem C66_polynomial :
  forall g s k2 k3 k4 k5 i,
  let x := resolve_signal g s in let y := apply_static_nonlinearity g s k2 k3 k4 k5 in let a := nth i x 0 - g_DC g in
  length y = length x /\ ((i < length x)%nat -> nth i y 0 = nth i x 0 + k2 * a ^ 2 + k3 * a ^ 3 + k4 * a ^ 4 + k5 * a ^ 5).
Proof. exact c66_polynomial. Qed.
Print Assumptions C66_polynomial.

(** Applied to the clean sine, the output is this exact sum of harmonics, where r_k is the requested
    amplitude ratio of harmonic k. *)
Theorem C66_harmonics :
  forall g h2 h3 h4 h5 i,
  g_A g <> 0 -> (i < g_N g)%nat -> let t := 2 * PI * g_Fin g * (INR i / g_Fs g) in
  nth i (apply_static_nonlinearity_hd g None h2 h3 h4 h5) 0 =
  g_DC g + g_A g * ((1 + 3 * ratio h3 + 10 * ratio h5) * sin t + ratio h2 * (1 - cos (2 * t)) + ratio h4 * (3 - 4 * cos (2 * t) + cos (4 * t))
    - (ratio h3 + 5 * ratio h5) * sin (3 * t) + ratio h5 * sin (5 * t)).
Proof. exact c66_harmonics. Qed.
Print Assumptions C66_harmonics.

(** A second-harmonic request alone is met exactly: the fundamental keeps amplitude A and the
    second harmonic gets amplitude A*r2 (and DC moves by A*r2). *)
Theorem C66_hd2 :
  forall g h2 i,
  g_A g <> 0 -> (i < g_N g)%nat -> let t := 2 * PI * g_Fin g * (INR i / g_Fs g) in
  nth i (apply_static_nonlinearity_hd g None (Some h2) None None None) 0 =
  (g_DC g + g_A g * Rpower 10 (h2 / 20)) + g_A g * sin t - g_A g * Rpower 10 (h2 / 20) * cos (2 * t).
Proof. exact c66_hd2. Qed.
Print Assumptions C66_hd2.

(** A third-harmonic request is not met: asking for -20 dBc gives fundamental 1.3*A and third
    harmonic 0.1*A, so H3/H1 is 1/13 (-22.3 dBc) whatever way the waveform is decomposed. *)
Theorem C66_hd3_refuted :
  exists h3, ratio (Some h3) = 1/10 /\
  (exists F H, forall t, nonlin 0 0 (db_to_k 1 (Some h3) 3) 0 0 (sin t) = F * sin t + H * sin (3 * t)) /\
  (forall F H, (forall t, nonlin 0 0 (db_to_k 1 (Some h3) 3) 0 0 (sin t) = F * sin t + H * sin (3 * t)) -> Rabs H / Rabs F = 1/13).
Proof. exact c66_hd3_refuted. Qed.
Print Assumptions C66_hd3_refuted.

(** A fourth-harmonic request also produces a second harmonic four times as large; a fifth-harmonic
    request produces a third harmonic five times as large. *)
Theorem C66_side_products :
  forall A h t,
  A <> 0 ->
  nonlin 0 0 0 (db_to_k A (Some h) 4) 0 (A * sin t) = A * (sin t + 3 * ratio (Some h) - 4 * ratio (Some h) * cos (2 * t) + ratio (Some h) * cos (4 * t)) /\
  nonlin 0 0 0 0 (db_to_k A (Some h) 5) (A * sin t) = A * ((1 + 10 * ratio (Some h)) * sin t - 5 * ratio (Some h) * sin (3 * t) + ratio (Some h) * sin (5 * t)).
Proof. exact c66_side_products. Qed.
Print Assumptions C66_side_products.

(** 4 samples per period, A = 1, DC = 0, k3 = 0.5: the peaks become 1.5 and -1.5. *)
Example C66_values_ex :
  apply_static_nonlinearity (mkGen 4 4 1 1 0) (Some [0; 1; 0; -1]) 0 0.5 0 0 = [0; 1.5; 0; -1.5].
Proof. exact c66_values_ex. Qed.

(** With gain 1 both modes only quantise: the output is below the input by less than 2^-lsb_bits. *)
Theorem C67_unity :
  forall g s mb lb mode out i,
  apply_ra_gain_error g s 1 mb lb mode = Ok out -> let x := resolve_signal g s in
  length out = length x /\ ((i < length x)%nat -> 0 <= nth i x 0 - nth i out 0 < / 2 ^ lb).
Proof. exact c67_unity. Qed.
Print Assumptions C67_unity.

(** Coarse path: the extra error is (gain-1) times the coarse level k*2^-msb_bits at or below the sample. *)
Theorem C67_coarse :
  forall g s gain mb lb out ideal i,
  apply_ra_gain_error g s gain mb lb CoarsePath = Ok out -> apply_ra_gain_error g s 1 mb lb CoarsePath = Ok ideal ->
  let x := resolve_signal g s in (i < length x)%nat ->
  exists k, IZR k / 2 ^ mb <= nth i x 0 - g_DC g < (IZR k + 1) / 2 ^ mb /\ nth i out 0 - nth i ideal 0 = (gain - 1) * (IZR k / 2 ^ mb).
Proof. exact c67_coarse. Qed.
Print Assumptions C67_coarse.

(** Residue path: the extra error is (gain-1) times a residue in [0, 2^-msb_bits). *)
Theorem C67_residue :
  forall g s gain mb lb out ideal i,
  apply_ra_gain_error g s gain mb lb ResiduePath = Ok out -> apply_ra_gain_error g s 1 mb lb ResiduePath = Ok ideal ->
  let x := resolve_signal g s in (i < length x)%nat ->
  exists l, 0 <= l < / 2 ^ mb /\ nth i out 0 - nth i ideal 0 = (gain - 1) * l /\ Rabs (nth i out 0 - nth i ideal 0) <= Rabs (gain - 1) / 2 ^ mb.
Proof. exact c67_residue. Qed.
Print Assumptions C67_residue.

(** Without the cubic term the dynamic model is the static one. *)
Theorem C67_dynamic_static :
  forall g s gain mb lb mode,
  length (resolve_signal g s) = g_N g ->
  apply_ra_gain_error_dynamic g s gain 0 mb lb mode = apply_ra_gain_error g s gain mb lb mode.
Proof. exact c67_dynamic_static. Qed.
Print Assumptions C67_dynamic_static.

(** A wrong mode string is a ValueError; the dynamic model needs at least N samples and returns N. *)
Theorem C67_errors :
  forall g s gain c3 mb lb mode,
  apply_ra_gain_error g s gain mb lb OtherMode = Err ValueError /\ apply_ra_gain_error_dynamic g s gain c3 mb lb OtherMode = Err ValueError /\
  (mode <> OtherMode -> (length (resolve_signal g s) < g_N g)%nat -> apply_ra_gain_error_dynamic g s gain c3 mb lb mode = Err IndexError) /\
  (mode <> OtherMode -> (g_N g <= length (resolve_signal g s))%nat -> exists out, apply_ra_gain_error_dynamic g s gain c3 mb lb mode = Ok out /\ length out = g_N g).
Proof. exact c67_errors. Qed.
Print Assumptions C67_errors.

(** msb_bits = 1, lsb_bits = 2, DC = 0, sample 0.8 = coarse 0.5 + residue 0.25 (0.05 lost). *)
Example C67_values_ex :
  apply_ra_gain_error (mkGen 1 1 1 1 0) (Some [0.8]) 0.9 1 2 CoarsePath = Ok [0.7] /\
  apply_ra_gain_error (mkGen 1 1 1 1 0) (Some [0.8]) 0.9 1 2 ResiduePath = Ok [0.725].
Proof. exact c67_values_ex. Qed.

(** Each output lies between the previous output (DC before the first sample) and the present
    input, reaching the fraction 1 - exp(-T/tau_i) of the way with tau_i = tau*(1 + k*(x_i-DC)^2). *)
Theorem C68_step :
  forall g s T tau k out i,
  apply_incomplete_sampling g s T tau k = Ok out -> 0 <= track g T -> 0 < tau -> 0 <= k -> (i < g_N g)%nat ->
  let x := resolve_signal g s in let prev := match i with O => g_DC g | S j => nth j out 0 end in let a := exp (- track g T / (tau * (1 + k * (nth i x 0 - g_DC g) ^ 2))) in
  length out = g_N g /\ nth i out 0 = nth i x 0 + (prev - nth i x 0) * a /\ 0 < a <= 1 /\ Rmin prev (nth i x 0) <= nth i out 0 <= Rmax prev (nth i x 0).
Proof. exact c68_step. Qed.
Print Assumptions C68_step.

(** The output never exceeds the largest excursion of the input from DC. *)
Theorem C68_bounded :
  forall g s T tau k out M,
  apply_incomplete_sampling g s T tau k = Ok out -> 0 <= track g T -> 0 < tau -> 0 <= k -> 0 <= M ->
  (forall v, In v (resolve_signal g s) -> Rabs (v - g_DC g) <= M) -> forall o, In o out -> Rabs (o - g_DC g) <= M.
Proof. exact c68_bounded. Qed.
Print Assumptions C68_bounded.

(** A constant input is approached geometrically. *)
Theorem C68_constant :
  forall g c n T tau k i,
  (i < g_N g)%nat -> (g_N g <= n)%nat -> exists out, apply_incomplete_sampling g (Some (repeat c n)) T tau k = Ok out /\
  nth i out 0 = c - (c - g_DC g) * exp (- track g T / (tau * (1 + k * (c - g_DC g) ^ 2))) ^ (S i).
Proof. exact c68_constant. Qed.
Print Assumptions C68_constant.

(** A signal shorter than N is an IndexError. *)
Theorem C68_short :
  forall g s T tau k,
  (length (resolve_signal g s) < g_N g)%nat -> apply_incomplete_sampling g s T tau k = Err IndexError.
Proof. exact c68_short. Qed.
Print Assumptions C68_short.

(** Tracking for tau*ln 2 halves the distance each time: 1/2, 3/4 for a unit step. *)
Example C68_values_ex :
  apply_incomplete_sampling (mkGen 2 1 0 1 0) (Some [1; 1]) (Some (ln 2)) 1 0 = Ok [1/2; 3/4].
Proof. exact c68_values_ex. Qed.

(** Sample i is scaled about DC by one minus an exponentially fading sum of all past |x_k - DC|. *)
Theorem C69_closed_form :
  forall g s tau st i,
  let x := resolve_signal g s in (i < length x)%nat ->
  nth i (apply_reference_error g s tau st) 0 =
  g_DC g + (nth i x 0 - g_DC g) * (1 - st * rsum (S i) (fun k => exp (- INR (i - k) / tau) * Rabs (nth k x 0 - g_DC g))).
Proof. exact c69_closed_form. Qed.
Print Assumptions C69_closed_form.

(** The relative error of a sample is between 0 and strength*M/(1 - exp(-1/tau)). *)
Theorem C69_bound :
  forall g s tau st M i,
  let x := resolve_signal g s in (i < length x)%nat -> 0 < tau -> 0 <= st ->
  (forall v, In v x -> Rabs (v - g_DC g) <= M) ->
  exists r, nth i (apply_reference_error g s tau st) 0 - nth i x 0 = - r * (nth i x 0 - g_DC g) /\ 0 <= r <= st * M / (1 - exp (- 1 / tau)).
Proof. exact c69_bound. Qed.
Print Assumptions C69_bound.

(** Record 1, 1 with DC 0, tau = 1/ln 2 (decay 1/2), strength 0.1: outputs 0.9, 0.85. *)
Example C69_values_ex :
  apply_reference_error (mkGen 2 1 0 1 0) (Some [1; 1]) (/ ln 2) 0.1 = [0.9; 0.85].
Proof. exact c69_values_ex. Qed.

(** p up to 50 is a proper clipper: there are thresholds lo <= hi such that samples between them
    are unchanged, samples outside are moved to the nearer one, and at most
    ceil((n-1)*p/100) samples lie on either side. *)
Theorem C70_clip :
  forall g s p,
  resolve_signal g s <> [] -> 0 <= p <= 50 -> let x := resolve_signal g s in let m := INR (length x) - 1 in
  exists lo hi out, apply_clipping g s p = Ok out /\ lo <= hi /\ length out = length x /\
    (below lo x <= Z.to_nat (Zceil (m * (p / 100))))%nat /\ (above hi x <= Z.to_nat (Zceil (m * (p / 100))))%nat /\
    (forall i, (i < length x)%nat -> (lo <= nth i x 0 <= hi -> nth i out 0 = nth i x 0) /\ (nth i x 0 < lo -> nth i out 0 = lo) /\ (hi < nth i x 0 -> nth i out 0 = hi)).
Proof. exact c70_clip. Qed.
Print Assumptions C70_clip.

(** p = 0 changes nothing. *)
Theorem C70_identity :
  forall g s,
  resolve_signal g s <> [] -> apply_clipping g s 0 = Ok (resolve_signal g s).
Proof. exact c70_identity. Qed.
Print Assumptions C70_identity.

(** p above 50 is not rejected: the thresholds cross and every sample becomes the same value. *)
Theorem C70_flat :
  forall g s p,
  resolve_signal g s <> [] -> 50 < p <= 100 -> exists v, apply_clipping g s p = Ok (map (fun _ => v) (resolve_signal g s)).
Proof. exact c70_flat. Qed.
Print Assumptions C70_flat.

(** Percentages outside [0,100] are a ValueError; an empty record an IndexError. *)
Theorem C70_errors :
  forall g s p,
  (resolve_signal g s <> [] -> p < 0 \/ 100 < p -> apply_clipping g s p = Err ValueError) /\ (resolve_signal g s = [] -> apply_clipping g s p = Err IndexError).
Proof. exact c70_errors. Qed.
Print Assumptions C70_errors.

(** 25 percent of [4; 1; 0; 3; 2]: 0 rises to 1 and 4 falls to 3. *)
Example C70_values_ex :
  forall g,
  apply_clipping g (Some [4; 1; 0; 3; 2]) 25 = Ok [3; 1; 1; 3; 2].
Proof. exact c70_values_ex. Qed.

(** Thermal noise, glitches, AM noise and AM tone of strength zero return the signal. *)
Theorem C71_additive :
  forall g s draws freq amp,
  let x := resolve_signal g s in length draws = length x -> length x = g_N g ->
  apply_thermal_noise g s 0 draws = x /\ apply_glitch g s 0 amp (map Rabs draws) = x /\ apply_glitch g s freq 0 draws = x /\
  apply_am_noise g s 0 draws = x /\ apply_am_tone g s freq 0 = x.
Proof. exact c71_additive. Qed.
Print Assumptions C71_additive.

(** Jitter of zero rms returns the clean sine; zero coefficients, absent harmonic levels and zero
    droop return the signal. *)
Theorem C71_shaping :
  forall g s draws tau,
  length draws = g_N g ->
  jitter_clean g 0 draws = clean_signal g /\ apply_static_nonlinearity g s 0 0 0 0 = resolve_signal g s /\
  apply_static_nonlinearity_hd g s None None None None = resolve_signal g s /\ apply_reference_error g s tau 0 = resolve_signal g s.
Proof. exact c71_shaping. Qed.
Print Assumptions C71_shaping.

(** Memory effect: 4+12-bit quantisation plus the leaked coarse code of the previous sample; the
    first sample takes the coarse code of the LAST one (np.roll wraps around). With strength zero
    it still quantises to within 2^-12. *)
Theorem C71_memory :
  forall g s strength i,
  let x := resolve_signal g s in let y := apply_memory_effect g s strength in (i < length x)%nat ->
  let j := match i with O => (length x - 1)%nat | S j => j end in
  exists k e, IZR k / 2 ^ 4 <= nth j x 0 < (IZR k + 1) / 2 ^ 4 /\ 0 <= e < / 2 ^ 12 /\ nth i y 0 = nth i x 0 - e + strength * (IZR k / 2 ^ 4).
Proof. exact c71_memory. Qed.
Print Assumptions C71_memory.

(** Zero memory strength on [0.3]: only the 12-bit floor remains (0.3*4096 = 1228.8). *)
Example C71_memory_ex :
  forall g,
  apply_memory_effect g (Some [0.3]) 0 = [1228 / 4096].
Proof. exact c71_memory_ex. Qed.

(** Thermal noise adds rms times the draw; a glitch adds its amplitude where the draw is below the probability;
    AM noise scales the excursion from DC by 1 + strength times the draw; jitter moves the sampling instant. *)
Theorem C71_values :
  forall g s rms prob amp strength draws i,
  let x := resolve_signal g s in length draws = length x -> (i < length x)%nat ->
  let d := nth i draws 0 in
  nth i (apply_thermal_noise g s rms draws) 0 = nth i x 0 + rms * d /\
  nth i (apply_glitch g s prob amp draws) 0 = (if Rltb d prob then nth i x 0 + amp else nth i x 0) /\
  nth i (apply_am_noise g s strength draws) 0 = g_DC g + (nth i x 0 - g_DC g) * (1 + strength * d).
Proof. exact c71_values. Qed.
Print Assumptions C71_values.

Theorem C71_jitter :
  forall g rms draws i,
  length draws = g_N g -> (i < g_N g)%nat ->
  nth i (jitter_clean g rms draws) 0 = g_DC g + g_A g * sin (2 * PI * g_Fin g * (INR i / g_Fs g + rms * nth i draws 0)).
Proof. exact c71_jitter. Qed.
Print Assumptions C71_jitter.

(** An AM tone on the clean sine gives the carrier and two sidebands of A*depth/2 at Fin - f and Fin + f. *)
Theorem C71_am_tone :
  forall g f depth i,
  (i < g_N g)%nat -> let t := INR i / g_Fs g in
  nth i (apply_am_tone g None f depth) 0 = g_DC g + g_A g * sin (2 * PI * g_Fin g * t)
    + g_A g * depth / 2 * cos (2 * PI * (g_Fin g - f) * t) - g_A g * depth / 2 * cos (2 * PI * (g_Fin g + f) * t).
Proof. exact c71_am_tone. Qed.
Print Assumptions C71_am_tone.

Example C71_values_ex :
  apply_glitch (mkGen 3 1 1 1 0) (Some [1; 2; 3]) 0.5 10 [0.7; 0.2; 0.5] = [1; 12; 3] /\ apply_am_noise (mkGen 2 1 1 1 1) (Some [1; 3]) 0.5 [4; 1] = [1; 4].
Proof. exact c71_values_ex. Qed.

(** The memory of the dynamic model: with coarse level m and residue l of the sample (both floored to their
    grids), the gain acting on m (coarse path) or on l (residue path) is gain + c3 times the square of the
    previous output (coarse path) or of the previous amplified residue (residue path). *)
Theorem C67_dynamic :
  forall g s gain c3 mb lb mode out i,
  apply_ra_gain_error_dynamic g s gain c3 mb lb mode = Ok out -> (i < g_N g)%nat ->
  let x j := nth j (resolve_signal g s) 0 - g_DC g in
  exists m l : nat -> R,
    (forall j, (j < g_N g)%nat -> (exists k, m j = IZR k / 2 ^ mb) /\ m j <= x j < m j + / 2 ^ mb /\ (exists k, l j = IZR k / 2 ^ lb) /\ l j <= x j - m j < l j + / 2 ^ lb) /\
    let prev := match i with O => 0 | S j => nth j out 0 - g_DC g end in
    let prev_m := match i with O => 0 | S j => m j end in
    (mode = CoarsePath -> nth i out 0 = g_DC g + m i * (gain + c3 * prev ^ 2) + l i) /\
    (mode = ResiduePath -> nth i out 0 = g_DC g + m i + l i * (gain + c3 * (prev - prev_m) ^ 2)).
Proof. exact c67_dynamic. Qed.
Print Assumptions C67_dynamic.

(** Two samples of 0.75 with one coarse bit, gain 1, c3 = 1: coarse outputs 0.75 and 0.5*(1+0.5625)+0.25. *)
Example C67_dynamic_ex :
  apply_ra_gain_error_dynamic (mkGen 2 1 1 1 0) (Some [0.75; 0.75]) 1 1 1 2 CoarsePath = Ok [0.75; 1.03125].
Proof. exact c67_dynamic_ex. Qed.
