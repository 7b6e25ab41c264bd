(** * Property theorems of AoutMore: statements only, proofs in AoutMoreProofs.v.
    Generated by tools/mkprops.py from the final lemmas. *)
From Verif Require Import Base BaseLemmas Cplx SpecModel SpecLemmas DoutProofs FreqProofs CalModel CalSpec CalProofs CalExLemmas CalExProofs TiModel TiToneProofs FitModel FitSpec FitProofs AcfModel AcfSpec AcfProofs RearModel RearSpec RearProofs HarmModel HarmSpec HarmProofs.
From Coq Require Import Psatz.
Local Open Scope R_scope.
From Verif Require Import AoutMoreProofs.

(** The estimate is the centroid of the largest of the bins below n // 2 and the larger of its two
    neighbours (the lower one on a tie); a largest bin at either end of the range is taken alone. *)
Theorem C84_centroid :
  forall y,
  (2 <= length y)%nat ->
  let n := length y in let m := bin_magnitude y in
  exists k, (k < n / 2)%nat /\ (forall j, (j < n / 2)%nat -> m j <= m k) /\ (forall j, (j < k)%nat -> m j < m k) /\
  ((0 < k < n / 2 - 1)%nat -> forall q, (q = (k + 1)%nat /\ m (k - 1)%nat < m (k + 1)%nat) \/ (q = (k - 1)%nat /\ m (k + 1)%nat <= m (k - 1)%nat) ->
     estimate_frequency_fft y = Ok ((m k * INR k + m q * INR q) / (m k + m q) / INR n)) /\
  (~ (0 < k < n / 2 - 1)%nat -> estimate_frequency_fft y = Ok (INR k / INR n)).
Proof. exact c84_centroid. Qed.
Print Assumptions C84_centroid.

(** The refined frequency is the old one plus the step, kept between 1e-10 and 1/2 - 1e-10; the step is
    what convergence is judged by. *)
Theorem C85_update :
  forall lstsq y tol s,
  let s' := refine_once lstsq y tol s in
  s_iter s' = S (s_iter s) /\ (usable (s_freq s + s_last s') -> s_freq s' = s_freq s + s_last s') /\
  (s_freq s + s_last s' < 1 / 10 ^ 10 -> s_freq s' = 1 / 10 ^ 10) /\ (1 / 2 - 1 / 10 ^ 10 < s_freq s + s_last s' -> s_freq s' = 1 / 2 - 1 / 10 ^ 10) /\
  (Rabs (s_last s') < tol -> s_conv s' = true) /\ (tol <= Rabs (s_last s') -> s_conv s' = s_conv s).
Proof. exact c85_update. Qed.
Print Assumptions C85_update.

(** A state that a refinement leaves alone is a stationary point of the squared error: its derivative
    vanishes in every direction of cosine part, sine part, offset and angular frequency. *)
Theorem C85_stationary :
  forall lstsq y tol s,
  least_squares lstsq -> let s' := refine_once lstsq y tol s in
  s_a s' = s_a s -> s_b s' = s_b s -> s_c s' = s_c s -> s_last s' = 0 ->
  forall da db dc dw, derivable_pt_lim (fun h => sq_error y (fun t => (s_a s + h * da) * cos ((2 * PI * s_freq s + h * dw) * INR t) + (s_b s + h * db) * sin ((2 * PI * s_freq s + h * dw) * INR t) + (s_c s + h * dc))) 0 0.
Proof. exact c85_stationary. Qed.
Print Assumptions C85_stationary.

(** The exact parameters of a sampled sine are such a state. *)
Example C85_stationary_ex :
  let s' := refine_once gs_lstsq quarter_record (1 / 10 ^ 9) (mkFs (1 / 4) 2 0 1 false 0 0) in s_a s' = 2 /\ s_b s' = 0 /\ s_c s' = 1 /\ s_last s' = 0.
Proof. exact c85_stationary_ex. Qed.

(** Without normalisation the values are the average products themselves. *)
Theorem C33_unnormalised :
  forall error max_lag,
  (0 <= max_lag < Z.of_nat (length error))%Z ->
  exists acf, error_acf error max_lag false = Ok acf /\ length acf = Z.to_nat (2 * max_lag + 1) /\
    forall lag, (- max_lag <= lag <= max_lag)%Z -> nth (Z.to_nat (lag + max_lag)) acf NaN = Fin (autocov error (Z.abs_nat lag)).
Proof. exact c33_unnormalised. Qed.
Print Assumptions C33_unnormalised.

(** The analysis of a signal: error = signal minus fitted sine, lags -max_lag .. max_lag, and the
    autocorrelation of that error. *)
Theorem C33_analysis :
  forall lstsq signal f max_lag normalize mi tol acf lags error,
  analyze_error_autocorr lstsq signal f max_lag normalize mi tol = Ok (acf, lags, error) ->
  exists fit, fit_core lstsq signal f mi tol = Ok fit /\ length error = length signal /\ (forall t, (t < length signal)%nat -> nth t error 0 = nth t signal 0 - nth t (f_fitted fit) 0) /\
  length lags = Z.to_nat (2 * max_lag + 1) /\ (forall i, (i < Z.to_nat (2 * max_lag + 1))%nat -> nth i lags 0%Z = (Z.of_nat i - max_lag)%Z) /\ error_acf error max_lag normalize = Ok acf.
Proof. exact c33_analysis. Qed.
Print Assumptions C33_analysis.

Example C33_unnormalised_ex :
  exists acf, error_acf acf_record 2 false = Ok acf /\ nth 2 acf NaN = Fin (1 / 2).
Proof. exact c33_unnormalised_ex. Qed.

(** The sine behind the analysis by phase: error, phase, amplitude and offset are those of the fit, and
    the frequency reported is the one given, if one was. *)
Theorem C92_reference :
  forall lstsq signal f n base mi tol r,
  rearrange_error_by_phase lstsq signal f n base mi tol = Ok r ->
  exists fit, fit_core lstsq signal f mi tol = Ok fit /\ p_amplitude r = f_amplitude fit /\ p_dc r = f_dc fit /\
  (forall x, f = Some x -> p_freq r = x) /\ (f = None -> p_freq r = f_frequency fit) /\
  length (p_error r) = length signal /\ length (p_phase r) = length signal /\
  forall t, (t < length signal)%nat -> nth t (p_error r) 0 = nth t signal 0 - nth t (f_fitted fit) 0 /\ nth t (p_phase r) 0 = 2 * PI * f_frequency fit * INR t + f_phase fit.
Proof. exact c92_reference. Qed.
Print Assumptions C92_reference.

(** The raw coefficient of determination is 1 - (smallest achievable squared misfit) / (total variation)
    of the squared error against am cos^2 + pm sin^2 (+ base), or 0 if the total variation is at most 1e-20. *)
Theorem C91_raw_definition :
  forall lstsq signal f n base mi tol r,
  least_squares lstsq -> (2 <= length signal)%nat -> rearrange_error_by_phase lstsq signal f n base mi tol = Ok r ->
  let N := length signal in let q := fun t => nth t (p_error r) 0 ^ 2 in let mean := rsum N q / INR N in let tot := rsum N (fun t => (q t - mean) ^ 2) in
  let misfit := fun v => rsum N (fun t => (q t - am_pm_power v (nth t (p_phase r) 0)) ^ 2) in
  exists v, (base = false -> base_of v = 0) /\ (forall w, (base = false -> base_of w = 0) -> misfit v <= misfit w) /\
  (1 / 10 ^ 20 < tot -> p_r2_raw r = 1 - misfit v / tot) /\ (tot <= 1 / 10 ^ 20 -> p_r2_raw r = 0).
Proof. exact c91_raw_definition. Qed.
Print Assumptions C91_raw_definition.

(** For any record, the reconstruction is an offset plus harmonics whose amplitudes are half the reported
    magnitudes; the fundamental output is the offset plus the first; the reported phases are the
    harmonics' phases relative to the fundamental, sign reversed. *)
Theorem C93_components :
  forall lstsq rows nh f mi tol r,
  decompose_harmonic_error lstsq rows nh f mi tol = Ok r ->
  let n := length (hd [] (harm_rows rows)) in let A := fun h => nth h (h_magnitudes r) 0 / 2 in
  exists dc ph, (forall t, (t < n)%nat -> nth t (h_reconstructed r) 0 = distorted (Z.to_nat nh) dc A ph (h_freq r) t /\
     nth t (h_fundamental r) 0 = dc + A 0%nat * cos (2 * PI * h_freq r * INR t + ph 0%nat)) /\
  forall h, (h < Z.to_nat nh)%nat -> same_angle (nth h (h_phases r) 0) (- (ph h - INR (S h) * ph 0%nat)).
Proof. exact c93_components. Qed.
Print Assumptions C93_components.

(** For the impulse record [1; 0; 0; 0] the single harmonic has amplitude 1/2 around the offset 1/4. *)
Example C93_components_ex :
  exists r, decompose_harmonic_error gs_lstsq [[1; 0; 0; 0]] 1 (Some (1 / 4)) 0 (1 / 10 ^ 9) = Ok r /\ nth 0 (h_reconstructed r) 0 = 3 / 4 /\ nth 2 (h_reconstructed r) 0 = - (1 / 4).
Proof. exact c93_components_ex. Qed.
