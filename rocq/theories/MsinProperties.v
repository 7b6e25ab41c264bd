(** * Property theorems of Msin: statements only, proofs in MsinProofs.v.
    Generated by tools/mkprops.py from the final lemmas. *)
From Coq Require Import Psatz.
From Verif Require Import Base BaseLemmas Cplx SpecModel SpecLemmas TiModel TiToneProofs CalModel CalSpec CalProofs CalExLemmas FitModel FitSpec FitProofs AcfModel HarmModel HarmSpec HarmProofs MsinModel.
Local Open Scope R_scope.
From Verif Require Import MsinProofs.

(** The outputs describe one and the same sine: fitout = mag cos(2 pi freq t + phi) + dc. *)
Theorem C168_outputs :
  forall lin rows f0 tol rate fs niter r,
  m_sinfit lin rows f0 tol rate fs niter = Ok (Some r) ->
  length (mf_fitout r) = length (m_column rows) /\ (forall t, (t < length (m_column rows))%nat -> nth t (mf_fitout r) 0 = sine (mf_mag r) (mf_freq r) (mf_phi r) (mf_dc r) t) /\ 0 <= mf_mag r /\ - PI <= mf_phi r < PI.
Proof. exact c168_outputs. Qed.
Print Assumptions C168_outputs.

(** At a given frequency without search: the same sine as the Python fit without refinement, by any
    two least-squares solvers. *)
Theorem C168_given :
  forall lin lst rows f0 tol tol' rate niter,
  least_squares lin -> least_squares lst -> 0 < f0 < 1 / 2 -> 0 < tol -> 0 < rate <= 1 -> (0 < niter)%Z -> (3 <= length (m_column rows))%nat ->
  exists r r', m_sinfit lin rows f0 tol rate false niter = Ok (Some r) /\ fit_core lst (m_column rows) (Some f0) 0 tol' = Ok r' /\
  mf_fitout r = f_fitted r' /\ mf_freq r = f_frequency r' /\ mf_mag r = f_amplitude r' /\ mf_dc r = f_dc r' /\ same_angle (mf_phi r) (f_phase r') /\ mf_passes r = f_iterations r'.
Proof. exact c168_given. Qed.
Print Assumptions C168_given.

(** With full steps (rate 1), while neither side stops early, no amplitude vanishes and Python's clamp
    does not act: after k passes MATLAB has the amplitude, offset and phase that Python has after k
    refinements, and the frequency that Python had one refinement earlier. *)
Theorem C168_lag :
  forall lin lst rows f0 tol tol' k r,
  least_squares lin -> least_squares lst -> 0 < f0 < 1 / 2 -> 0 < tol -> (5 <= length (m_column rows))%nat ->
  m_sinfit lin rows f0 tol 1 true (Z.of_nat (S k)) = Ok (Some r) -> mf_passes r = S k ->
  let py j := fit_core lst (m_column rows) (Some f0) (Z.of_nat j) tol' in
  (forall q, py (S k) = Ok q -> f_iterations q = S k) ->
  (forall j q, (j <= k)%nat -> py j = Ok q -> f_amplitude q <> 0) ->
  (forall j q q', (j < k)%nat -> py j = Ok q -> py (S j) = Ok q' -> f_frequency q' = f_frequency q + f_last_delta q') ->
  exists q q1, py (S k) = Ok q /\ py k = Ok q1 /\ mf_mag r = f_amplitude q /\ mf_dc r = f_dc q /\ same_angle (mf_phi r) (f_phase q) /\ mf_freq r = f_frequency q1.
Proof. exact c168_lag. Qed.
Print Assumptions C168_lag.

(** A record that is a sine of the given frequency comes back with its own parameters, searched for
    or not. *)
Theorem C168_exact :
  forall lin rows f A ph off tol rate fs niter,
  least_squares lin -> 0 < f < 1 / 2 -> 0 < A -> 0 < tol -> 0 < rate <= 1 -> (0 < niter)%Z -> (5 <= length (m_column rows))%nat ->
  is_record (m_column rows) (sine A f ph off) ->
  exists r, m_sinfit lin rows f tol rate fs niter = Ok (Some r) /\ mf_freq r = f /\ mf_mag r = A /\ mf_dc r = off /\ same_angle (mf_phi r) ph /\ mf_fitout r = m_column rows /\ mf_passes r = if fs then 1%nat else 0%nat.
Proof. exact c168_exact. Qed.
Print Assumptions C168_exact.

(** The estimates from the same peak of the spectrum without its mean: equal when the peak is neither
    the first nor the last bin; at the last bin MATLAB adds half a bin; without a peak (a constant
    record) MATLAB has 0/0 and Python bin 0. *)
Theorem C168_estimate :
  forall y,
  (2 <= length y)%nat -> let n := length y in let amp j := if (j =? 0)%nat then 0 else Cmod (rdft n (fun i => nth i y 0) j) in
  exists k, (k < n / 2)%nat /\ (forall j, (j < n / 2)%nat -> amp j <= amp k) /\ (forall j, (j < k)%nat -> amp j < amp k) /\
  (k = 0%nat -> m_estimate y = Ok NaN /\ estimate_frequency_fft y = Ok 0) /\
  ((0 < k < n / 2 - 1)%nat -> exists x, m_estimate y = Ok (Fin x) /\ estimate_frequency_fft y = Ok x) /\
  ((0 < k)%nat -> k = (n / 2 - 1)%nat -> m_estimate y = Ok (Fin ((INR k + 1 / 2) / INR n)) /\ estimate_frequency_fft y = Ok (INR k / INR n)).
Proof. exact c168_estimate. Qed.
Print Assumptions C168_estimate.

(** A coherent sine below the last bin of the half spectrum is found and fitted exactly. *)
Theorem C168_auto :
  forall lin rows k A ph off tol rate fs niter,
  least_squares lin -> let y := m_column rows in (0 < k)%nat -> (k < length y / 2 - 1)%nat -> 0 < A -> 0 < tol -> 0 < rate <= 1 -> (0 < niter)%Z -> (5 <= length y)%nat ->
  is_record y (sine A (INR k / INR (length y)) ph off) ->
  exists r, m_sinfit lin rows 0 tol rate fs niter = Ok (Some r) /\ mf_freq r = INR k / INR (length y) /\ mf_mag r = A /\ mf_dc r = off /\ same_angle (mf_phi r) ph /\ mf_fitout r = y.
Proof. exact c168_auto. Qed.
Print Assumptions C168_auto.

(** At the last bin the initial estimate is half a bin off, where Python's is exact. *)
Theorem C168_last_bin_refuted :
  exists y k, (0 < k < length y / 2)%nat /\ is_record y (sine 1 (INR k / INR (length y)) 0 0) /\ estimate_frequency_fft y = Ok (INR k / INR (length y)) /\ m_estimate y = Ok (Fin ((INR k + 1 / 2) / INR (length y))).
Proof. exact c168_last_bin_refuted. Qed.
Print Assumptions C168_last_bin_refuted.

(** sig = sine + err and err = har + oth, whatever the solver returns; without harmonics (order 1)
    har is zero. *)
Theorem C169_adds_up :
  forall lin y freq order p,
  m_tomdec lin y freq order = Ok (Some p) ->
  length (mp_sine p) = length y /\ length (mp_err p) = length y /\ length (mp_har p) = length y /\ length (mp_oth p) = length y /\
  forall t, (t < length y)%nat -> nth t y 0 = nth t (mp_sine p) 0 + nth t (mp_err p) 0 /\ nth t (mp_err p) 0 = nth t (mp_har p) 0 + nth t (mp_oth p) 0 /\ (order = 1%Z -> nth t (mp_har p) 0 = 0).
Proof. exact c169_adds_up. Qed.
Print Assumptions C169_adds_up.

(** Against decompose_harmonic_error at the same given frequency, for any two least-squares solvers:
    the remaining error and the sum of sine and harmonics are always the same; the split between
    the sine and its harmonics is the same when the sines are independent (for instance coherent
    frequencies below Nyquist, c94_coherent_independent). *)
Theorem C169_agree :
  forall lin lst y f order tol p r,
  least_squares lin -> least_squares lst -> (2 <= length y)%nat -> 0 < f ->
  m_tomdec lin y (Some f) order = Ok (Some p) -> decompose_harmonic_error lst [y] order (Some f) 0 tol = Ok r ->
  mp_freq p = h_freq r /\ mp_oth p = h_noise r /\ (forall t, (t < length y)%nat -> nth t (mp_sine p) 0 + nth t (mp_har p) 0 = nth t (h_reconstructed r) 0) /\
  (independent (harm_basis (length y) f (Z.to_nat order)) -> mp_sine p = h_fundamental r /\ mp_har p = h_harmonic r).
Proof. exact c169_agree. Qed.
Print Assumptions C169_agree.

(** What is refused: no samples, an option out of its range, and the estimate from one sample. *)
Theorem C168_refuses :
  forall lin rows f0 tol rate fs niter,
  let n := length (m_column rows) in
  let good := 0 <= f0 <= 1 / 2 /\ 0 < tol /\ 0 < rate <= 1 /\ (0 < niter)%Z /\ (0 < n)%nat /\ (f0 = 0 -> (2 <= n)%nat) in
  (good -> exists o, m_sinfit lin rows f0 tol rate fs niter = Ok o) /\ (~ good -> m_sinfit lin rows f0 tol rate fs niter = Err RuntimeError).
Proof. exact c168_refuses. Qed.
Print Assumptions C168_refuses.

(** A constant record has no peak: every output is NaN, where Python (C86) returns a fit. *)
Theorem C168_constant :
  forall lin rows v tol rate fs niter,
  (2 <= length (m_column rows))%nat -> is_record (m_column rows) (fun _ => v) -> 0 < tol -> 0 < rate <= 1 -> (0 < niter)%Z ->
  m_sinfit lin rows 0 tol rate fs niter = Ok None /\ estimate_frequency_fft (m_column rows) = Ok 0.
Proof. exact c168_constant. Qed.
Print Assumptions C168_constant.

Theorem C168_constant_refuted :
  exists rows, m_sinfit gs_lstsq rows 0 (1 / 10 ^ 12) (1 / 2) false 100 = Ok None /\ exists r, fit_core gs_lstsq (m_column rows) None 0 (1 / 10 ^ 9) = Ok r.
Proof. exact c168_constant_refuted. Qed.
Print Assumptions C168_constant_refuted.
