(** * Property theorems of Fit: statements only, proofs in FitProofs.v.
    Generated by tools/mkprops.py from the final lemmas. *)
From Verif Require Import Base BaseLemmas Cplx SpecModel SpecLemmas TiModel TiToneProofs CalModel CalSpec CalProofs CalExLemmas FitModel FitSpec.
From Coq Require Import Psatz.
Local Open Scope R_scope.
From Verif Require Import FitProofs.

(** The fitted record is offset + amplitude cos(2 pi frequency t + phase) for the returned
    parameters; residuals are data minus fit; amplitude is never negative; phase is in (-pi, pi];
    rmse is the root mean square of the residuals. *)
Theorem C52_parameters :
  forall lstsq y f mi tol r,
  fit_core lstsq y f mi tol = Ok r ->
  length (f_fitted r) = length y /\ length (f_residuals r) = length y /\
  (forall t, (t < length y)%nat -> nth t (f_fitted r) 0 = f_dc r + f_amplitude r * cos (2 * PI * f_frequency r * INR t + f_phase r) /\
                                 nth t (f_residuals r) 0 = nth t y 0 - nth t (f_fitted r) 0) /\
  0 <= f_amplitude r /\ - PI < f_phase r <= PI /\
  (y <> [] -> f_rmse r = Fin (sqrt (rsum (length y) (fun t => nth t (f_residuals r) 0 ^ 2) / INR (length y)))).
Proof. exact c52_parameters. Qed.
Print Assumptions C52_parameters.

(** Iteration bookkeeping. *)
Theorem C52_iterations :
  forall lstsq y f mi tol r,
  (0 <= mi)%Z -> fit_core lstsq y f mi tol = Ok r ->
  (Z.of_nat (f_iterations r) <= mi)%Z /\
  (f_iterations r = 0%nat <-> mi = 0%Z) /\ (f_iterations r = 0%nat -> f_frequency r = f_initial r) /\
  ((0 < f_iterations r)%nat -> 1 / 10 ^ 10 <= f_frequency r <= 1 / 2 - 1 / 10 ^ 10) /\
  (f_converged r = true <-> mi = 0%Z \/ Rabs (f_last_delta r) < tol) /\
  (f_converged r = false -> Z.of_nat (f_iterations r) = mi) /\
  match f with Some x => f_initial r = x | None => estimate_frequency_fft y = Ok (f_initial r) end.
Proof. exact c52_iterations. Qed.
Print Assumptions C52_iterations.

(** The only failure of a single record is the automatic frequency estimate on fewer than two
    samples; several channels are fitted one by one. *)
Theorem C52_failure :
  forall lstsq y f mi tol,
  (exists r, fit_core lstsq y f mi tol = Ok r) \/ (fit_core lstsq y f mi tol = Err ValueError /\ f = None /\ (length y < 2)%nat).
Proof. exact c52_failure. Qed.
Print Assumptions C52_failure.

(** A 2-D array is fitted column by column. *)
Theorem C52_channels :
  forall lstsq cols f mi tol rs,
  fit_sine_4param lstsq (Data2 cols) f mi tol = Ok (inr rs) <->
  cols <> [] /\ length rs = length cols /\ forall d, (d < length cols)%nat -> exists r, nth_error rs d = Some r /\ fit_sine_4param lstsq (Data1 (nth d cols [])) f mi tol = Ok (inl r).
Proof. exact c52_channels. Qed.
Print Assumptions C52_channels.

(** With max_iterations = 0 no sine of the given frequency with any amplitude, phase and offset is
    closer to the data, and the residuals have zero mean and are uncorrelated with the sine. *)
Theorem C82_three_parameter_optimal :
  forall lstsq y f tol,
  least_squares lstsq -> exists r, fit_core lstsq y (Some f) 0 tol = Ok r /\
  (forall A ph off, sq_error y (fun t => nth t (f_fitted r) 0) <= sq_error y (sine A f ph off)) /\
  rsum (length y) (fun t => nth t (f_residuals r) 0) = 0 /\
  forall ph, rsum (length y) (fun t => nth t (f_residuals r) 0 * cos (2 * PI * f * INR t + ph)) = 0.
Proof. exact c82_three_parameter_optimal. Qed.
Print Assumptions C82_three_parameter_optimal.

(** An exact sine of the supplied frequency is returned with its own parameters and zero residuals,
    for any number of refinements. *)
Theorem C83_exact_sine :
  forall lstsq y f A ph off mi tol,
  least_squares lstsq -> usable f -> 0 < A -> (5 <= length y)%nat -> (0 <= mi)%Z -> 0 < tol ->
  is_record y (sine A f ph off) ->
  exists r, fit_core lstsq y (Some f) mi tol = Ok r /\ f_frequency r = f /\ f_amplitude r = A /\ f_dc r = off /\ same_angle (f_phase r) ph /\
    (forall t, (t < length y)%nat -> nth t (f_fitted r) 0 = nth t y 0 /\ nth t (f_residuals r) 0 = 0) /\ f_rmse r = Fin 0 /\
    f_converged r = true /\ Z.of_nat (f_iterations r) = Z.min 1 mi /\ f_last_delta r = 0.
Proof. exact c83_exact_sine. Qed.
Print Assumptions C83_exact_sine.

(** The estimate is in [0, 1/2) for every record of two or more samples. *)
Theorem C84_range :
  forall y x,
  estimate_frequency_fft y = Ok x -> 0 <= x < 1 / 2.
Proof. exact c84_range. Qed.
Print Assumptions C84_range.

(** For a whole number of periods k < n // 2 the estimate is exact, whatever amplitude, phase, offset. *)
Theorem C84_coherent :
  forall y k A ph off,
  (0 < k)%nat -> (k < length y / 2)%nat -> A <> 0 -> is_record y (sine A (INR k / INR (length y)) ph off) ->
  estimate_frequency_fft y = Ok (INR k / INR (length y)).
Proof. exact c84_coherent. Qed.
Print Assumptions C84_coherent.

(** Together: a coherent sine is recovered exactly without any frequency hint. *)
Theorem C84_auto_fit :
  forall lstsq y k A ph off mi tol,
  least_squares lstsq -> (0 < k)%nat -> (k < length y / 2)%nat -> (5 <= length y)%nat -> INR (length y) <= 10 ^ 10 -> 0 < A -> (0 <= mi)%Z -> 0 < tol ->
  is_record y (sine A (INR k / INR (length y)) ph off) ->
  exists r, fit_core lstsq y None mi tol = Ok r /\ f_frequency r = INR k / INR (length y) /\ f_amplitude r = A /\ f_dc r = off /\ same_angle (f_phase r) ph /\
    forall t, (t < length y)%nat -> nth t (f_residuals r) 0 = 0.
Proof. exact c84_auto_fit. Qed.
Print Assumptions C84_auto_fit.

(** The topmost bin of an odd-length record is not searched: a coherent sine there is estimated as
    frequency zero. *)
Theorem C84_odd_top_bin :
  forall k y A ph off,
  (0 < k)%nat -> length y = (2 * k + 1)%nat -> is_record y (sine A (INR k / INR (length y)) ph off) ->
  estimate_frequency_fft y = Ok 0.
Proof. exact c84_odd_top_bin. Qed.
Print Assumptions C84_odd_top_bin.

Theorem C84_odd_top_bin_refuted :
  exists y k A ph off, (0 < k)%nat /\ (2 * k < length y)%nat /\ A <> 0 /\ is_record y (sine A (INR k / INR (length y)) ph off) /\
  estimate_frequency_fft y <> Ok (INR k / INR (length y)).
Proof. exact c84_odd_top_bin_refuted. Qed.
Print Assumptions C84_odd_top_bin_refuted.

(** The fourth column of the design matrix is the derivative of the model with respect to the
    angular frequency, so each refinement is a Gauss-Newton step. *)
Theorem C85_derivative_column :
  forall n f a b t,
  derivable_pt_lim (fun w => a * cos (w * INR t) + b * sin (w * INR t)) (2 * PI * f) (m_at (design4 n f a b) t 3).
Proof. exact c85_derivative_column. Qed.
Print Assumptions C85_derivative_column.

(** The step stored in the state is that of the linearised least-squares problem: no other change
    of amplitude, phase, offset and angular frequency fits the data better to first order. *)
Theorem C85_gauss_newton :
  forall lstsq y tol s p q r d,
  least_squares lstsq -> let s' := refine_once lstsq y tol s in
  let model := fun a b c dw t => a * cos (2 * PI * s_freq s * INR t) + b * sin (2 * PI * s_freq s * INR t) + c + dw * m_at (design4 (length y) (s_freq s) (s_a s) (s_b s)) t 3 in
  sq_error y (model (s_a s') (s_b s') (s_c s') (2 * PI * s_last s')) <= sq_error y (model p q r d).
Proof. exact c85_gauss_newton. Qed.
Print Assumptions C85_gauss_newton.

(** With numpy's minimum-norm solution a constant record is fitted as half offset, half cosine of
    frequency zero: both the offset and the amplitude come out as half the constant. *)
Theorem C86_constant_split :
  forall lstsq y v tol,
  (2 <= length y)%nat -> is_record y (fun _ => v) ->
  minimum_norm (design3 (length y) 0) (fun i => nth i y 0) (lstsq (design3 (length y) 0) (fun i => nth i y 0)) ->
  exists r, fit_core lstsq y None 0 tol = Ok r /\ f_dc r = v / 2 /\ f_amplitude r = Rabs v / 2 /\ f_frequency r = 0 /\ forall t, (t < length y)%nat -> nth t (f_residuals r) 0 = 0.
Proof. exact c86_constant_split. Qed.
Print Assumptions C86_constant_split.

Theorem C86_constant_refuted :
  exists y v lstsq r, is_record y (fun _ => v) /\ v <> 0 /\
  minimum_norm (design3 (length y) 0) (fun i => nth i y 0) (lstsq (design3 (length y) 0) (fun i => nth i y 0)) /\
  fit_core lstsq y None 0 1 = Ok r /\ f_dc r <> v /\ f_amplitude r <> 0.
Proof. exact c86_constant_refuted. Qed.
Print Assumptions C86_constant_refuted.

(** A negative iteration limit runs no fit at all. *)
Theorem C52_negative_limit :
  forall lstsq y f tol,
  exists r, fit_core lstsq y (Some f) (-1) tol = Ok r /\ f_amplitude r = 0 /\ f_dc r = 0 /\ f_converged r = false /\ f_residuals r = y.
Proof. exact c52_negative_limit. Qed.
Print Assumptions C52_negative_limit.

(** 1 + 2 cos(pi t / 2), eight samples, no hint, default settings. *)
Example C84_auto_fit_ex :
  exists r, fit_core gs_lstsq quarter_record None 1 (1 / 10 ^ 9) = Ok r /\ f_frequency r = 1 / 4 /\ f_amplitude r = 2 /\ f_dc r = 1.
Proof. exact c84_auto_fit_ex. Qed.

(** A single impulse fitted at a quarter of the sampling rate. *)
Example C82_impulse_ex :
  exists r, fit_core gs_lstsq [1; 0; 0; 0] (Some (1 / 4)) 0 1 = Ok r /\ f_dc r = 1 / 4 /\ f_amplitude r = 1 / 2 /\ f_residuals r = [1 / 4; - (1 / 4); 1 / 4; - (1 / 4)].
Proof. exact c82_impulse_ex. Qed.
