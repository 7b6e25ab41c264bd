(** * Model of adctoolbox/aout/analyze_error_spectrum.py and analyze_error_envelope_spectrum.py.
    numpy's lstsq is an argument (used by the sine fit); the FFT is the exact discrete Fourier transform.  The
    signal is one-dimensional.  Not modelled: plotting, the fit diagnostics copied into the result, rounding. *)
From Verif Require Import Base Cplx SpecModel TiModel CalModel FitModel.
Local Open Scope R_scope.

(** scipy.signal.hilbert (scipy/signal/_signaltools.py): the factor applied to bin k of an N-point FFT. *)
Definition hilbert_gain (N k : nat) : R :=
  if Nat.even N then (if (k =? 0)%nat || (k =? N / 2)%nat then 1 else if (k <? N / 2)%nat then 2 else 0)
  else (if (k =? 0)%nat then 1 else if (k <? (N + 1) / 2)%nat then 2 else 0).
(** scipy.signal.hilbert: ifft(fft(x) * h)[n]. *)
Definition analytic (x : list R) (n : nat) : C :=
  let N := length x in
  Cscale (/ INR N) (csum N (fun k => Cmult (Cscale (hilbert_gain N k) (rfft x k)) (cis (2 * PI * INR k * INR n / INR N)))).
(** envelope l.85 np.abs(hilbert(e)); an empty record raises ValueError. *)
Definition envelope (x : list R) : result (list R) :=
  raise_if (length x =? 0)%nat ValueError (Ok (map (fun n => Cmod (analytic x n)) (seq 0 (length x)))).

(** analyze_spectrum.py l.31-33 with the defaults and max_harmonic=5 (spectrum l.82/96, envelope l.93/107). *)
Definition analyze_default (kaiser38 cheb100 : nat -> list R) (x : list R) (fs : R) : result spectrum :=
  compute_spectrum kaiser38 cheb100 [x] fs ScaleAuto Hann None 1 5 0 None 0.
(** analyze_error_spectrum.py l.65-106: the metrics and error_signal. *)
Definition error_spectrum (kaiser38 cheb100 : nat -> list R) (lstsq : lstsq_fun) (signal : list R) (fs : R) (freq : option R) (max_iter : Z) (tol : R)
  : result (spectrum * list R) :=
  bind (fit_core lstsq signal freq max_iter tol) (fun fit =>
  let error := map2 Rminus signal (f_fitted fit) in
  bind (analyze_default kaiser38 cheb100 error fs) (fun sp => Ok (sp, error))).
(** analyze_error_envelope_spectrum.py l.70-118: the metrics, error_signal and envelope. *)
Definition error_envelope_spectrum (kaiser38 cheb100 : nat -> list R) (lstsq : lstsq_fun) (signal : list R) (fs : R) (freq : option R) (max_iter : Z) (tol : R)
  : result (spectrum * list R * list R) :=
  bind (fit_core lstsq signal freq max_iter tol) (fun fit =>
  let error := map2 Rminus signal (f_fitted fit) in
  bind (envelope error) (fun env =>
  bind (analyze_default kaiser38 cheb100 env fs) (fun sp => Ok (sp, error, env)))).
