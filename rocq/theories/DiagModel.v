(** * Model of adctoolbox/aout/_fit_diagnostics.py and of the option return_fit of the error analyses.
    A dictionary is the list of its entries in the order of insertion; a key that is not there (KeyError) is None. *)
From Coq Require Import String.
From Verif Require Import Base SpecModel TiModel CalModel FitModel.
Local Open Scope list_scope.
Local Open Scope string_scope.

(** What the dictionaries hold: arrays, numbers, flags and counts. *)
Inductive value := VArray (l : list R) | VReal (x : R) | VExt (x : xr) | VFlag (b : bool) | VCount (n : nat).
Definition dict : Type := list (string * value).
(** d[key] *)
Fixpoint get (key : string) (d : dict) : option value :=
  match d with [] => None | (k, v) :: t => if String.eqb k key then Some v else get key t end.
(** fundamentals/fit_sine_4param.py l.103-115: the result for one record. *)
Definition fit_dict (r : fit_result) : dict :=
  [("fitted_signal", VArray (f_fitted r)); ("residuals", VArray (f_residuals r)); ("frequency", VReal (f_frequency r)); ("amplitude", VReal (f_amplitude r));
   ("phase", VReal (f_phase r)); ("dc_offset", VReal (f_dc r)); ("rmse", VExt (f_rmse r)); ("converged", VFlag (f_converged r));
   ("n_iterations", VCount (f_iterations r)); ("initial_frequency", VReal (f_initial r)); ("last_delta_freq", VReal (f_last_delta r))].
(** _fit_diagnostics.py l.3-13 *)
Definition diagnostic_keys : list string :=
  ["frequency"; "amplitude"; "phase"; "dc_offset"; "rmse"; "converged"; "n_iterations"; "initial_frequency"; "last_delta_freq"].
(** l.16-18 *)
Fixpoint extract (keys : list string) (d : dict) : option dict :=
  match keys with
  | [] => Some []
  | k :: t => match get k d with None => None | Some v => match extract t d with None => None | Some l => Some ((k, v) :: l) end end
  end.
Definition extract_fit_diagnostics (fit : dict) : option dict := extract diagnostic_keys fit.
(** analyze_error_pdf.py l.64-70, 142-143 (also analyze_error_spectrum.py l.65-71, 103-104, analyze_error_autocorr.py l.64-70, 126-127,
    analyze_error_envelope_spectrum.py l.70-76, 115-116): the fit of the signal and, if asked for, its diagnostics. *)
Definition fit_and_report (lstsq : lstsq_fun) (signal : list R) (frequency : option R) (max_iterations : Z) (tolerance : R) (return_fit : bool) : result (list R * option dict) :=
  bind (fit_core lstsq signal frequency max_iterations tolerance) (fun r =>
  Ok (map2 Rminus signal (f_fitted r), if return_fit then extract_fit_diagnostics (fit_dict r) else None)).
