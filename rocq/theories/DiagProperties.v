(** * Property theorems of Diag: statements only, proofs in DiagProofs.v.
    Generated by tools/mkprops.py from the final lemmas. *)
From Coq Require Import Lia Lra String Psatz.
From Verif Require Import Base BaseLemmas Cplx SpecModel TiModel CalModel FitModel CalExLemmas FitProofs DiagModel.
Local Open Scope list_scope.
Local Open Scope R_scope.
From Verif Require Import DiagProofs.

(** The nine entries, in this order, with the values of the fit; no array among them. *)
Theorem C220_entries :
  forall r,
  extract_fit_diagnostics (fit_dict r) =
  Some [("frequency", VReal (f_frequency r)); ("amplitude", VReal (f_amplitude r)); ("phase", VReal (f_phase r)); ("dc_offset", VReal (f_dc r)); ("rmse", VExt (f_rmse r));
        ("converged", VFlag (f_converged r)); ("n_iterations", VCount (f_iterations r)); ("initial_frequency", VReal (f_initial r)); ("last_delta_freq", VReal (f_last_delta r))]%string.
Proof. exact c220_entries. Qed.
Print Assumptions C220_entries.

(** Any dictionary: the nine keys are copied and nothing else; the call fails exactly when one of them is missing. *)
Theorem C220_copies :
  forall d,
  let nine := ["frequency"; "amplitude"; "phase"; "dc_offset"; "rmse"; "converged"; "n_iterations"; "initial_frequency"; "last_delta_freq"]%string in
  (forall out, extract_fit_diagnostics d = Some out -> map fst out = nine /\ (forall k, In k nine -> get k out = get k d) /\ (forall k, ~ In k nine -> get k out = None)) /\
  (extract_fit_diagnostics d = None <-> exists k, In k nine /\ get k d = None).
Proof. exact c220_copies. Qed.
Print Assumptions C220_copies.

(** With return_fit the error is that of the reported sine, and the reported rmse is zero exactly when the signal is that sine;
    without it there are no diagnostics and the error is the same. *)
Theorem C220_report :
  forall lstsq y f mi tol err d,
  y <> [] -> fit_and_report lstsq y f mi tol true = Ok (err, d) ->
  fit_and_report lstsq y f mi tol false = Ok (err, None) /\
  exists out nu A ph c e, d = Some out /\ get "frequency" out = Some (VReal nu) /\ get "amplitude" out = Some (VReal A) /\ get "phase" out = Some (VReal ph) /\ get "dc_offset" out = Some (VReal c) /\ get "rmse" out = Some (VExt (Fin e)) /\
    (forall t, (t < length y)%nat -> nth t err 0 = nth t y 0 - (c + A * cos (2 * PI * nu * INR t + ph))) /\ 0 <= A /\ - PI < ph <= PI /\
    (e = 0 <-> forall t, (t < length y)%nat -> nth t y 0 = c + A * cos (2 * PI * nu * INR t + ph)).
Proof. exact c220_report. Qed.
Print Assumptions C220_report.

(** What the flag tells: with refinement allowed it is set exactly when the last step was below the tolerance, and otherwise every allowed
    step was taken. *)
Theorem C220_flag :
  forall lstsq y f mi tol err out,
  (0 < mi)%Z -> fit_and_report lstsq y f mi tol true = Ok (err, Some out) -> exists b n dl,
  get "converged" out = Some (VFlag b) /\ get "n_iterations" out = Some (VCount n) /\ get "last_delta_freq" out = Some (VReal dl) /\
  (b = true <-> Rabs dl < tol) /\ (b = false -> Z.of_nat n = mi) /\ (1 <= Z.of_nat n <= mi)%Z /\
  match f with Some x => get "initial_frequency" out = Some (VReal x) | None => True end.
Proof. exact c220_flag. Qed.
Print Assumptions C220_flag.

(** Without refinement the flag is always set, no step is counted and the frequency is the initial one. *)
Theorem C220_unrefined :
  forall lstsq y f tol err out,
  fit_and_report lstsq y f 0 tol true = Ok (err, Some out) ->
  get "converged" out = Some (VFlag true) /\ get "n_iterations" out = Some (VCount 0) /\ get "frequency" out = get "initial_frequency" out.
Proof. exact c220_unrefined. Qed.
Print Assumptions C220_unrefined.

(** A fit without refinement is reported as converged whatever it is like: here the fitted sine misses every sample by a quarter. *)
Theorem C220_converged_refuted :
  exists y err out, fit_and_report gs_lstsq y (Some (1 / 4)) 0 1 true = Ok (err, Some out) /\ get "converged" out = Some (VFlag true) /\ get "n_iterations" out = Some (VCount 0) /\ y = [1; 0; 0; 0] /\ err = [1 / 4; - (1 / 4); 1 / 4; - (1 / 4)].
Proof. exact c220_converged_refuted. Qed.
Print Assumptions C220_converged_refuted.
