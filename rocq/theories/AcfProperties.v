(** * Property theorems of Acf: statements only, proofs in AcfProofs.v.
    Generated by tools/mkprops.py from the final lemmas. *)
From Verif Require Import Base BaseLemmas SpecLemmas DoutProofs CalModel CalSpec CalProofs CalExLemmas CalExProofs TiModel TiToneProofs FitModel FitSpec FitProofs AcfModel AcfSpec.
From Coq Require Import Psatz.
Local Open Scope R_scope.
From Verif Require Import AcfProofs.

(** Inside the record every value is defined, equals the average product of deviations at that
    distance divided by the one at lag zero, is 1 at lag 0 and symmetric. *)
Theorem C33_values :
  forall error max_lag,
  (0 <= max_lag < Z.of_nat (length error))%Z -> not_constant error ->
  exists acf, error_acf error max_lag true = Ok acf /\ length acf = Z.to_nat (2 * max_lag + 1) /\
    (forall lag, (- max_lag <= lag <= max_lag)%Z -> nth (Z.to_nat (lag + max_lag)) acf NaN = Fin (autocov error (Z.abs_nat lag) / autocov error 0)) /\
    nth (Z.to_nat max_lag) acf NaN = Fin 1 /\
    (forall lag, (- max_lag <= lag <= max_lag)%Z -> nth (Z.to_nat (- lag + max_lag)) acf NaN = nth (Z.to_nat (lag + max_lag)) acf NaN).
Proof. exact c33_values. Qed.
Print Assumptions C33_values.

(** The magnitude is bounded by N / (N - |lag|): the conventional estimate is bounded by 1, this one
    averages over fewer samples. *)
Theorem C33_bound :
  forall error max_lag lag acf,
  (0 <= max_lag < Z.of_nat (length error))%Z -> not_constant error -> (- max_lag <= lag <= max_lag)%Z ->
  error_acf error max_lag true = Ok acf -> exists v, nth (Z.to_nat (lag + max_lag)) acf NaN = Fin v /\
    Rabs v <= INR (length error) / (INR (length error) - IZR (Z.abs lag)) /\ v = autocov_biased error (Z.abs_nat lag) / autocov_biased error 0 * (INR (length error) / (INR (length error) - IZR (Z.abs lag))) /\
    Rabs (autocov_biased error (Z.abs_nat lag) / autocov_biased error 0) <= 1.
Proof. exact c33_bound. Qed.
Print Assumptions C33_bound.

(** A constant error has no normalised autocorrelation: every value is NaN. *)
Theorem C33_constant_error :
  forall error max_lag acf,
  (0 <= max_lag < Z.of_nat (length error))%Z -> ~ not_constant error -> error_acf error max_lag true = Ok acf ->
  forall v, In v acf -> v = NaN.
Proof. exact c33_constant_error. Qed.
Print Assumptions C33_constant_error.

(** The normalised autocorrelation of the analysed signal can exceed 1: at lag 7 it is 2. *)
Theorem C33_at_most_one_refuted :
  exists signal f acf lags error lag v, analyze_error_autocorr gs_lstsq signal (Some f) 7 true 0 (1 / 10 ^ 9) = Ok (acf, lags, error) /\
  not_constant error /\ (- 7 <= lag <= 7)%Z /\ nth (Z.to_nat (lag + 7)) acf NaN = Fin v /\ 1 < Rabs v.
Proof. exact c33_at_most_one_refuted. Qed.
Print Assumptions C33_at_most_one_refuted.

(** The whole analysis of that signal with two lags on each side. *)
Example C33_values_ex :
  exists acf, analyze_error_autocorr gs_lstsq acf_record (Some (1 / 4)) 2 true 0 (1 / 10 ^ 9) = Ok (acf, [-2; -1; 0; 1; 2]%Z, acf_record) /\
  acf = [Fin 0; Fin (2 / 7); Fin 1; Fin (2 / 7); Fin 0].
Proof. exact c33_values_ex. Qed.

(** The computation succeeds exactly when max_lag does not exceed the record length (or the record
    has at most two samples); beyond that it raises ValueError.  It has 2 max_lag + 1 values. *)
Theorem C87_lag_limit :
  forall error max_lag normalize,
  ((max_lag <= Z.of_nat (length error))%Z \/ (length error <= 2)%nat -> exists acf, error_acf error max_lag normalize = Ok acf) /\
  ((Z.of_nat (length error) < max_lag)%Z -> (3 <= length error)%nat -> error_acf error max_lag normalize = Err ValueError).
Proof. exact c87_lag_limit. Qed.
Print Assumptions C87_lag_limit.

(** With max_lag equal to the record length the two outermost values are means of no sample: NaN. *)
Theorem C87_edge :
  forall error acf normalize,
  error_acf error (Z.of_nat (length error)) normalize = Ok acf -> nth 0 acf (Fin 0) = NaN /\ nth (2 * length error) acf (Fin 0) = NaN.
Proof. exact c87_edge. Qed.
Print Assumptions C87_edge.

(** The default max_lag = 50 makes the analysis of a valid 8-sample signal raise ValueError. *)
Theorem C87_default_refuted :
  exists signal f, (2 <= length signal)%nat /\ (exists r, fit_core gs_lstsq signal (Some f) 1 (1 / 10 ^ 9) = Ok r) /\
  analyze_error_autocorr gs_lstsq signal (Some f) 50 true 1 (1 / 10 ^ 9) = Err ValueError.
Proof. exact c87_default_refuted. Qed.
Print Assumptions C87_default_refuted.

(** Eight samples: 8 lags succeed with undefined ends, 9 lags fail. *)
Example C87_lag_limit_ex :
  (exists acf, error_acf acf_record 8 true = Ok acf /\ nth 0 acf (Fin 0) = NaN /\ nth 16 acf (Fin 0) = NaN) /\ error_acf acf_record 9 true = Err ValueError.
Proof. exact c87_lag_limit_ex. Qed.
