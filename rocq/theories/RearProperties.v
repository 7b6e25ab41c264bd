(** * Property theorems of Rear: statements only, proofs in RearProofs.v.
    Generated by tools/mkprops.py from the final lemmas. *)
From Verif Require Import Base BaseLemmas Cplx SpecLemmas DoutProofs FreqProofs CalModel CalSpec CalProofs CalExLemmas CalExProofs TiModel TiToneProofs FitModel FitSpec FitProofs AcfProofs RearModel RearSpec.
From Coq Require Import Psatz.
Local Open Scope R_scope.
From Verif Require Import RearProofs.

(** It succeeds exactly on those and raises ValueError on all others. *)
Theorem C34_accepts :
  forall lstsq signal f n clip range mi tol,
  (value_inputs_ok signal f (bins_of n) clip range -> exists r, rearrange_error_by_value lstsq signal f n clip range mi tol = Ok r) /\
  (~ value_inputs_ok signal f (bins_of n) clip range -> rearrange_error_by_value lstsq signal f n clip range mi tol = Err ValueError).
Proof. exact c34_accepts. Qed.
Print Assumptions C34_accepts.

(** Every sample goes to the nearest of the n evenly spread centres, the statistics of each bin are the
    count, mean and rms of the errors of its samples, and the error is signal minus fitted sine. *)
Theorem C34_statistics :
  forall lstsq signal f n clip range mi tol r,
  rearrange_error_by_value lstsq signal f n clip range mi tol = Ok r ->
  exists fit lo hi, fit_core lstsq signal f mi tol = Ok fit /\ (lo, hi) = infer_signal_range signal range /\ lo < hi /\
  length (v_bins r) = length signal /\ length (v_error r) = length signal /\
  (forall i, (i < length signal)%nat -> nth i (v_error r) 0 = nth i signal 0 - nth i (f_fitted fit) 0 /\
     (nth i (v_bins r) 0 < Z.to_nat (bins_of n))%nat /\
     forall j, (j < Z.to_nat (bins_of n))%nat -> Rabs (nth i signal 0 - spread (bins_of n) lo hi (nth i (v_bins r) 0%nat)) <= Rabs (nth i signal 0 - spread (bins_of n) lo hi j)) /\
  forall b, (b < Z.to_nat (bins_of n))%nat -> nth b (v_centers r) 0 = spread (bins_of n) lo hi b /\
    bin_statistics (length signal) (fun i => inner (bins_of n) clip (nth i (v_bins r) 0%nat) && (nth i (v_bins r) 0 =? b)%nat) (fun i => nth i (v_error r) 0)
      (nth b (v_counts r) 0%nat) (nth b (v_mean r) PInf) (nth b (v_rms r) PInf).
Proof. exact c34_statistics. Qed.
Print Assumptions C34_statistics.

(** Adding up over the bins gives the totals over all samples that were not clipped away. *)
Theorem C34_totals :
  forall lstsq signal f n clip range mi tol r,
  rearrange_error_by_value lstsq signal f n clip range mi tol = Ok r ->
  let kept := fun i => inner (bins_of n) clip (nth i (v_bins r) 0%nat) in
  let stat (l : list xr) (g : R -> R) b := match nth b l PInf with Fin x => INR (nth b (v_counts r) 0%nat) * g x | _ => 0 end in
  rsum (Z.to_nat (bins_of n)) (fun b => INR (nth b (v_counts r) 0%nat)) = total_in (length signal) kept (fun _ => 1) /\
  rsum (Z.to_nat (bins_of n)) (stat (v_mean r) (fun x => x)) = total_in (length signal) kept (fun i => nth i (v_error r) 0) /\
  rsum (Z.to_nat (bins_of n)) (stat (v_rms r) (fun x => x ^ 2)) = total_in (length signal) kept (fun i => nth i (v_error r) 0 ^ 2).
Proof. exact c34_totals. Qed.
Print Assumptions C34_totals.

(** A given range is used as it is.  Otherwise: some sample beyond 2 in magnitude gives exactly the
    extreme values, which cover the signal; smaller signals get [0,1], [-1/2,1/2] or [-1,1] from their mean and
    largest magnitude, and the last two cover it when no magnitude exceeds 1/2 respectively 1. *)
Theorem C88_inferred :
  forall signal,
  signal <> [] -> (forall r, infer_signal_range signal (Some r) = r) /\
  let r := infer_signal_range signal None in
  ((exists x, In x signal /\ 2 < Rabs x) -> covers r signal /\ In (fst r) signal /\ In (snd r) signal) /\
  ((forall x, In x signal -> Rabs x <= 2) ->
     (1 / 10 < lmean signal -> r = (0, 1)) /\
     (lmean signal <= 1 / 10 -> (forall x, In x signal -> Rabs x <= 6 / 10) -> r = (- (1 / 2), 1 / 2)) /\
     (lmean signal <= 1 / 10 -> (exists x, In x signal /\ 6 / 10 < Rabs x) -> r = (- 1, 1))) /\
  (lmean signal <= 1 / 10 -> (forall x, In x signal -> Rabs x <= 1 / 2) -> covers r signal) /\
  (lmean signal <= 1 / 10 -> (exists x, In x signal /\ 6 / 10 < Rabs x) -> (forall x, In x signal -> Rabs x <= 1) -> covers r signal).
Proof. exact c88_inferred. Qed.
Print Assumptions C88_inferred.

(** The inferred range need not contain the signal: a 1.8 V single-supply signal is binned over [0, 1], and a
    +-0.55 signal over [-0.5, 0.5]. *)
Theorem C88_covers_refuted :
  (exists signal, signal <> [] /\ (1 / 10 < lmean signal) /\ ~ covers (infer_signal_range signal None) signal) /\
  (exists signal, signal <> [] /\ lmean signal <= 1 / 10 /\ ~ covers (infer_signal_range signal None) signal).
Proof. exact c88_covers_refuted. Qed.
Print Assumptions C88_covers_refuted.

(** Raw codes: the extreme codes become the range. *)
Example C88_inferred_ex :
  covers (infer_signal_range [3; 7; 5] None) [3; 7; 5] /\ In (fst (infer_signal_range [3; 7; 5] None)) [3; 7; 5] /\ In (snd (infer_signal_range [3; 7; 5] None)) [3; 7; 5].
Proof. exact c88_inferred_ex. Qed.

(** For any fitted A and B the three variances are non-negative, at most one of AM and PM is non-zero, and
    at every phase they reproduce the fitted power raised by what is missing to make it non-negative
    everywhere - by nothing when B >= |A|, which is when the fitted power is non-negative at every phase. *)
Theorem C35_split :
  forall A B,
  let v := am_pm_split A B in
  0 <= am_of v /\ 0 <= pm_of v /\ 0 <= base_of v /\ (am_of v = 0 \/ pm_of v = 0) /\
  (0 < A -> am_of v = 2 * A /\ pm_of v = 0) /\ (A < 0 -> pm_of v = - 2 * A /\ am_of v = 0) /\
  (forall phi, am_pm_power v phi = A * cos (2 * phi) + B + Rmax 0 (Rabs A - B)) /\
  ((forall phi, 0 <= A * cos (2 * phi) + B) <-> Rabs A <= B) /\
  (Rabs A <= B -> forall phi, am_pm_power v phi = A * cos (2 * phi) + B).
Proof. exact c35_split. Qed.
Print Assumptions C35_split.

(** Variances are never negative, and base-noise mode never reports both AM and PM. *)
Theorem C35_variances :
  forall lstsq signal f n base mi tol r,
  rearrange_error_by_phase lstsq signal f n base mi tol = Ok r ->
  0 <= am_of (p_variances r) /\ 0 <= pm_of (p_variances r) /\ 0 <= base_of (p_variances r) /\
  p_am_v r ^ 2 = am_of (p_variances r) /\ p_pm_v r ^ 2 = pm_of (p_variances r) /\ p_base_v r ^ 2 = base_of (p_variances r) /\
  (base = true -> p_am_v r = 0 \/ p_pm_v r = 0) /\ (base = false -> p_base_v r = 0) /\
  (1 / 10 ^ 10 < p_amplitude r -> p_am_relative r * p_amplitude r = p_am_v r /\ p_pm_rad r * p_amplitude r = p_pm_v r).
Proof. exact c35_variances. Qed.
Print Assumptions C35_variances.

(** Coefficients in base-noise mode, with the defining property of least squares. *)
Theorem C35_reproduces :
  forall lstsq signal f n mi tol r,
  least_squares lstsq -> rearrange_error_by_phase lstsq signal f n true mi tol = Ok r ->
  exists A B, (forall A' B', rsum (length signal) (fun t => (A * cos (2 * nth t (p_phase r) 0) + B - nth t (p_error r) 0 ^ 2) ^ 2) <= rsum (length signal) (fun t => (A' * cos (2 * nth t (p_phase r) 0) + B' - nth t (p_error r) 0 ^ 2) ^ 2)) /\
   (forall phi, am_pm_power (p_variances r) phi = A * cos (2 * phi) + B + Rmax 0 (Rabs A - B)) /\ p_variances r = am_pm_split A B.
Proof. exact c35_reproduces. Qed.
Print Assumptions C35_reproduces.

(** Averaged over the samples, the modelled power is at least the mean squared error, and equal to it
    unless a variance had to be clamped. *)
Theorem C89_power_balance :
  forall lstsq signal f n base mi tol r,
  least_squares lstsq -> (2 <= length signal)%nat -> rearrange_error_by_phase lstsq signal f n base mi tol = Ok r ->
  exists total, p_total_v r = Fin total /\ 0 <= total /\ INR (length signal) * total ^ 2 = rsum (length signal) (fun t => nth t (p_error r) 0 ^ 2) /\
  INR (length signal) * total ^ 2 <= rsum (length signal) (fun t => am_pm_power (p_variances r) (nth t (p_phase r) 0)) /\
  exists a b, p_variances r = (if base then am_pm_split a b else (Rmax 0 a, Rmax 0 b, 0)) /\
    ((if base then Rabs a <= b else 0 <= a /\ 0 <= b) -> rsum (length signal) (fun t => am_pm_power (p_variances r) (nth t (p_phase r) 0)) = INR (length signal) * total ^ 2).
Proof. exact c89_power_balance. Qed.
Print Assumptions C89_power_balance.

(** If the squared error follows the noise model exactly, with samples at two different sensitivities, then
    without base noise both variances are recovered; with base noise the common part of AM and PM is
    reported as base noise and only the difference as AM or PM. *)
Theorem C90_recovery :
  forall lstsq signal f n base mi tol r am pm b0,
  least_squares lstsq -> (2 <= length signal)%nat -> rearrange_error_by_phase lstsq signal f n base mi tol = Ok r ->
  0 <= am -> 0 <= pm -> 0 <= b0 -> (forall t, (t < length signal)%nat -> nth t (p_error r) 0 ^ 2 = am_pm_power (am, pm, b0) (nth t (p_phase r) 0)) ->
  (exists s t, (s < length signal)%nat /\ (t < length signal)%nat /\ cos (nth s (p_phase r) 0) ^ 2 <> cos (nth t (p_phase r) 0) ^ 2) ->
  (base = false -> b0 = 0 -> p_variances r = (am, pm, 0)) /\
  (base = true -> p_variances r = (Rmax (am - pm) 0, Rmax (pm - am) 0, b0 + Rmin am pm)).
Proof. exact c90_recovery. Qed.
Print Assumptions C90_recovery.

(** r_squared_raw lies between 0 and 1. *)
Theorem C91_r2_raw :
  forall lstsq signal f n base mi tol r,
  least_squares lstsq -> rearrange_error_by_phase lstsq signal f n base mi tol = Ok r -> 0 <= p_r2_raw r <= 1.
Proof. exact c91_r2_raw. Qed.
Print Assumptions C91_r2_raw.

(** r_squared_binned never exceeds 1. *)
Theorem C91_r2_binned :
  forall lstsq signal f n base mi tol r,
  rearrange_error_by_phase lstsq signal f n base mi tol = Ok r -> p_r2_binned r <= 1.
Proof. exact c91_r2_binned. Qed.
Print Assumptions C91_r2_binned.

(** Every sample lies in the bin of its phase, at most half a bin width from the bin centre, and the
    statistics of each bin are those of its samples; the counts add up to the number of samples.  n_bins must be positive. *)
Theorem C92_phase_bins :
  forall lstsq signal f n base mi tol r,
  rearrange_error_by_phase lstsq signal f n base mi tol = Ok r ->
  (0 < n)%Z /\ length (p_bins r) = length signal /\
  (forall t, (t < length signal)%nat -> exists turns : Z, (nth t (p_bins r) 0 < Z.to_nat n)%nat /\
     let d := nth t (p_phase r) 0 - 2 * PI * IZR turns - nth (nth t (p_bins r) 0%nat) (p_centers r) 0 in - (PI / IZR n) <= d < PI / IZR n) /\
  (forall b, (b < Z.to_nat n)%nat -> nth b (p_centers r) 0 = 2 * PI * (INR b + 1 / 2) / IZR n /\
     bin_statistics (length signal) (fun i => (nth i (p_bins r) 0 =? b)%nat) (fun i => nth i (p_error r) 0) (nth b (p_counts r) 0%nat) (nth b (p_bin_mean r) PInf) (nth b (p_bin_rms r) PInf)) /\
  rsum (Z.to_nat n) (fun b => INR (nth b (p_counts r) 0%nat)) = INR (length signal).
Proof. exact c92_phase_bins. Qed.
Print Assumptions C92_phase_bins.

(** A bin count that is not positive is refused: 0 with ZeroDivisionError, negative with ValueError. *)
Theorem C92_bin_count :
  forall lstsq signal x n base mi tol,
  ((0 < n)%Z -> exists r, rearrange_error_by_phase lstsq signal (Some x) n base mi tol = Ok r) /\
  rearrange_error_by_phase lstsq signal (Some x) 0 base mi tol = Err ZeroDivisionError /\ ((n < 0)%Z -> rearrange_error_by_phase lstsq signal (Some x) n base mi tol = Err ValueError).
Proof. exact c92_bin_count. Qed.
Print Assumptions C92_bin_count.

(** Eight samples at -1, 0 and 1 sorted into three bins; the error is the signal itself. *)
Example C34_statistics_ex :
  exists r, rearrange_error_by_value gs_lstsq acf_record (Some (1 / 4)) (Some 3%Z) 0 (Some (-1, 1)) 0 (1 / 10 ^ 9) = Ok r /\
  v_bins r = [2; 1; 1; 0; 0; 1; 1; 2]%nat /\ v_counts r = [2; 4; 2]%nat /\ v_mean r = [Fin (-1); Fin 0; Fin 1] /\ v_centers r = [-1; 0; 1].
Proof. exact c34_statistics_ex. Qed.

(** A clip setting that removes every bin is refused, as is a constant large signal. *)
Example C34_accepts_ex :
  rearrange_error_by_value gs_lstsq acf_record (Some (1 / 4)) (Some 4%Z) (1 / 2) None 0 1 = Err ValueError /\ rearrange_error_by_value gs_lstsq [5; 5; 5] (Some (1 / 4)) None 0 None 0 1 = Err ValueError.
Proof. exact c34_accepts_ex. Qed.

Example C35_split_ex :
  am_pm_split (1 / 4) (1 / 2) = (1 / 2, 0, 1 / 4) /\ am_pm_split (- (1 / 4)) (1 / 8) = (0, 1 / 2, 0).
Proof. exact c35_split_ex. Qed.

Theorem C89_balance_refuted :
  exists signal f n r, rearrange_error_by_phase gs_lstsq signal (Some f) n true 0 (1 / 10 ^ 9) = Ok r /\
  rsum (length signal) (fun t => nth t (p_error r) 0 ^ 2) = 2 /\ rsum (length signal) (fun t => am_pm_power (p_variances r) (nth t (p_phase r) 0)) = 4.
Proof. exact c89_balance_refuted. Qed.
Print Assumptions C89_balance_refuted.

(** With base noise in the model, AM and PM power that are both present are not reported. *)
Theorem C90_both_refuted :
  exists signal f n r am pm, rearrange_error_by_phase gs_lstsq signal (Some f) n true 0 (1 / 10 ^ 9) = Ok r /\ 0 < am /\ 0 < pm /\
  (forall t, (t < length signal)%nat -> nth t (p_error r) 0 ^ 2 = am_pm_power (am, pm, 0) (nth t (p_phase r) 0)) /\ p_variances r = (0, 0, 1).
Proof. exact c90_both_refuted. Qed.
Print Assumptions C90_both_refuted.

(** Without base noise the same record yields both. *)
Example C90_recovery_ex :
  exists r, rearrange_error_by_phase gs_lstsq flat_record (Some (1 / 4)) 4 false 0 (1 / 10 ^ 9) = Ok r /\ p_variances r = (1, 1, 0) /\ p_am_v r = 1 /\ p_pm_v r = 1.
Proof. exact c90_recovery_ex. Qed.

(** Balanced case of the same record: the modelled and measured power agree. *)
Example C89_power_balance_ex :
  exists r, rearrange_error_by_phase gs_lstsq flat_record (Some (1 / 4)) 4 true 0 (1 / 10 ^ 9) = Ok r /\ p_total_v r = Fin 1 /\
  rsum 8 (fun t => am_pm_power (p_variances r) (nth t (p_phase r) 0)) = 8.
Proof. exact c89_power_balance_ex. Qed.

(** Four bins, tone at a quarter of the sampling rate: two samples in each bin. *)
Example C92_phase_bins_ex :
  exists r, rearrange_error_by_phase gs_lstsq flat_record (Some (1 / 4)) 4 true 0 (1 / 10 ^ 9) = Ok r /\ p_bins r = [0; 1; 2; 3; 0; 1; 2; 3]%nat /\ p_counts r = [2; 2; 2; 2]%nat.
Proof. exact c92_phase_bins_ex. Qed.

(** Perfect prediction scores 1. *)
Example C91_r2_ex :
  r_squared [1; 0; 3] [1; 0; 3] = 1.
Proof. exact c91_r2_ex. Qed.
