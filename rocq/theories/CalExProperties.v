(** * Property theorems of CalEx: statements only, proofs in CalExProofs.v.
    Generated by tools/mkprops.py from the final lemmas. *)
From Verif Require Import Base BaseLemmas CalModel CalSpec SpecLemmas DoutProofs CalProofs CalExLemmas.
Local Open Scope R_scope.
From Verif Require Import CalExProofs.

Example C39_recovers_ex :
  exists wt, calibrate_weight_sine_lite gs_lstsq ex_bits (1 / 4) = Ok wt /\ wt 0%nat = 2 / sqrt (5 / 2) /\ wt 1%nat = 1 / sqrt (5 / 2) /\ wt 2%nat = 1 / sqrt (5 / 2).
Proof. exact c39_recovers_ex. Qed.

Example C55_recovers_ex :
  exists r, calibrate_weight_sine gs_lstsq gs_rank (fun _ => 0) [ex_bits] (FScalar (1 / 4)) None (Some [2; 1; 1]) 1 (1 / 2) (1 / 10 ^ 12) 100 = Ok r /\
  r_weight r 0%nat = 2 / sqrt (5 / 2) /\ r_weight r 1%nat = 1 / sqrt (5 / 2) /\ r_weight r 2%nat = 1 / sqrt (5 / 2) /\ r_offset r = (3 / 2) / sqrt (5 / 2).
Proof. exact c55_recovers_ex. Qed.

(** With a tone that is a pure sine (phase 0), identifiable and of amplitude 1, no least-squares
    routine makes the lite calibration return the true weights, with either sign. *)
Theorem C77_pure_sine_refuted :
  exists bits w f, true_weights bits 1 f w 0 (fun _ => 0) (fun _ => 1) /\ identifiable bits 1 f w 0 (fun _ => 0) (fun _ => 1) /\ f <= 1 / 2 /\
  forall lstsq wt, least_squares lstsq -> calibrate_weight_sine_lite lstsq bits f = Ok wt ->
  ~ exists s, (s = 1 \/ s = -1) /\ forall j, (j < m_m bits)%nat -> wt j = s * w j / amplitude 0 1.
Proof. exact c77_pure_sine_refuted. Qed.
Print Assumptions C77_pure_sine_refuted.

(** The full calibration handles that record. *)
Example C77_full_calibration_ok_ex :
  exists r s, calibrate_weight_sine gs_lstsq gs_rank (fun _ => 0) [sine_bits] (FScalar (1 / 4)) None None 1 (1 / 2) (1 / 10 ^ 12) 100 = Ok r /\
  (s = 1 \/ s = -1) /\ r_weight r 0%nat = s /\ r_weight r 1%nat = - s.
Proof. exact c77_full_calibration_ok_ex. Qed.

(** Two complementary bits with equal nominal weights are merged into one constant column: after
    patching every weight vector has a constant output, although the bits carry a signal. *)
Theorem C78_complementary_bits_refuted :
  exists bits nominal, (forall x, In x nominal -> 0 < x) /\
  (exists w i j, (i < m_n bits)%nat /\ (j < m_n bits)%nat /\ output bits w i <> output bits w j) /\
  forall rank, rank_correct rank -> forall w_eff i j, (i < m_n bits)%nat -> (j < m_n bits)%nat ->
    let eff := of_cols (m_n bits) (p_eff (patch_rank_deficiency rank bits nominal)) in output eff w_eff i = output eff w_eff j.
Proof. exact c78_complementary_bits_refuted. Qed.
Print Assumptions C78_complementary_bits_refuted.

(** The record alone gives the true weights; the same record given twice, as two data sets with the
    same known frequency, gives weights that are too small by a factor of sqrt 2, with every correct
    least-squares and rank routine. *)
Theorem C79_two_data_sets_refuted :
  exists bits w f, true_weights bits 1 f w 0 (fun _ => 1) (fun _ => 0) /\ identifiable bits 1 f w 0 (fun _ => 1) (fun _ => 0) /\ w 0%nat = 1 /\
  forall lstsq rank est lr reltol mi, least_squares lstsq -> rank_correct rank ->
  (exists r s, calibrate_weight_sine lstsq rank est [bits] (FScalar f) None None 1 lr reltol mi = Ok r /\ (s = 1 \/ s = -1) /\ r_weight r 0%nat = s * w 0%nat) /\
  (exists r, calibrate_weight_sine lstsq rank est [bits; bits] (FScalar f) None None 1 lr reltol mi = Ok r /\ Rabs (r_weight r 0%nat) = w 0%nat / sqrt 2).
Proof. exact c79_two_data_sets_refuted. Qed.
Print Assumptions C79_two_data_sets_refuted.

(** With one iteration, started at the exact frequency, every correct least-squares and rank routine
    makes the search return the true weights divided by |b|, the sine part of the tone, instead of
    its amplitude. *)
Theorem C80_one_iteration_scale :
  forall lstsq rank est bits freq f nominal lr reltol w off a b,
  least_squares lstsq -> rank_correct rank -> freq_is freq f -> f <> 0 -> f <= 1 / 2 -> (0 < m_m bits <= m_n bits)%nat -> nominal_ok (m_m bits) nominal ->
  true_weights bits 1 f w off a b -> drift_identifiable bits f w off (a 0%nat) (b 0%nat) -> a 0%nat <> 0 -> b 0%nat <> 0 ->
  exists r s, calibrate_weight_sine lstsq rank est [bits] freq (Some true) nominal 1 lr reltol 1 = Ok r /\ (s = 1 \/ s = -1) /\ r_freqs r 0%nat = f /\
    (forall j, (j < m_m bits)%nat -> r_weight r j = s * w j / Rabs (b 0%nat)) /\ Rabs (b 0%nat) < amplitude (a 0%nat) (b 0%nat).
Proof. exact c80_one_iteration_scale. Qed.
Print Assumptions C80_one_iteration_scale.

Example C80_one_iteration_ex :
  exists r s, calibrate_weight_sine gs_lstsq gs_rank (fun _ => 0) [drift_bits] (FScalar (1 / 4)) (Some true) None 1 (1 / 2) (1 / 10 ^ 12) 1 = Ok r /\ (s = 1 \/ s = -1) /\
  r_weight r 0%nat = s * 2 /\ amplitude 1 1 = sqrt 2.
Proof. exact c80_one_iteration_ex. Qed.

(** With the default step and tolerance, the automatic search started from an exact estimate does
    not stop; its second iteration runs half a bin away (n = 8 samples: 1/4 becomes 1/4 + 1/16). *)
Theorem C80_exact_start_moves_refuted :
  exists bits f w off a b, true_weights bits 1 f w off a b /\ drift_identifiable bits f w off (a 0%nat) (b 0%nat) /\
  forall lstsq rank r, least_squares lstsq -> rank_correct rank ->
  calibrate_weight_sine lstsq rank (fun _ => f) [bits] FNone None None 1 (1 / 2) (1 / 10 ^ 12) 2 = Ok r ->
  r_freqs r 0%nat = f + 1 / 16.
Proof. exact c80_exact_start_moves_refuted. Qed.
Print Assumptions C80_exact_start_moves_refuted.

(** Preparation accepts exactly a non-empty list of non-empty matrices that all have the same
    smaller dimension (the bit width), with nominal weights absent or of that length; it orients
    each matrix with samples along the longer side and defaults the nominal weights to powers of two. *)
Theorem C81_prepare :
  forall bits_list nominal segs bw nw,
  prepare_input bits_list nominal = Ok (segs, bw, nw) <->
  bits_list <> [] /\ bw <> 0%nat /\ (forall s, In s bits_list -> Nat.min (m_n s) (m_m s) = bw) /\
  segs = map (fun s => if (m_n s <? m_m s)%nat then transpose s else s) bits_list /\
  match nominal with Some v => length v = bw /\ nw = v | None => nw = map (fun i => 2 ^ (bw - 1 - i)) (seq 0 bw) end.
Proof. exact c81_prepare. Qed.
Print Assumptions C81_prepare.

(** Every rejection is a ValueError. *)
Theorem C81_rejects :
  forall bits_list nominal e,
  prepare_input bits_list nominal = Err e -> e = ValueError.
Proof. exact c81_rejects. Qed.
Print Assumptions C81_rejects.

(** The whole calibration fails only with ValueError (bad input) or IndexError (every bit dropped);
    a frequency above one half is always rejected. *)
Theorem C81_calibrate_errors :
  forall lstsq rank est l freq fs nominal H lr reltol mi,
  (forall e, calibrate_weight_sine lstsq rank est l freq fs nominal H lr reltol mi = Err e -> e = ValueError \/ e = IndexError) /\
  ((exists x, In x (freq_list freq) /\ 1 / 2 < x) -> calibrate_weight_sine lstsq rank est l freq fs nominal H lr reltol mi = Err ValueError).
Proof. exact c81_calibrate_errors. Qed.
Print Assumptions C81_calibrate_errors.

Example C81_prepare_ex :
  exists segs nw, prepare_input [transpose ex_bits; ex_bits] None = Ok (segs, 3%nat, nw) /\ map m_n segs = [8%nat; 8%nat] /\ nw = [2 ^ 2; 2 ^ 1; 2 ^ 0] /\
  prepare_input [ex_bits; drift_bits] None = Err ValueError /\ prepare_input [] None = Err ValueError /\ prepare_input [ex_bits] (Some [1; 1]) = Err ValueError.
Proof. exact c81_prepare_ex. Qed.

(** Two identical bits with nominal weights 2 and 1 share one column; a solved weight 4 comes back
    as 4 and 2. *)
Example C37_bit_weights_ex :
  exists w, recover_rank_deficiency (fun _ => 4) (patch_rank_deficiency gs_rank dup_bits [2; 1]) = Ok w /\ w 0%nat = 4 /\ w 1%nat = 2.
Proof. exact c37_bit_weights_ex. Qed.

(** A column with largest entry 250 is divided by 100. *)
Example C38_undone_ex :
  let bits := of_rows [[0]; [250]] in m_at (scale_columns bits) 1 0 = 5 / 2 /\ recover_columns (fun _ => 3) 2 (bit_scales bits) 0%nat = 3 / 200 /\
  output (scale_columns bits) (fun _ => 3) 1 = 2 * output bits (recover_columns (fun _ => 3) 2 (bit_scales bits)) 1.
Proof. exact c38_undone_ex. Qed.

(** Solver weights -3, 1 (sum below zero) are flipped, together with the signals. *)
Example C40_invariants_ex :
  let r := post_process 2 (fun j => nth j [-3; 1] 0) (fun _ => 2) 1 1 [cos_bits] 2 1 (cos_basis [cos_bits] (fun _ => 1 / 4) 1) (sin_basis [cos_bits] (fun _ => 1 / 4) 1) (fun _ => 1 / 4) in
  r_weight r 0%nat = 3 /\ r_weight r 1%nat = -1 /\ r_offset r = 2 /\ exists d, r_sets r = [d] /\ r_calibrated d 0%nat = 3.
Proof. exact c40_invariants_ex. Qed.
