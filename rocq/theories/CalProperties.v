(** * Property theorems of Cal: statements only, proofs in CalProofs.v.
    Generated by tools/mkprops.py from the final lemmas. *)
From Verif Require Import Base BaseLemmas CalModel CalSpec SpecLemmas DoutProofs.
Local Open Scope R_scope.
From Verif Require Import CalProofs.

(** Every output of the lite calibration has a non-negative sum. *)
Theorem C39_nonneg_sum :
  forall lstsq bits f wt,
  calibrate_weight_sine_lite lstsq bits f = Ok wt -> 0 <= rsum (m_m bits) wt.
Proof. exact c39_nonneg_sum. Qed.
Print Assumptions C39_nonneg_sum.

(** A frequency above one half raises ValueError; nothing else does. *)
Theorem C39_frequency_guard :
  forall lstsq bits f,
  calibrate_weight_sine_lite lstsq bits f = Err ValueError <-> 1 / 2 < f.
Proof. exact c39_frequency_guard. Qed.
Print Assumptions C39_frequency_guard.

(** Exact recovery of the weights. *)
Theorem C39_recovers :
  forall lstsq bits f w off a b,
  least_squares lstsq -> f <= 1 / 2 ->
  true_weights bits 1 f w off a b -> identifiable bits 1 f w off a b -> a 0%nat <> 0 ->
  exists wt s, calibrate_weight_sine_lite lstsq bits f = Ok wt /\ (s = 1 \/ s = -1) /\
    (forall j, (j < m_m bits)%nat -> wt j = s * w j / amplitude (a 0%nat) (b 0%nat)) /\
    (0 < rsum (m_m bits) w -> s = 1) /\ (rsum (m_m bits) w < 0 -> s = -1).
Proof. exact c39_recovers. Qed.
Print Assumptions C39_recovers.

(** Unscaled columns with the recovered weights give the solved output divided by the normalisation. *)
Theorem C38_undone :
  forall bits coeffs norm i,
  norm <> 0 ->
  output (scale_columns bits) coeffs i = norm * output bits (recover_columns coeffs norm (bit_scales bits)) i.
Proof. exact c38_undone. Qed.
Print Assumptions C38_undone.

(** After scaling the largest magnitude of every column that is not (near) zero lies between 1/2
    and 10; the factor is a power of ten. *)
Theorem C38_range :
  forall bits j,
  (0 < m_n bits)%nat -> 1 / 10 ^ 15 < max_abs (m_n bits) (colm bits j) ->
  (forall i, (i < m_n bits)%nat -> Rabs (m_at (scale_columns bits) i j) < 10) /\
  exists i, (i < m_n bits)%nat /\ 1 / 2 < Rabs (m_at (scale_columns bits) i j).
Proof. exact c38_range. Qed.
Print Assumptions C38_range.

(** The factor is never zero; (near) zero columns are left alone. *)
Theorem C38_factor :
  forall bits i j,
  m_at (scale_columns bits) i j = m_at bits i j * powerRZ 10 (- bit_scales bits j) /\ powerRZ 10 (- bit_scales bits j) <> 0 /\
  (max_abs (m_n bits) (colm bits j) <= 1 / 10 ^ 15 -> m_at (scale_columns bits) i j = m_at bits i j).
Proof. exact c38_factor. Qed.
Print Assumptions C38_factor.

(** Weights mapped back to the original bits reproduce the output solved on the patched columns. *)
Theorem C37_output_preserved :
  forall rank bits nominal w_eff w i,
  let p := patch_rank_deficiency rank bits nominal in recover_rank_deficiency w_eff p = Ok w ->
  output bits w i = output (of_cols (m_n bits) (p_eff p)) w_eff i.
Proof. exact c37_output_preserved. Qed.
Print Assumptions C37_output_preserved.

(** A bit is dropped (weight 0), kept as the founder of a column (that column's weight), or merged
    into the column of a founder, with its nominal ratio to that founder. *)
Theorem C37_bit_weights :
  forall rank bits nominal w_eff w j,
  let p := patch_rank_deficiency rank bits nominal in recover_rank_deficiency w_eff p = Ok w -> (j < m_m bits)%nat ->
  w j = 0 \/ exists c founder, (c < length (p_eff p))%nat /\ (founder < m_m bits)%nat /\ w founder = w_eff c /\
     (j = founder \/ w j = w founder * (nth j nominal 0 / nth founder nominal 0)).
Proof. exact c37_bit_weights. Qed.
Print Assumptions C37_bit_weights.

(** Mapping back fails (IndexError) exactly when every bit was dropped. *)
Theorem C37_error :
  forall rank bits nominal w_eff,
  (0 < m_m bits)%nat ->
  let p := patch_rank_deficiency rank bits nominal in
  recover_rank_deficiency w_eff p = Err IndexError <-> forall j, (j < m_m bits)%nat -> nth j (p_map p) None = None.
Proof. exact c37_error. Qed.
Print Assumptions C37_error.

(** For every solver output: the weights have non-negative sum, every calibrated signal is the bits
    times the returned weights, and error = calibrated - offset - ideal. *)
Theorem C40_invariants :
  forall bw weights sol nf choice segs bw_eff H cosb sinb freqs,
  (forall d, (d < length segs)%nat -> m_m (nth d segs (mkMat 0 0 (fun _ _ => 0))) = bw) ->
  let r := post_process bw weights sol nf choice segs bw_eff H cosb sinb freqs in
  0 <= rsum bw (r_weight r) /\ length (r_sets r) = length segs /\
  forall d i, (d < length segs)%nat -> let s := nth d (r_sets r) (mkDs zvec zvec zvec (Fin 0)) in
    r_calibrated s i = rsum bw (fun j => m_at (nth d segs (mkMat 0 0 (fun _ _ => 0))) i j * r_weight r j) /\
    r_error s i = r_calibrated s i - r_offset r - r_ideal s i.
Proof. exact c40_invariants. Qed.
Print Assumptions C40_invariants.

(** The calibration of one data set at a known frequency recovers weights, offset and tone, all
    divided by the amplitude of the fundamental, with the sign that makes the sum of the weights
    non-negative; the residual is zero. *)
Theorem C55_recovers :
  forall lstsq rank est bits freq f fs nominal H lr reltol max_iter w off a b,
  least_squares lstsq -> rank_correct rank -> freq_is freq f -> f <> 0 -> f <= 1 / 2 -> fs = None \/ fs = Some false ->
  (0 < m_m bits <= m_n bits)%nat -> nominal_ok (m_m bits) nominal -> (1 <= H)%nat ->
  true_weights bits H f w off a b -> identifiable bits H f w off a b -> a 0%nat <> 0 \/ b 0%nat <> 0 ->
  exists r d s, calibrate_weight_sine lstsq rank est [bits] freq fs nominal H lr reltol max_iter = Ok r /\ r_sets r = [d] /\ r_freqs r 0%nat = f /\
    (s = 1 \/ s = -1) /\ (0 < rsum (m_m bits) w -> s = 1) /\ (rsum (m_m bits) w < 0 -> s = -1) /\
    (forall j, (j < m_m bits)%nat -> r_weight r j = s * w j / amplitude (a 0%nat) (b 0%nat)) /\
    r_offset r = s * off / amplitude (a 0%nat) (b 0%nat) /\
    (forall t, (t < m_n bits)%nat -> r_calibrated d t = s * tone H off a b f t / amplitude (a 0%nat) (b 0%nat) /\
                                     r_ideal d t = s * tone H 0 a b f t / amplitude (a 0%nat) (b 0%nat) /\ r_error d t = 0) /\
    r_sndr d = Fin 200.
Proof. exact c55_recovers. Qed.
Print Assumptions C55_recovers.
