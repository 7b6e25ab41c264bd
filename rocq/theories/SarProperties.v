(** * Property theorems of Sar: statements only, proofs in SarProofs.v.
    Generated by tools/mkprops.py from the final lemmas. *)
From Verif Require Import Base BaseLemmas SarModel SarSpec.
From Coq Require Import Psatz ZifyBool.
Local Open Scope R_scope.
From Verif Require Import SarProofs.

(** C06 (and C03 as the noise-free case). *)
Theorem C06_bounded_noise :
  forall samp cmp vin w a b s c d p,
  a < b -> 0 < c -> 0 <= p ->
  (forall i j, (i < length vin)%nat -> (j < length w)%nat ->
     - slack w d j * (b - a) <= c * cmp j i <= p * (b - a)) ->
  let sampled i := nth i vin 0 + (if Rltb 0 s then s * samp i else 0) in
  (forall i, (i < length vin)%nat ->
     a - p * (b - a) <= sampled i < a + (b - a) * (total w + d)) ->
  exists codes out,
    sar_convert samp cmp vin w [Fin a; Fin b] s c = Ok codes /\
    sar_reconstruct codes w [Fin a; Fin b] = Ok out /\
    length out = length vin /\
    forall i, (i < length vin)%nat ->
      - p * (b - a) <= sampled i - nth i out 0 < d * (b - a).
Proof. exact c06_bounded_noise. Qed.
Print Assumptions C06_bounded_noise.

Theorem C03_covering_error :
  forall samp cmp vin w a b s c d,
  a < b -> s <= 0 -> c <= 0 -> covering w d ->
  (forall i, (i < length vin)%nat -> a <= nth i vin 0 < a + (b - a) * (total w + d)) ->
  exists codes out,
    sar_convert samp cmp vin w [Fin a; Fin b] s c = Ok codes /\
    sar_reconstruct codes w [Fin a; Fin b] = Ok out /\
    samplewise (fun v y => 0 <= v - y < (b - a) * d) vin out.
Proof. exact c03_covering_error. Qed.
Print Assumptions C03_covering_error.

Theorem C03_noncovering_gap :
  forall samp cmp w a b d j,
  a < b -> 0 <= d -> nonneg w -> (j < length w)%nat ->
  tail_sum w (S j) + d < nth j w 0 ->
  exists v codes out,
    a <= v < a + (b - a) * (total w + d) /\
    sar_convert samp cmp [v] w [Fin a; Fin b] 0 0 = Ok codes /\
    sar_reconstruct codes w [Fin a; Fin b] = Ok out /\
    (b - a) * d <= v - nth 0 out 0.
Proof. exact c03_noncovering_gap. Qed.
Print Assumptions C03_noncovering_gap.

Theorem C04_monotone :
  forall samp cmp vin w a b s c,
  a < b -> s <= 0 -> c <= 0 -> nonneg w ->
  exists codes out,
    sar_convert samp cmp vin w [Fin a; Fin b] s c = Ok codes /\
    sar_reconstruct codes w [Fin a; Fin b] = Ok out /\
    length out = length vin /\
    forall i k, (i < length vin)%nat -> (k < length vin)%nat ->
      nth i vin 0 <= nth k vin 0 -> nth i out 0 <= nth k out 0.
Proof. exact c04_monotone. Qed.
Print Assumptions C04_monotone.

Theorem C04_lexicographic :
  forall samp cmp vin w a b s c,
  a < b -> s <= 0 -> c <= 0 ->
  exists codes,
    sar_convert samp cmp vin w [Fin a; Fin b] s c = Ok codes /\
    length codes = length vin /\
    (forall i, (i < length vin)%nat -> is_code (length w) (nth i codes [])) /\
    forall i k, (i < length vin)%nat -> (k < length vin)%nat ->
      nth i vin 0 <= nth k vin 0 -> lex_le (nth i codes []) (nth k codes []).
Proof. exact c04_lexicographic. Qed.
Print Assumptions C04_lexicographic.

Theorem C05_range_and_saturation :
  forall samp cmp vin w a b s c,
  a < b -> s <= 0 -> c <= 0 -> nonneg w ->
  exists codes out,
    sar_convert samp cmp vin w [Fin a; Fin b] s c = Ok codes /\
    sar_reconstruct codes w [Fin a; Fin b] = Ok out /\
    samplewise (fun v y =>
      a <= y <= a + (b - a) * total w /\
      (v < a -> y = a) /\
      (a + (b - a) * total w <= v -> y = a + (b - a) * total w)) vin out.
Proof. exact c05_range_and_saturation. Qed.
Print Assumptions C05_range_and_saturation.

Theorem C05_idempotent :
  forall samp cmp vin w a b,
  a < b -> nonneg w ->
  exists codes out codes2 out2,
    sar_convert samp cmp vin w [Fin a; Fin b] 0 0 = Ok codes /\
    sar_reconstruct codes w [Fin a; Fin b] = Ok out /\
    sar_convert samp cmp out w [Fin a; Fin b] 0 0 = Ok codes2 /\
    sar_reconstruct codes2 w [Fin a; Fin b] = Ok out2 /\
    out2 = out.
Proof. exact c05_idempotent. Qed.
Print Assumptions C05_idempotent.

Theorem C05_idempotent_codes :
  forall samp cmp vin w a b codes out,
  a < b -> positive w -> (forall i, (i < length vin)%nat -> a <= nth i vin 0) ->
  sar_convert samp cmp vin w [Fin a; Fin b] 0 0 = Ok codes ->
  sar_reconstruct codes w [Fin a; Fin b] = Ok out ->
  sar_convert samp cmp out w [Fin a; Fin b] 0 0 = Ok codes.
Proof. exact c05_idempotent_codes. Qed.
Print Assumptions C05_idempotent_codes.

(** The batch never mixes samples: row i depends only on sample i and its own draws. *)
Theorem C04_batch_independent :
  forall samp samp' cmp cmp' vin vin' w a b s c codes codes' i i',
  sar_convert samp cmp vin w [Fin a; Fin b] s c = Ok codes ->
  sar_convert samp' cmp' vin' w [Fin a; Fin b] s c = Ok codes' ->
  (i < length vin)%nat -> (i' < length vin')%nat ->
  nth i vin 0 = nth i' vin' 0 -> samp i = samp' i' -> (forall j, cmp j i = cmp' j i') ->
  nth i codes [] = nth i' codes' [].
Proof. exact c04_batch_independent. Qed.
Print Assumptions C04_batch_independent.

Theorem C01_sum_plus_lsb :
  forall n r w,
  sar_ideal_weights n r = Ok w ->
  total w + nth (length w - 1) w 0 = 1 /\ positive w.
Proof. exact c01_sum_plus_lsb. Qed.
Print Assumptions C01_sum_plus_lsb.

Theorem C02_ideal_accuracy :
  forall samp cmp n r w a b s c vin,
  sar_ideal_weights n r = Ok w -> a < b -> s <= 0 -> c <= 0 ->
  (forall i, (i < length vin)%nat -> a <= nth i vin 0 < b) ->
  exists codes out,
    sar_convert samp cmp vin w [Fin a; Fin b] s c = Ok codes /\
    sar_reconstruct codes w [Fin a; Fin b] = Ok out /\
    samplewise (fun v y => 0 <= v - y < (b - a) * nth (length w - 1) w 0) vin out.
Proof. exact c02_ideal_accuracy. Qed.
Print Assumptions C02_ideal_accuracy.

Theorem C01_plain :
  forall n,
  (1 <= n)%Z -> exists w,
  sar_ideal_weights n None = Ok w /\ length w = Z.to_nat n /\
  forall i, (i < Z.to_nat n)%nat -> nth i w 0 = 2 ^ (Z.to_nat n - 1 - i) / 2 ^ Z.to_nat n.
Proof. exact c01_plain. Qed.
Print Assumptions C01_plain.

Theorem C01_redundant :
  forall n r,
  (1 <= n)%Z -> (0 <= r < n)%Z -> exists w,
  sar_ideal_weights n (Some r) = Ok w /\ length w = S (Z.to_nat n) /\
  let N := Z.to_nat n in let k := Z.to_nat r in
  let D := 2 ^ N + 2 ^ (N - 1 - k) in
  (forall i, (i <= k)%nat -> nth i w 0 = 2 ^ (N - 1 - i) / D) /\
  (forall i, (k < i <= N)%nat -> nth i w 0 = 2 ^ (N - i) / D).
Proof. exact c01_redundant. Qed.
Print Assumptions C01_redundant.

Theorem C01_errors :
  forall n r,
  (n < 1)%Z \/ (exists k, r = Some k /\ ~ (- n <= k < n)%Z) <->
  sar_ideal_weights n r = Err IndexError.
Proof. exact c01_errors. Qed.
Print Assumptions C01_errors.

(** Observed behaviour for redundant_bit = -1: the copy of the LSB goes to the front. *)
Theorem C01_minus_one :
  forall n,
  (1 <= n)%Z -> exists w,
  sar_ideal_weights n (Some (-1)%Z) = Ok w /\ length w = S (Z.to_nat n) /\
  nth 0 w 0 = 1 / (2 ^ Z.to_nat n + 1).
Proof. exact c01_minus_one. Qed.
Print Assumptions C01_minus_one.

Theorem C07_default_units :
  forall ws s draws,
  ws <> [] -> positive ws -> 0 <= s -> length draws = length ws ->
  exists out m,
    sar_apply_cap_mismatch (map Fin ws) (Fin s) draws None = Ok out /\
    In m ws /\ (forall x, In x ws -> m <= x) /\ length out = length ws /\
    forall i, (i < length ws)%nat ->
      nth i out 0 = nth i ws 0 * (1 + s / sqrt (nth i ws 0 / m) * nth i draws 0).
Proof. exact c07_default_units. Qed.
Print Assumptions C07_default_units.

Theorem C07_given_units :
  forall ws s draws u,
  ws <> [] -> positive ws -> 0 <= s -> positive u -> length u = length ws -> length draws = length ws ->
  exists out,
    sar_apply_cap_mismatch (map Fin ws) (Fin s) draws (Some (map Fin u)) = Ok out /\
    length out = length ws /\
    forall i, (i < length ws)%nat ->
      nth i out 0 = nth i ws 0 * (1 + s / sqrt (nth i u 0) * nth i draws 0).
Proof. exact c07_given_units. Qed.
Print Assumptions C07_given_units.

Theorem C07_zero_sigma :
  forall ws draws cu,
  ws <> [] -> positive ws -> length draws = length ws ->
  (forall u, cu = Some u -> length u = length ws /\ positive u) ->
  sar_apply_cap_mismatch (map Fin ws) (Fin 0) draws (option_map (map Fin) cu) = Ok ws.
Proof. exact c07_zero_sigma. Qed.
Print Assumptions C07_zero_sigma.

Theorem C07_scale :
  forall ws s draws k out,
  0 < k -> ws <> [] -> positive ws -> 0 <= s -> length draws = length ws ->
  sar_apply_cap_mismatch (map Fin ws) (Fin s) draws None = Ok out ->
  sar_apply_cap_mismatch (map Fin (map (fun x => k * x) ws)) (Fin s) draws None
    = Ok (map (fun x => k * x) out).
Proof. exact c07_scale. Qed.
Print Assumptions C07_scale.

Theorem C07_errors :
  forall weights sigma draws cu,
  bad_mismatch_input weights sigma cu <->
  sar_apply_cap_mismatch weights sigma draws cu = Err ValueError.
Proof. exact c07_errors. Qed.
Print Assumptions C07_errors.

Example C01_weights_ex :
  sar_ideal_weights 3 None = Ok [4/8; 2/8; 1/8] /\
  sar_ideal_weights 3 (Some 1%Z) = Ok [4/10; 2/10; 2/10; 1/10] /\
  sar_ideal_weights 3 (Some (-1)%Z) = Ok [1/9; 4/9; 2/9; 1/9] /\
  sar_ideal_weights 3 (Some 3%Z) = Err IndexError /\ sar_ideal_weights 0 None = Err IndexError.
Proof. exact c01_weights_ex. Qed.

Example C02_hypotheses_ex :
  let vin := [-1; 0.3; 0.99] in
  exists w, sar_ideal_weights 3 (Some 1%Z) = Ok w /\ length w = 4%nat /\
    (forall i, (i < length vin)%nat -> -1 <= nth i vin 0 < 1).
Proof. exact c02_hypotheses_ex. Qed.

Example C03_hypotheses_ex :
  covering [1/2; 1/4; 1/4; 1/8] (1/8) /\ 0 <= 1.2 < 0 + (1 - 0) * (total [1/2; 1/4; 1/4; 1/8] + 1/8) /\
  tail_sum [1/2; 1/8] 1 + 1/8 < nth 0 [1/2; 1/8] 0 /\ nonneg [1/2; 1/8].
Proof. exact c03_hypotheses_ex. Qed.

Example C06_hypotheses_ex :
  let w := [1/2; 1/4; 1/4; 1/8] in let d := 1/8 in
  let cmp := fun j (_ : nat) => match j with 1%nat => -2 | 2%nat => 1 | _ => 0 end in
  (forall i j, (i < 1)%nat -> (j < length w)%nat ->
     - slack w d j * (1 - 0) <= 1/10 * cmp j i <= 1/10 * (1 - 0)) /\
  slack w d 1 = 1/4 /\ cmp 1%nat 0%nat <> 0 /\
  0 - 1/10 * (1 - 0) <= 0.6 < 0 + (1 - 0) * (total w + d).
Proof. exact c06_hypotheses_ex. Qed.

(** The legacy helper multiplies every weight by one plus sigma times its draw: the relative error
    does not depend on the weight. *)
Theorem C07_legacy :
  forall ws sigma draws,
  length draws = length ws ->
  length (sar_apply_mismatch ws sigma draws) = length ws /\
  (forall i, (i < length ws)%nat -> nth i (sar_apply_mismatch ws sigma draws) 0 = nth i ws 0 + sigma * nth i draws 0 * nth i ws 0) /\
  (sigma = 0 -> sar_apply_mismatch ws sigma draws = ws).
Proof. exact c07_legacy. Qed.
Print Assumptions C07_legacy.

Example C07_hypotheses_ex :
  positive [4; 2; 1] /\ ([4; 2; 1] : list R) <> [] /\
  bad_mismatch_input [Fin 1; NaN] (Fin 0.1) None /\
  ~ bad_mismatch_input [Fin 4; Fin 1] (Fin 0.1) (Some [Fin 8; Fin 2]).
Proof. exact c07_hypotheses_ex. Qed.
