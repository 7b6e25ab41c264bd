(** * Property theorems of Ramp: statements only, proofs in RampProofs.v.
    Generated by tools/mkprops.py from the final lemmas. *)
From Verif Require Import Base BaseLemmas FreqProofs TiProofs SpecLemmas SpecProofs RampModel RampSpec.
From Coq Require Import Psatz ZifyBool Permutation.
Local Open Scope R_scope.
From Verif Require Import RampProofs.

(** Counts are the numbers of samples at each of the consecutive analysed codes. *)
Theorem C31_counts :
  forall codes nb cmin cm ep ex r,
  compute_inl_from_ramp codes nb cmin cm ep ex = Ok r ->
  exists lo hi, upper_limit codes nb cmin cm (r_code_max r) /\ analysed ex cmin (r_code_max r) lo hi /\ (lo <= hi)%Z /\
   let m := Z.to_nat (hi - lo + 1) in
   length (r_code r) = m /\ length (r_counts r) = m /\ length (r_trans r) = S m /\
   (forall i, (i < m)%nat -> nth i (r_code r) 0%Z = (lo + Z.of_nat i)%Z /\ nth i (r_counts r) 0 = INR (occurrences (lo + Z.of_nat i) codes)) /\
   (forall i, (i <= m)%nat -> nth i (r_trans r) 0%Z = (lo + Z.of_nat i)%Z) /\
   INR m * r_ideal r = lsum (r_counts r) /\ 0 < r_ideal r.
Proof. exact c31_counts. Qed.
Print Assumptions C31_counts.

(** DNL: count over mean count minus one; never below -1; sums to zero. *)
Theorem C31_dnl :
  forall codes nb cmin cm ep ex r,
  compute_inl_from_ramp codes nb cmin cm ep ex = Ok r ->
  length (r_dnl r) = length (r_counts r) /\ lsum (r_dnl r) = 0 /\
  forall i, (i < length (r_dnl r))%nat -> -1 <= nth i (r_dnl r) 0 /\ nth i (r_dnl r) 0 = nth i (r_counts r) 0 / r_ideal r - 1.
Proof. exact c31_dnl. Qed.
Print Assumptions C31_dnl.

(** A code is listed as missing exactly when it is analysed and its DNL is -1, that is, when no
    sample has it. *)
Theorem C31_missing :
  forall codes nb cmin cm ep ex r c,
  compute_inl_from_ramp codes nb cmin cm ep ex = Ok r ->
  (In c (r_missing r) <-> exists i, (i < length (r_code r))%nat /\ nth i (r_code r) 0%Z = c /\ nth i (r_dnl r) 0 = -1) /\
  (In c (r_missing r) <-> In c (r_code r) /\ ~ In (Fin (IZR c)) codes).
Proof. exact c31_missing. Qed.
Print Assumptions C31_missing.

(** INL (raw and endpoint-corrected): one longer than DNL, starts and ends at zero, consecutive
    differences are the DNL; the endpoint correction changes nothing. *)
Theorem C31_inl :
  forall codes nb cmin cm ep ex r,
  compute_inl_from_ramp codes nb cmin cm ep ex = Ok r -> ep = EpNone \/ ep = EpEndpoints ->
  r_inl r = r_raw r /\ length (r_inl r) = S (length (r_dnl r)) /\ nth 0 (r_inl r) 0 = 0 /\ nth (length (r_dnl r)) (r_inl r) 0 = 0 /\
  forall i, (i < length (r_dnl r))%nat -> nth (S i) (r_inl r) 0 - nth i (r_inl r) 0 = nth i (r_dnl r) 0.
Proof. exact c31_inl. Qed.
Print Assumptions C31_inl.

(** 'fit': the residual from the least-squares line through the raw INL: it sums to zero, is
    uncorrelated with the code, and no other line leaves a smaller sum of squares. *)
Theorem C31_fit :
  forall codes nb cmin cm ex r,
  compute_inl_from_ramp codes nb cmin cm EpFit ex = Ok r ->
  let n := length (r_raw r) in let x i := IZR (nth i (r_trans r) 0%Z) in
  length (r_inl r) = n /\ (exists a b, forall i, (i < n)%nat -> nth i (r_inl r) 0 = nth i (r_raw r) 0 - (a + b * x i)) /\
  rsum n (fun i => nth i (r_inl r) 0) = 0 /\ rsum n (fun i => nth i (r_inl r) 0 * x i) = 0 /\
  forall a b, rsum n (fun i => nth i (r_inl r) 0 ^ 2) <= rsum n (fun i => (nth i (r_raw r) 0 - (a + b * x i)) ^ 2).
Proof. exact c31_fit. Qed.
Print Assumptions C31_fit.

(** It returns a result exactly for a positive num_bits (if any), a non-empty capture of integer
    codes within the limits, at least one sample on an analysed code and a known endpoint mode;
    otherwise it raises ValueError. *)
Theorem C31_success_iff :
  forall codes nb cmin cm ep ex,
  ((exists r, compute_inl_from_ramp codes nb cmin cm ep ex = Ok r) <-> ramp_valid codes nb cmin cm ep ex) /\
  (~ ramp_valid codes nb cmin cm ep ex -> compute_inl_from_ramp codes nb cmin cm ep ex = Err ValueError).
Proof. exact c31_success_iff. Qed.
Print Assumptions C31_success_iff.

(** Reordering the samples does not change the result. *)
Theorem C31_order_irrelevant :
  forall codes codes' nb cmin cm ep ex,
  Permutation codes codes' ->
  compute_inl_from_ramp codes nb cmin cm ep ex = compute_inl_from_ramp codes' nb cmin cm ep ex.
Proof. exact c31_order_irrelevant. Qed.
Print Assumptions C31_order_irrelevant.

(** A uniform ramp through a converter with transition levels T: each DNL value is within two
    samples' worth (2 / mean count) of the true code width over the mean width, minus one;
    the INL error does not accumulate: each INL value is within the same bound of the true
    transition's deviation. *)
Theorem C64_ramp_accuracy :
  forall T v0 step n f lo hi nb cmin cm ep ex r,
  compute_inl_from_ramp (map (fun i => Fin (IZR (f i))) (seq 0 n)) nb cmin cm ep ex = Ok r ->
  analysed ex cmin (r_code_max r) lo hi -> ideal_setup T v0 step n f lo hi ->
  let m := IZR (hi - lo + 1) in let lsb := (T (hi + 1)%Z - T lo) / m in
  (forall i, (i < length (r_dnl r))%nat ->
     Rabs (nth i (r_dnl r) 0 - ((T (lo + Z.of_nat i + 1)%Z - T (lo + Z.of_nat i)%Z) / lsb - 1)) <= 2 / r_ideal r) /\
  (forall k, (k <= length (r_dnl r))%nat ->
     Rabs (nth k (r_raw r) 0 - ((T (lo + Z.of_nat k)%Z - T lo) / lsb - INR k)) <= 2 / r_ideal r).
Proof. exact c64_ramp_accuracy. Qed.
Print Assumptions C64_ramp_accuracy.

(** Non-trivial instances. *)
Example C31_ramp_ex :
  exists r, compute_inl_from_ramp (map (fun z => Fin (IZR z)) [0;1;1;3]%Z) (Some 2%Z) 0 None EpEndpoints false = Ok r /\
  r_counts r = [1;2;0;1] /\ r_dnl r = [0;1;-1;0] /\ r_inl r = [0;0;1;0;0] /\ r_missing r = [2%Z].
Proof. exact c31_ramp_ex. Qed.

(** A converter with code widths 1, 1.5, 0.5 and 1 and a ramp of 8 samples spaced 0.5. *)
Example C64_setup_ex :
  let T := fun c : Z => if (c <=? 1)%Z then IZR c else if (c =? 2)%Z then 2.5 else IZR c in
  ideal_setup T 0 0.5 8 (fun i => if (i <? 2)%nat then 0 else if (i <? 5)%nat then 1 else if (i <? 6)%nat then 2 else 3)%Z 0 3.
Proof. exact c64_setup_ex. Qed.
