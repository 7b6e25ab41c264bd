(** * Property theorems of Plane: statements only, proofs in PlaneProofs.v.
    Generated by tools/mkprops.py from the final lemmas. *)
From Coq Require Import Sorted Permutation.
From Verif Require Import Base BaseLemmas Cplx SpecModel SpecLemmas SpecToneProofs CohLemmas CohProofs PlaneModel PlaneSpec.
Local Open Scope R_scope.
From Verif Require Import PlaneProofs.

(** With a usable lag the result lists, in increasing order, exactly the samples whose point lies farther from
    the median radius than the threshold times the larger of 1.4826 MAD and 1e-12. *)
Theorem C112_outliers :
  forall data k thr,
  (0 < k < length data)%nat ->
  exists out, phase_plane data (Some (Z.of_nat k)) true thr = Ok (Z.of_nat k, out) /\ StronglySorted Z.lt out /\
  forall z, In z out <-> exists i, z = Z.of_nat i /\ is_outlier (fun j => nth j data 0) (length data) k thr i.
Proof. exact c112_outliers. Qed.
Print Assumptions C112_outliers.

(** Without detection there are none; a lag not shorter than the record raises ValueError, and so does lag 0
    with detection (unless the record has one sample); every other lag below 1 raises IndexError. *)
Theorem C112_lags :
  forall data k thr,
  ((0 < k < Z.of_nat (length data))%Z -> phase_plane data (Some k) false thr = Ok (k, [])) /\
  ((Z.of_nat (length data) <= k)%Z -> forall det, phase_plane data (Some k) det thr = Err ValueError) /\
  ((2 <= length data)%nat -> phase_plane data (Some 0%Z) true thr = Err ValueError) /\
  ((1 <= length data)%nat -> phase_plane data (Some 0%Z) false thr = Err IndexError) /\
  ((k < 0)%Z -> forall det, phase_plane data (Some k) det thr = Err IndexError).
Proof. exact c112_lags. Qed.
Print Assumptions C112_lags.

(** Adding a constant to the record, inverting it, or both changes no outlier; neither does a change of scale as
    long as the spread stays above the floor of 1e-12. *)
Theorem C112_invariant :
  forall data k thr a c,
  (0 < k < length data)%nat ->
  (a = 1 \/ a = -1 \/ (a <> 0 /\ exists mr md, let n := (length data - k)%nat in let r := ring_radius (fun i => nth i data 0) n k in
     median_of n r mr /\ median_of n (fun j => Rabs (r j - mr)) md /\ 1 / 10 ^ 12 <= 1.4826 * md /\ 1 / 10 ^ 12 <= 1.4826 * (Rabs a * md))) ->
  phase_plane (map (fun x => a * x + c) data) (Some (Z.of_nat k)) true thr = phase_plane data (Some (Z.of_nat k)) true thr.
Proof. exact c112_invariant. Qed.
Print Assumptions C112_invariant.

(** With a threshold of at least 1/1.4826 no more than half of the points are ever flagged. *)
Theorem C112_at_most_half :
  forall data k thr z out,
  1 <= 1.4826 * thr -> phase_plane data (Some k) true thr = Ok (z, out) -> (0 < k)%Z ->
  z = k /\ (2 * Z.of_nat (length out) <= Z.of_nat (length data) - k)%Z.
Proof. exact c112_at_most_half. Qed.
Print Assumptions C112_at_most_half.

(** If more than half of the points have exactly the same radius, the outliers are exactly the points that miss
    that radius by more than 1e-12 times the threshold, however small the deviation is next to the signal. *)
Theorem C112_majority :
  forall data k thr rho out,
  (0 < k < length data)%nat ->
  (length data - k < 2 * length (filter (fun j => Reqb (ring_radius (fun i => nth i data 0%R) (length data - k) k j) rho) (seq 0 (length data - k))))%nat ->
  phase_plane data (Some (Z.of_nat k)) true thr = Ok (Z.of_nat k, out) ->
  forall i, (k <= i < length data)%nat ->
    (In (Z.of_nat i) out <-> Rabs (ring_radius (fun i => nth i data 0) (length data - k) k (i - k) - rho) > thr / 10 ^ 12).
Proof. exact c112_majority. Qed.
Print Assumptions C112_majority.

(** A tone with c whole periods in the plotted points and a lag of an odd number of quarter periods is a perfect
    circle: nothing is flagged at any non-negative threshold. *)
Theorem C112_circle :
  forall n k c q A B ph thr,
  (0 < k)%nat -> (0 < c)%nat -> (2 * c < n)%nat -> 0 <= thr ->
  Z.odd q = true -> (4 * Z.of_nat c * Z.of_nat k = q * Z.of_nat n)%Z ->
  phase_plane (map (fun i => B + A * cos (2 * PI * INR c * INR i / INR n + ph)) (seq 0 (n + k))) (Some (Z.of_nat k)) true thr = Ok (Z.of_nat k, []).
Proof. exact c112_circle. Qed.
Print Assumptions C112_circle.

(** The automatic lag is that of the strongest bin of the Hann-windowed record: the first best of the lags below half
    the record and below 0.6 periods plus 20 samples.  It is always usable, and the analysis is that of the explicit lag. *)
Theorem C113_auto :
  forall data det thr,
  (2 <= length data)%nat ->
  exists p k, plane_strongest (fun i => nth i data 0) (length data) p /\ best_lag (length data) p k /\ (1 <= k < length data)%nat /\
  phase_plane data None det thr = phase_plane data (Some (Z.of_nat k)) det thr /\
  exists out, phase_plane data None det thr = Ok (Z.of_nat k, out).
Proof. exact c113_auto. Qed.
Print Assumptions C113_auto.

(** Fewer than two samples raise ValueError. *)
Theorem C113_short :
  forall data det thr,
  (length data <= 1)%nat -> phase_plane data None det thr = Err ValueError.
Proof. exact c113_short. Qed.
Print Assumptions C113_short.

(** How good the automatic lag is: it misses an open ellipse by no more than the rounding of a quarter period to whole
    samples and the distance penalty over a quarter period. *)
Theorem C113_quality :
  forall N p k,
  (4 <= N)%nat -> (1 <= p)%nat -> (2 * p <= N)%nat -> best_lag N p k ->
  openness N p k >= cos (PI * INR p / INR N) - 0.0001 * (INR N / (4 * INR p)).
Proof. exact c113_quality. Qed.
Print Assumptions C113_quality.

(** A tone so slow that the penalty of 1e-4 per sample outweighs the gain (a period of more than 62832 samples) gets lag 1,
    where the ellipse is closed to a line. *)
Theorem C113_slow :
  forall N p k,
  (2 <= N)%nat -> (1 <= p)%nat -> 2 * PI * INR p / INR N < 0.0001 -> best_lag N p k ->
  k = 1%nat /\ openness N p k < 0.0001.
Proof. exact c113_slow. Qed.
Print Assumptions C113_slow.

(** Near half the sampling rate, d = N - 2p bins of N below it: the lag is at most 20 (plus 0.6 periods), and so the ellipse
    opens by no more than pi d k / N. *)
Theorem C113_near_nyquist :
  forall N p k d,
  (4 <= N)%nat -> (1 <= p)%nat -> (2 * p + d = N)%nat -> best_lag N p k ->
  INR k <= 0.6 * INR N / INR p + 19 /\ openness N p k <= PI * INR d * INR k / INR N.
Proof. exact c113_near_nyquist. Qed.
Print Assumptions C113_near_nyquist.

(** The automatic lag is described as giving a phase shift of about 90 degrees, and the search as covering signals near
    half the sampling rate.  It does not: for a record of 4096 samples whose strongest bin is 2047 the lag chosen opens the
    ellipse by less than 4 percent of what it could be, although a lag of 1024 samples is exactly a quarter period. *)
Theorem C114_ninety_degrees_refuted :
  exists data p k out, plane_strongest (fun i => nth i data 0) (length data) p /\
  phase_plane data None true 4 = Ok (Z.of_nat k, out) /\ openness (length data) p k < 0.04 /\
  openness (length data) p 1024 = 1 /\ length data = (4 * 1024)%nat.
Proof. exact c114_ninety_degrees_refuted. Qed.
Print Assumptions C114_ninety_degrees_refuted.

Example C112_outliers_ex :
  phase_plane [0; 0; 0; 0; 9] (Some 1%Z) true 4 = Ok (1%Z, [4%Z]).
Proof. exact c112_outliers_ex. Qed.

Example C112_lags_ex :
  phase_plane [1; 2; 3] (Some 0%Z) true 4 = Err ValueError /\ phase_plane [1; 2; 3] (Some (-1)%Z) true 4 = Err IndexError /\
  phase_plane [1; 2; 3] (Some 3%Z) true 4 = Err ValueError /\ phase_plane [1; 2; 3] (Some 2%Z) false 4 = Ok (2%Z, []).
Proof. exact c112_lags_ex. Qed.

Example C112_invariant_ex :
  phase_plane [5; 5; 5; 5; -4] (Some 1%Z) true 4 = Ok (1%Z, [4%Z]).
Proof. exact c112_invariant_ex. Qed.

Example C112_at_most_half_ex :
  (2 * Z.of_nat (length [4%Z]) <= Z.of_nat (length [0; 0; 0; 0; 9]) - 1)%Z.
Proof. exact c112_at_most_half_ex. Qed.

Example C112_majority_ex :
  In (Z.of_nat 4) [4%Z] <-> Rabs (6.75 - 2.25) > 4 / 10 ^ 12.
Proof. exact c112_majority_ex. Qed.

Example C112_circle_ex :
  phase_plane [3; 1; -1; 1; 3] (Some 1%Z) true 4 = Ok (1%Z, []).
Proof. exact c112_circle_ex. Qed.

Example C113_auto_ex :
  exists out, phase_plane (peak_record 16 4) None true 4 = Ok (1%Z, out).
Proof. exact c113_auto_ex. Qed.

Example C113_short_ex :
  phase_plane [3] None true 4 = Err ValueError.
Proof. exact c113_short_ex. Qed.

Example C113_quality_ex :
  forall k, best_lag 1024 16 k -> openness 1024 16 k > 0.8.
Proof. exact c113_quality_ex. Qed.

Example C113_slow_ex :
  forall k, best_lag (2 ^ 17) 1 k -> k = 1%nat.
Proof. exact c113_slow_ex. Qed.

Example C113_near_nyquist_ex :
  forall k, best_lag 1024 511 k -> openness 1024 511 k <= PI * 2 * INR k / 1024.
Proof. exact c113_near_nyquist_ex. Qed.
