(** * Property theorems of Eplane: statements only, proofs in EplaneProofs.v.
    Generated by tools/mkprops.py from the final lemmas. *)
From Coq Require Import Sorted Permutation.
From Verif Require Import Base BaseLemmas Cplx SpecModel SpecLemmas DoutProofs SiggenModel SiggenSpec SiggenProofs CalModel CalSpec CalProofs CalExLemmas CohLemmas FitModel FitSpec FitProofs HarmProofs NonlinModel NonlinSpec NonlinProofs PlaneProofs EplaneModel EplaneSpec.
Local Open Scope R_scope.
From Verif Require Import EplaneProofs.

(** What is returned: the residual of the sine fit; a trend that is the best polynomial of the given order for the residual
    over the samples strictly between the 2nd and the 98th percentile; and the gap, which is zero unless detection is on, more
    than 100 samples rise, more than 100 fall, and more than 50 of each lie in that range, and otherwise the mean over all samples
    of the distance between the best polynomials for the rising and for the falling samples of that range. *)
Theorem C115_result :
  forall lstsq data order detect mode r,
  least_squares lstsq -> (2 <= length data)%nat -> error_phase_plane lstsq data order detect mode = Ok r ->
  let n := length data in let d := fun t => nth t data 0 in let e := fun t => nth t (ep_residual r) 0 in let deg := Z.to_nat order in
  fit_core lstsq data None 3 (1 / 10 ^ 9) = Ok (ep_fit r) /\ length (ep_residual r) = n /\ (forall t, (t < n)%nat -> e t = d t - nth t (f_fitted (ep_fit r)) 0) /\
  exists lo hi, is_percentile n d 2 lo /\ is_percentile n d 98 hi /\
  let used := inside d lo hi in let up := fun t => (rises d n t && used t)%bool in let down := fun t => (falls d n t && used t)%bool in
  let some_nonzero := fun m => exists t, (t < n)%nat /\ m t = true /\ d t <> 0 in
  (some_nonzero used -> best_polynomial n used d e deg (fun i => ep_trend r (deg - i)%nat)) /\
  (detect = false \/ (count_of n (rises d n) <= 100)%nat \/ (count_of n (falls d n) <= 100)%nat \/ (count_of n up <= 50)%nat \/ (count_of n down <= 50)%nat -> ep_gap r = 0) /\
  (detect = true -> (100 < count_of n (rises d n))%nat -> (100 < count_of n (falls d n))%nat -> (50 < count_of n up)%nat -> (50 < count_of n down)%nat ->
     exists p q, ep_gap r = average n (fun t => Rabs (poly deg p (d t) - poly deg q (d t))) /\
       (some_nonzero up -> best_polynomial n up d e deg p) /\ (some_nonzero down -> best_polynomial n down d e deg q)).
Proof. exact c115_result. Qed.
Print Assumptions C115_result.

(** The gap is never negative. *)
Theorem C115_nonnegative :
  forall lstsq data order detect mode r,
  error_phase_plane lstsq data order detect mode = Ok r -> 0 <= ep_gap r.
Proof. exact c115_nonnegative. Qed.
Print Assumptions C115_nonnegative.

(** If over the used rising samples the residual is the polynomial a of the data and over the used falling ones the polynomial b,
    with order + 1 different values on either side, the gap is exactly the mean of |a - b|; in particular a residual that is one
    polynomial of the data has gap zero, and the trend is then that polynomial. *)
Theorem C115_exact :
  forall lstsq data order mode r a b,
  least_squares lstsq -> (1 <= order)%Z -> error_phase_plane lstsq data order true mode = Ok r ->
  let n := length data in let d := fun t => nth t data 0 in let e := fun t => nth t (ep_residual r) 0 in let deg := Z.to_nat order in
  forall lo hi, is_percentile n d 2 lo -> is_percentile n d 98 hi ->
  let used := inside d lo hi in let up := fun t => (rises d n t && used t)%bool in let down := fun t => (falls d n t && used t)%bool in
  (100 < count_of n (rises d n))%nat -> (100 < count_of n (falls d n))%nat -> (50 < count_of n up)%nat -> (50 < count_of n down)%nat ->
  distinct_among n up d (S deg) -> distinct_among n down d (S deg) ->
  (forall t, (t < n)%nat -> up t = true -> e t = poly deg a (d t)) -> (forall t, (t < n)%nat -> down t = true -> e t = poly deg b (d t)) ->
  ep_gap r = average n (fun t => Rabs (poly deg a (d t) - poly deg b (d t))) /\
  ((forall t, (t < n)%nat -> used t = true -> e t = poly deg a (d t)) -> ep_gap r = 0 /\ forall x, poly deg (fun i => ep_trend r (deg - i)%nat) x = poly deg a x).
Proof. exact c115_exact. Qed.
Print Assumptions C115_exact.

(** Which arguments are refused: an unknown unit mode and fewer than two samples raise ValueError, a negative order ValueError, and a
    record with at most two different values (a one-bit converter) TypeError, because no sample lies strictly inside the range; the
    unit mode has no other influence on the result. *)
Theorem C115_errors :
  forall lstsq data order detect mode,
  (mode = UnitOther \/ (length data <= 1)%nat \/ (order < 0)%Z -> error_phase_plane lstsq data order detect mode = Err ValueError) /\
  (mode <> UnitOther -> (2 <= length data)%nat -> (0 <= order)%Z -> (exists v w, forall t, (t < length data)%nat -> nth t data 0 = v \/ nth t data 0 = w) ->
     error_phase_plane lstsq data order detect mode = Err TypeError) /\
  (mode <> UnitOther -> error_phase_plane lstsq data order detect mode = error_phase_plane lstsq data order detect UnitCode).
Proof. exact c115_errors. Qed.
Print Assumptions C115_errors.

(** If the used rising samples and the used falling samples show the same data and residuals (each value the same number of times),
    as for a memoryless converter sampled symmetrically on both edges, the gap is zero. *)
Theorem C115_memoryless :
  forall lstsq data order mode r,
  least_squares lstsq -> (1 <= order)%Z -> (2 <= length data)%nat -> error_phase_plane lstsq data order true mode = Ok r ->
  let n := length data in let d := fun t => nth t data 0 in let e := fun t => nth t (ep_residual r) 0 in let deg := Z.to_nat order in
  (forall lo hi, is_percentile n d 2 lo -> is_percentile n d 98 hi ->
    let used := inside d lo hi in let up := fun t => (rises d n t && used t)%bool in let down := fun t => (falls d n t && used t)%bool in
    distinct_among n up d (S deg) /\ distinct_among n down d (S deg) /\
    Permutation (map (fun t => (d t, e t)) (filter up (seq 0 n))) (map (fun t => (d t, e t)) (filter down (seq 0 n)))) ->
  ep_gap r = 0.
Proof. exact c115_memoryless. Qed.
Print Assumptions C115_memoryless.

(** The trend and the two edge fits leave out the samples at or beyond the percentiles: fewer than 0.02 (n - 1) + 1 samples lie
    below the lower limit, and as many above the upper one; if more samples than that sit at the lowest value of the record, the
    limit is that value and they are all left out. *)
Theorem C115_interior :
  forall n d lo hi,
  is_percentile n d 2 lo -> is_percentile n d 98 hi ->
  INR (count_of n (fun t => Rltb (d t) lo)) < 0.02 * (INR n - 1) + 1 /\ INR (count_of n (fun t => Rltb hi (d t))) < 0.02 * (INR n - 1) + 1 /\
  (forall b, (forall t, (t < n)%nat -> b <= d t) -> 0.02 * (INR n - 1) + 1 < INR (count_of n (fun t => Rleb (d t) b)) -> lo = b) /\
  (forall b, (forall t, (t < n)%nat -> d t <= b) -> 0.02 * (INR n - 1) + 1 < INR (count_of n (fun t => Rleb b (d t))) -> hi = b).
Proof. exact c115_interior. Qed.
Print Assumptions C115_interior.

(** A coherent sine leaves nothing: the residual is zero at every sample, and if enough different values lie inside on both edges the
    trend and the gap are zero. *)
Theorem C115_pure_sine :
  forall lstsq data k A ph off order detect mode r,
  least_squares lstsq -> (0 < k)%nat -> (k < length data / 2)%nat -> (5 <= length data)%nat -> INR (length data) <= 10 ^ 10 -> 0 < A ->
  is_record data (sine A (INR k / INR (length data)) ph off) -> (1 <= order)%Z -> error_phase_plane lstsq data order detect mode = Ok r ->
  let n := length data in let d := fun t => nth t data 0 in
  (forall t, (t < n)%nat -> nth t (ep_residual r) 0 = 0) /\
  (forall lo hi, is_percentile n d 2 lo -> is_percentile n d 98 hi ->
     let used := inside d lo hi in distinct_among n (fun t => (rises d n t && used t)%bool) d (S (Z.to_nat order)) -> distinct_among n (fun t => (falls d n t && used t)%bool) d (S (Z.to_nat order)) ->
     ep_gap r = 0 /\ forall x, poly (Z.to_nat order) (fun i => ep_trend r (Z.to_nat order - i)%nat) x = 0).
Proof. exact c115_pure_sine. Qed.
Print Assumptions C115_pure_sine.

Example C115_result_ex :
  exists r, error_phase_plane gs_lstsq (eighth 34) 2 true UnitAuto = Ok r /\ length (ep_residual r) = 272%nat /\
  best_polynomial 272 (inside (fun t => nth t (eighth 34) 0) (-1) 1) (fun t => nth t (eighth 34) 0) (fun t => nth t (ep_residual r) 0) 2 (fun i => ep_trend r (2 - i)%nat).
Proof. exact c115_result_ex. Qed.

Example C115_nonnegative_ex :
  forall r, error_phase_plane gs_lstsq (eighth 34) 2 true UnitAuto = Ok r -> 0 <= ep_gap r.
Proof. exact c115_nonnegative_ex. Qed.

Example C115_interior_ex :
  forall lo hi, is_percentile 272 (fun t => nth t (eighth 34) 0) 2 lo -> is_percentile 272 (fun t => nth t (eighth 34) 0) 98 hi -> lo = -1 /\ hi = 1.
Proof. exact c115_interior_ex. Qed.

Example C115_pure_sine_ex :
  exists r, error_phase_plane gs_lstsq (eighth 34) 2 true UnitAuto = Ok r /\ (forall t, (t < 272)%nat -> nth t (ep_residual r) 0 = 0) /\ ep_gap r = 0.
Proof. exact c115_pure_sine_ex. Qed.

Example C115_exact_ex :
  exists r, error_phase_plane gs_lstsq (eighth 34) 2 true UnitAuto = Ok r /\ ep_gap r = average 272 (fun t => Rabs (poly 2 (fun _ => 0) (nth t (eighth 34) 0) - poly 2 (fun _ => 0) (nth t (eighth 34) 0))).
Proof. exact c115_exact_ex. Qed.

Example C115_errors_ex :
  error_phase_plane gs_lstsq [1; -1; 1; 1; -1; -1] 3 true UnitAuto = Err TypeError /\ error_phase_plane gs_lstsq [1; 2; 3] 3 true UnitOther = Err ValueError /\ error_phase_plane gs_lstsq [1] 3 true UnitVoltage = Err ValueError.
Proof. exact c115_errors_ex. Qed.

Example C115_memoryless_ex :
  exists r, error_phase_plane gs_lstsq (eighth 34) 2 true UnitAuto = Ok r /\ ep_gap r = 0.
Proof. exact c115_memoryless_ex. Qed.
