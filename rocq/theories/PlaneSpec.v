(** * Specification vocabulary for the phase plane: stated directly on samples. *)
From Coq Require Import Sorted Permutation.
From Verif Require Import Base Cplx.
Local Open Scope R_scope.

(** m is the median of the numbers g 0 .. g (n-1) *)
Definition median_of (n : nat) (g : nat -> R) (m : R) : Prop :=
  exists u, Permutation u (map g (seq 0 n)) /\ StronglySorted Rle u /\
  m = if Nat.even n then (nth (n / 2 - 1) u 0 + nth (n / 2) u 0) / 2 else nth (n / 2) u 0.
(** distance of point j, (d j, d (j+k)), from the centre of gravity of the n points *)
Definition ring_radius (d : nat -> R) (n k j : nat) : R :=
  let cx := rsum n d / INR n in
  let cy := rsum n (fun i => d (i + k)%nat) / INR n in
  sqrt ((d j - cx) ^ 2 + (d (j + k)%nat - cy) ^ 2).
(** Sample i (of N, lag k) is an outlier at threshold thr. *)
Definition is_outlier (d : nat -> R) (N k : nat) (thr : R) (i : nat) : Prop :=
  (k <= i < N)%nat /\
  exists mr md, median_of (N - k) (ring_radius d (N - k) k) mr /\
    median_of (N - k) (fun j => Rabs (ring_radius d (N - k) k j - mr)) md /\
    Rabs (ring_radius d (N - k) k (i - k) - mr) > thr * Rmax (1.4826 * md) (1 / 10 ^ 12).
(** Bin p is the first strongest one above DC of the record, mean removed, under the symmetric Hann window. *)
Definition windowed_magnitude (d : nat -> R) (N k : nat) : R :=
  let m := rsum N d / INR N in
  Cmod (csum N (fun i => Cscale ((d i - m) * ((1 - cos (2 * PI * INR i / INR (N - 1))) / 2)) (cis (- (2 * PI * INR k * INR i / INR N))))).
Definition plane_strongest (d : nat -> R) (N p : nat) : Prop :=
  (1 <= p <= N / 2)%nat /\
  (forall k, (1 <= k <= N / 2)%nat -> windowed_magnitude d N k <= windowed_magnitude d N p) /\
  (forall k, (1 <= k < p)%nat -> windowed_magnitude d N k < windowed_magnitude d N p).
(** how far a lag of k samples is from turning a tone of bin p into a line: 1 is a quarter period, 0 a line *)
Definition openness (N p k : nat) : R := Rabs (sin (2 * PI * INR p * INR k / INR N)).
(** The lags tried: below half the record and below 0.6 periods plus 20. *)
Definition lag_candidate (N p j : nat) : Prop := (1 <= j < N / 2)%nat /\ INR j <= 0.6 * INR N / INR p + 19.
(** k is the first best of the candidates (1 if there is none): openness minus 1e-4 per sample of lag *)
Definition best_lag (N p k : nat) : Prop :=
  (lag_candidate N p k \/ (k = 1%nat /\ forall j, ~ lag_candidate N p j)) /\
  forall j, lag_candidate N p j ->
    openness N p j - 0.0001 * INR j <= openness N p k - 0.0001 * INR k /\
    ((j < k)%nat -> openness N p j - 0.0001 * INR j < openness N p k - 0.0001 * INR k).
