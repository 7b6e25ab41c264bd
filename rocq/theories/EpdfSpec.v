(** * Specification vocabulary for the error density: sample statistics and densities on indexed samples. *)
From Verif Require Import Base NonlinSpec.
Local Open Scope R_scope.

(** v is the difference between the largest and the smallest of d 0 .. d (n-1) *)
Definition is_span (n : nat) (d : nat -> R) (v : R) : Prop :=
  exists i j, (i < n)%nat /\ (j < n)%nat /\ (forall t, (t < n)%nat -> d j <= d t <= d i) /\ v = d i - d j.
(** unbiased sample variance *)
Definition sample_variance (n : nat) (e : nat -> R) : R := rsum n (fun t => (e t - average n e) ^ 2) / (INR n - 1).
(** normal density of deviation s at distance u from its centre *)
Definition bell (s u : R) : R := exp (- u ^ 2 / (2 * s ^ 2)) / (s * sqrt (2 * PI)).
(** mean of the normal densities of deviation h around the samples *)
Definition mixture (n : nat) (e : nat -> R) (h x : R) : R := average n (fun t => bell h (x - e t)).
(** h is Silverman's bandwidth 1.06 s n^(-1/5) *)
Definition silverman (n : nat) (s h : R) : Prop := 0 < h /\ h ^ 5 * INR n = (1.06 * s) ^ 5.
(** discrete Kullback-Leibler sum with step dx *)
Definition kl_sum (m : nat) (dx : R) (p q : nat -> R) : R := dx * rsum m (fun i => p i * ln (p i / q i)).
Definition mass (m : nat) (dx : R) (p : nat -> R) : R := dx * rsum m p.
