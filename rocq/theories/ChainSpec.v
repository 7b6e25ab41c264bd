(** * What the spline, the filter and the level control are to be, stated without their code. *)
From Verif Require Import Base.
Local Open Scope R_scope.

(** The cubics a + b u + c u^2 + d u^3 of n - 1 intervals of width h pass through y, join with equal slope and curvature, and the
    outermost two at either end are the same cubic. *)
Definition not_a_knot (n : nat) (h : R) (y a b c d : nat -> R) : Prop :=
  (forall i, (i + 1 < n)%nat -> a i = y i /\ a i + b i * h + c i * h ^ 2 + d i * h ^ 3 = y (i + 1)%nat) /\
  (forall i, (i + 2 < n)%nat -> b (i + 1)%nat = b i + 2 * c i * h + 3 * d i * h ^ 2 /\ 2 * c (i + 1)%nat = 2 * c i + 6 * d i * h) /\
  d 0%nat = d 1%nat /\ d (n - 3)%nat = d (n - 2)%nat.
(** A cubic polynomial. *)
Definition cubic (p0 p1 p2 p3 t : R) : R := p0 + p1 * t + p2 * t ^ 2 + p3 * t ^ 3.
(** Squared magnitude of c0 + c1 z + c2 z^2 at z = exp(-i w). *)
Definition gain2 (c : list R) (w : R) : R :=
  (nth 0 c 0 + nth 1 c 0 * cos w + nth 2 c 0 * cos (2 * w)) ^ 2 + (nth 1 c 0 * sin w + nth 2 c 0 * sin (2 * w)) ^ 2.
(** Interval i holds the time v: the first one also holds what comes before the record, the last one what comes after it. *)
Definition interval_of (n : nat) (h v : R) (i : nat) : Prop := (i + 1 < n)%nat /\ (INR i * h <= v \/ i = 0%nat) /\ (v < INR (i + 1) * h \/ (i + 2 = n)%nat).
