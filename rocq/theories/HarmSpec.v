(** * Independent specification of the harmonic decomposition. *)
From Verif Require Import Base.
Local Open Scope R_scope.

(** Sample t of the average of the runs. *)
Definition run_mean (rows : list (list R)) (t : nat) : R := rsum (length rows) (fun i => nth t (nth i rows []) 0) / INR (length rows).
(** dc + sum over h = 1..H of A_h cos(2 pi f h t + ph_h), coefficients indexed from 0 *)
Definition distorted (H : nat) (dc : R) (A ph : nat -> R) (f : R) (t : nat) : R :=
  dc + rsum H (fun h => A h * cos (INR (S h) * (2 * PI * f * INR t) + ph h)).
Definition rms_of (l : list R) : R := sqrt (rsum (length l) (fun t => nth t l 0 ^ 2) / INR (length l)).
(** lo and hi are the smallest and the largest of the first n values of y. *)
Definition spans (n : nat) (y : nat -> R) (lo hi : R) : Prop :=
  (exists i, (i < n)%nat /\ y i = lo) /\ (exists j, (j < n)%nat /\ y j = hi) /\ forall t, (t < n)%nat -> lo <= y t <= hi.
