(** * Independent specification of the statistics of a bin in errsin.m. *)
From Verif Require Import Base RearSpec.
Local Open Scope R_scope.

(** The average over the samples of a class; none for an empty class. *)
Definition bin_average (N : nat) (member : nat -> bool) (e : nat -> R) (mean : xr) : Prop :=
  let c := total_in N member (fun _ => 1) in
  (c = 0 -> mean = NaN) /\ (c <> 0 -> exists m, mean = Fin m /\ c * m = total_in N member e).
(** Mean and standard deviation; mean and deviation squared add up to the mean square. *)
Definition bin_spread (N : nat) (member : nat -> bool) (e : nat -> R) (mean dev : xr) : Prop :=
  let c := total_in N member (fun _ => 1) in
  (c = 0 -> mean = NaN /\ dev = NaN) /\
  (c <> 0 -> exists m d, mean = Fin m /\ dev = Fin d /\ 0 <= d /\ c * m = total_in N member e /\
     c * d ^ 2 = total_in N member (fun i => (e i - m) ^ 2) /\ c * (m ^ 2 + d ^ 2) = total_in N member (fun i => e i ^ 2)).
