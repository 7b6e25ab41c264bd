(** * The inputs on which the MATLAB functions and their Python ports are compared. *)
From Verif Require Import Base.
Local Open Scope R_scope.

(** Capacitor lists cdacwgt accepts. *)
Definition cap_valid (cd cb cp : list R) : Prop :=
  (0 < length cd)%nat /\ length cb = length cd /\ length cp = length cd /\ Forall (fun x => 0 < x) cd /\ Forall (fun x => 0 <= x) cb /\ Forall (fun x => 0 <= x) cp.
(** Where the two ways of rounding differ: halfway above an even number. *)
Definition tie (x : R) : Prop := exists k, Z.Even k /\ x = IZR k + 1 / 2.
(** Neither edge of the band is such a value, in bins. *)
Definition no_tie (N : nat) (b : list R) : Prop := ~ tie (Rmin (nth 0 b 0) (nth 1 b 0) * INR N) /\ ~ tie (Rmax (nth 0 b 0) (nth 1 b 0) * INR N).
