(** * What the error-by-value panel of a dashboard needs. *)
From Verif Require Import Base DrawSpec.
Local Open Scope R_scope.

(** The range over which the values of a record are spread: its own if it leaves [-2, 2], else [0, 1], [-1/2, 1/2] or
    [-1, 1], whichever is guessed. *)
Definition value_scale (signal : list R) (lo hi : R) : Prop :=
  (exists x, In x signal /\ 2 < Rabs x) /\ extremes signal lo hi \/
  (forall x, In x signal -> Rabs x <= 2) /\
  (1 / 10 < lmean signal /\ lo = 0 /\ hi = 1 \/
   lmean signal <= 1 / 10 /\ (forall x, In x signal -> Rabs x <= 6 / 10) /\ lo = - (1 / 2) /\ hi = 1 / 2 \/
   lmean signal <= 1 / 10 /\ (exists x, In x signal /\ 6 / 10 < Rabs x) /\ lo = -1 /\ hi = 1).
(** Some sample is nearer to one of the 98 inner ones of 100 levels spread over the range than to the two at its ends. *)
Definition inner_sample (signal : list R) : Prop :=
  exists lo hi x, value_scale signal lo hi /\ In x signal /\ 1 / 198 * (hi - lo) < x - lo <= 197 / 198 * (hi - lo).
(** All samples are equal. *)
Definition flat (signal : list R) : Prop := exists v, forall x, In x signal -> x = v.
