(** * Specification vocabulary for frequency planning (independent of FreqModel). *)
From Verif Require Import Base.
Local Open Scope R_scope.

(** A bin the search may return. *)
Definition admissible (force_odd : bool) (n b : Z) : Prop :=
  (0 < b)%Z /\ (force_odd = true -> Z.Odd b) /\ Z.gcd b n = 1%Z.

(** [d] is the distance from [x] to the nearest integer multiple of [m]. *)
Definition nearest_multiple_distance (x m d : R) : Prop :=
  (exists k : Z, d = Rabs (x - IZR k * m)) /\ (forall k : Z, d <= Rabs (x - IZR k * m)).
