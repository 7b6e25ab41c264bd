(** * Statement vocabulary for the phase plane, error and residual plots. *)
From Verif Require Import Base EplaneSpec EplotModel.
Local Open Scope R_scope.

(** More than 100 rising and 100 falling samples, and more than 50 of each inside the limits lo, hi (the condition for the two
    edge trends). *)
Definition both_edges (data : list R) (lo hi : R) (detect : bool) : Prop :=
  let n := length data in let d := fun t => nth t data 0 in
  detect = true /\ (100 < count_of n (rises d n))%nat /\ (100 < count_of n (falls d n))%nat /\
  (50 < count_of n (fun t => (rises d n t && inside d lo hi t)%bool))%nat /\ (50 < count_of n (fun t => (falls d n t && inside d lo hi t)%bool))%nat.
