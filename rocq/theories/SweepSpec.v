(** * Independent specification of the ENOB sweep. *)
From Verif Require Import Base.
Local Open Scope R_scope.

(** What the first n of the given bits contribute to the samples. *)
Definition contribution (rows : nat) (bit : nat -> nat -> R) (w : nat -> R) (n : nat) : list R := map (fun t => rsum n (fun j => bit t j * w j)) (seq 0 rows).
