(** * Specification vocabulary for the error phase plane, on sample indices. *)
From Coq Require Import Sorted Permutation.
From Verif Require Import Base NonlinSpec.
Local Open Scope R_scope.

(** v is the q-th percentile of the n numbers d 0 .. d (n-1): linear interpolation between order statistics *)
Definition is_percentile (n : nat) (d : nat -> R) (q v : R) : Prop :=
  exists u i e, Permutation u (map d (seq 0 n)) /\ StronglySorted Rle u /\ (i < n)%nat /\ 0 <= e < 1 /\
  INR i + e = q / 100 * (INR n - 1) /\ v = (1 - e) * nth i u 0 + e * nth (i + 1) u (nth i u 0).
(** the sum of g over the samples t < n with P t *)
Definition sum_over (n : nat) (P : nat -> bool) (g : nat -> R) : R := rsum n (fun t => if P t then g t else 0).
(** how many samples t < n satisfy P *)
Fixpoint count_of (n : nat) (P : nat -> bool) : nat := match n with O => O | S k => (count_of k P + (if P k then 1 else 0))%nat end.
(** samples in the interior of the range, samples where the record rises and falls *)
Definition inside (d : nat -> R) (lo hi : R) (t : nat) : bool := if Rlt_dec lo (d t) then (if Rlt_dec (d t) hi then true else false) else false.
Definition slope (d : nat -> R) (n t : nat) : R := d (Nat.min (t + 1) (n - 1)) - d (t - 1)%nat.
Definition rises (d : nat -> R) (n t : nat) : bool := if Rlt_dec 0 (slope d n t) then true else false.
Definition falls (d : nat -> R) (n t : nat) : bool := if Rlt_dec (slope d n t) 0 then true else false.
(** c is a polynomial of degree deg with the least squared distance from e over the samples P *)
Definition best_polynomial (n : nat) (P : nat -> bool) (d e : nat -> R) (deg : nat) (c : nat -> R) : Prop :=
  forall c', sum_over n P (fun t => (e t - poly deg c (d t)) ^ 2) <= sum_over n P (fun t => (e t - poly deg c' (d t)) ^ 2).
(** among the samples P there are m different values of d *)
Definition distinct_among (n : nat) (P : nat -> bool) (d : nat -> R) (m : nat) : Prop :=
  exists l, length l = m /\ NoDup (map d l) /\ forall t, In t l -> (t < n)%nat /\ P t = true.
