(** * Independent specification of what the plots show. *)
From Verif Require Import Base.
Local Open Scope R_scope.

(** Every value lies within the axis limits. *)
Definition covers (lim : R * R) (l : list R) : Prop := forall v, In v l -> fst lim <= v <= snd lim.
(** m is the first position of the largest value of f below n. *)
Definition first_peak (n : nat) (f : nat -> R) (m : nat) : Prop :=
  (m < n)%nat /\ (forall i, (i < n)%nat -> f i <= f m) /\ (forall i, (i < m)%nat -> f i < f m).
(** lo and hi are the smallest and largest entries. *)
Definition extremes (l : list R) (lo hi : R) : Prop := In lo l /\ In hi l /\ covers (lo, hi) l.
(** The consecutive entries of l from position s on, d of them. *)
Definition part_of (l : list R) (s d : nat) (p : list R) : Prop :=
  length p = d /\ forall i, (i < d)%nat -> (s + i < length l)%nat /\ nth i p 0 = nth (s + i) l 0.
