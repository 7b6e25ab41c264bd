(** * Specification vocabulary for the OSR sweep (independent of OsrModel). *)
From Verif Require Import Base.
From Coq Require Import Permutation Sorted.
Local Open Scope R_scope.

(** [order] sorts [l] upwards. *)
Definition sorts (l : list R) (order : list nat) : Prop :=
  Permutation order (seq 0 (length l)) /\ StronglySorted (fun i j => nth i l 0 <= nth j l 0) order.
(** The first c bins' total and largest value. *)
Definition band_total (c : nat) (E : list R) : R := rsum c (fun k => nth k E 0).
Definition band_peak (c : nat) (E : list R) (m : R) : Prop :=
  (exists k, (k < c)%nat /\ nth k E 0 = m) /\ forall k, (k < c)%nat -> nth k E 0 <= m.
