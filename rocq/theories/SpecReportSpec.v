(** * Specification vocabulary for window and orientation properties (independent of SpecModel). *)
From Verif Require Import Base.
From Coq Require Import Permutation Sorted.
Local Open Scope R_scope.

(** Periodic cosine-sum windows, written out in theta = 2 pi n / N. *)
Definition hann_at (t : R) : R := 0.5 - 0.5 * cos t.
Definition hamming_at (t : R) : R := 0.54 - 0.46 * cos t.
Definition blackman_at (t : R) : R := 0.42 - 0.5 * cos t + 0.08 * cos (2 * t).
Definition blackmanharris_at (t : R) : R := 0.35875 - 0.48829 * cos t + 0.14128 * cos (2 * t) - 0.01168 * cos (3 * t).
Definition flattop_at (t : R) : R := 0.21557895 - 0.41663158 * cos t + 0.277263158 * cos (2 * t) - 0.083578947 * cos (3 * t) + 0.006947368 * cos (4 * t).
(** Two-dimensional captures that are read as one column per record. *)
Definition tall (M K : nat) : Prop := (1 < M)%nat /\ (K = 1%nat \/ (1 < K)%nat /\ (2 * K < M)%nat).
(** m is the middle of the values l: the mean of the two middle ones for an even count. *)
Definition middle_of (l : list R) (m : R) : Prop :=
  exists u, Permutation u l /\ StronglySorted Rle u /\
  m = if Nat.even (length u) then (nth (length u / 2 - 1) u 0 + nth (length u / 2) u 0) / 2 else nth (length u / 2) u 0.
