(** * Specification vocabulary for the digital-output analyses (independent of DoutModel). *)
From Verif Require Import Base.
Local Open Scope R_scope.

(** Weighted value of bits ii..m-1 of one row, and the sum of those weights. *)
Definition rest_value (row w : list R) (ii m : nat) : R := rsum (m - ii) (fun k => nth (ii + k) row 0 * nth (ii + k) w 0).
Definition rest_weight (w : list R) (ii m : nat) : R := rsum (m - ii) (fun k => nth (ii + k) w 0).
(** All bits ii..m-1 of the row equal v. *)
Definition rest_all (v : R) (ii m : nat) (row : list R) : bool := forallb (fun j => Reqb (nth j row 0) v) (seq ii (m - ii)).
(** A matrix with rows of m entries; a binary one. *)
Definition matrix_of (m : nat) (rows : list (list R)) : Prop := forall row, In row rows -> length row = m.
Definition binary_of (m : nat) (rows : list (list R)) : Prop :=
  matrix_of m rows /\ forall row j, In row rows -> nth j row 0 = 0 \/ nth j row 0 = 1.
(** Percentage of rows with a property. *)
Definition percent_of (p : list R -> bool) (rows : list (list R)) : R := 100 * (INR (length (filter p rows)) / INR (length rows)).
(** Weighted sum of bits x..y-1 of one row. *)
Definition bits_between (row w : list R) (x y : nat) : R := rsum (y - x) (fun k => nth (x + k) row 0 * nth (x + k) w 0).
Definition lg2 (x : R) : R := ln x / ln 2.
Definition decreasing (l : list R) : Prop := forall i j, (i <= j)%nat -> (j < length l)%nat -> nth j l 0 <= nth i l 0.
(** Distance to the nearest integer, and the rms distance of scaled weights. *)
Definition int_dist (x : R) : R := Rmin (x - IZR (Zfloor x)) (IZR (Zfloor x) + 1 - x).
Definition scale_error (sig : list R) (s : R) : R := sqrt (rsum (length sig) (fun i => int_dist (nth i sig 0 * s) ^ 2) / INR (length sig)).
