(** * Independent specification of the error autocorrelation. *)
From Verif Require Import Base.
Local Open Scope R_scope.

(** deviation of sample i from the mean *)
Definition deviation (e : list R) (i : nat) : R := nth i e 0 - rsum (length e) (fun j => nth j e 0) / INR (length e).
(** average over the overlapping samples of the product of deviations at distance k *)
Definition autocov (e : list R) (k : nat) : R := rsum (length e - k) (fun i => deviation e i * deviation e (i + k)) / INR (length e - k).
(** the conventional (biased) estimate divides by the record length *)
Definition autocov_biased (e : list R) (k : nat) : R := rsum (length e - k) (fun i => deviation e i * deviation e (i + k)) / INR (length e).
Definition not_constant (e : list R) : Prop := exists i j, (i < length e)%nat /\ (j < length e)%nat /\ nth i e 0 <> nth j e 0.
