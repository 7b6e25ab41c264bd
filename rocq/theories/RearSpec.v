(** * Independent specification of the binned error statistics and of the AM/PM model. *)
From Verif Require Import Base.
Local Open Scope R_scope.

(** Sum of a quantity over the samples of a class. *)
Definition total_in (N : nat) (member : nat -> bool) (q : nat -> R) : R := rsum N (fun i => if member i then q i else 0).
(** What the statistics of one bin must be. *)
Definition bin_statistics (N : nat) (member : nat -> bool) (e : nat -> R) (count : nat) (mean rms : xr) : Prop :=
  INR count = total_in N member (fun _ => 1) /\
  (count = 0%nat -> mean = NaN /\ rms = NaN) /\
  ((0 < count)%nat -> exists m r, mean = Fin m /\ rms = Fin r /\ INR count * m = total_in N member e /\
     0 <= r /\ INR count * r ^ 2 = total_in N member (fun i => e i ^ 2) /\ Rabs m <= r).
(** Error power of amplitude noise, phase noise and a noise floor at phase phi. *)
Definition am_pm_power (v : R * R * R) (phi : R) : R := let '(am, pm, base) := v in am * cos phi ^ 2 + pm * sin phi ^ 2 + base.
Definition am_of (v : R * R * R) : R := fst (fst v).
Definition pm_of (v : R * R * R) : R := snd (fst v).
Definition base_of (v : R * R * R) : R := snd v.
(** The bins left when a fraction [clip] of them is removed at both ends. *)
Definition inner (n : Z) (clip : R) (k : nat) : bool := ((Zfloor (IZR n * clip) <=? Z.of_nat k) && (Z.of_nat k <=? n - 1 - Zfloor (IZR n * clip)))%Z.
(** Centre k of n values spread evenly over [lo, hi], both ends included. *)
Definition spread (n : Z) (lo hi : R) (k : nat) : R := lo + INR k * ((hi - lo) / IZR (n - 1)).
