(** * Specification vocabulary for the signal generator (independent of SiggenModel). *)
From Verif Require Import Base.
From Coq Require Import Reals.Binomial.
Local Open Scope R_scope.

(** Step of an n-bit quantiser. *)
Definition lsb_of (n : nat) (v_min v_max : R) : R := (v_max - v_min) / 2 ^ n.
(** One-sample delay with zero initial state, first difference and running sum. *)
Definition delayed (f : nat -> R) (n : nat) : R := match n with O => 0 | S m => f m end.
Definition difference (f : nat -> R) (n : nat) : R := f n - delayed f n.
Definition running_sum (f : nat -> R) (n : nat) : R := rsum (S n) f.
(** Coefficient k of (1 - z^-1)^L. *)
Definition binomial_ntf (L k : nat) : R := (-1) ^ k * C L k.
(** sum_k b_k x[n-k] over the samples that exist. *)
Definition convolve (b x : list R) (n : nat) : R :=
  rsum (length b) (fun k => if (k <=? n)%nat then nth k b 0 * nth (n - k) x 0 else 0).
(** Amplitude ratio of a level in dB; absent means zero. *)
Definition ratio (db : option R) : R := match db with None => 0 | Some v => Rpower 10 (v / 20) end.
(** Number of samples strictly below / above a threshold. *)
Definition below (t : R) (l : list R) : nat := length (filter (fun x => Rltb x t) l).
Definition above (t : R) (l : list R) : nat := length (filter (fun x => Rltb t x) l).
(** Sample-by-sample difference of two records. *)
Definition out_minus_in (x y : list R) : list R := map2 (fun p q => q - p) x y.
