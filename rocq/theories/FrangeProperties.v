(** * Property theorems of Frange: statements only, proofs in FrangeProofs.v.
    Generated by tools/mkprops.py from the final lemmas. *)
From Flocq Require Import Core.Core IEEE754.BinarySingleNaN Relative.
From Coq Require Import Psatz.
From Verif Require Import Base BaseLemmas FltModel FltSpec FltLemmas FltProofs FfreqModel FfreqLemmas FfreqProofs.
Local Open Scope R_scope.
From Verif Require Import FrangeProofs.

(** Up to 51 bits, for every range whose span is a finite double of at least 2^(n - 1022), powers of two or not: every input that is a
    number, infinities included, is quantised to a finite double between v_min and v_max. *)
Theorem C219_range :
  forall n (a b x : fl),
  (n <= 51)%nat -> is_finite a = true -> is_finite b = true -> fle b a = false -> is_finite (fsub b a) = true -> bpow radix2 (Z.of_nat n - 1022) <= val (fsub b a) -> is_nan x = false ->
  is_finite (fquantise n a b x) = true /\ val a <= val (fquantise n a b x) <= val b.
Proof. exact c219_range. Qed.
Print Assumptions C219_range.

(** For an input inside the range the output is at most one step below it, and not above it, up to 2^-50 (|v_min| + |v_max|); the step
    is the computed one. *)
Theorem C219_error :
  forall n (a b x : fl),
  (n <= 51)%nat -> is_finite a = true -> is_finite b = true -> fle b a = false -> is_finite (fsub b a) = true -> bpow radix2 (Z.of_nat n - 1022) <= val (fsub b a) -> is_finite x = true -> val a <= val x <= val b ->
  let step := val (fdiv (fsub b a) (fnum (2 ^ Z.of_nat n) 0)) in let slack := bpow radix2 (-50) * (Rabs (val a) + Rabs (val b)) in
  - slack <= val x - val (fquantise n a b x) <= step + slack.
Proof. exact c219_error. Qed.
Print Assumptions C219_error.

(** A nan stays a nan. *)
Theorem C219_nan :
  forall n (a b : fl),
  is_finite a = true -> is_nan (fquantise n a b B754_nan) = true.
Proof. exact c219_nan. Qed.
Print Assumptions C219_nan.

(** The number of bits matters: with 54 bits on the range (-2.9, 2.0) the top level is above v_max. *)
Theorem C219_limit :
  let a := fdiv (fnum (-29) 0) (fnum 10 0) in let b := fnum 2 0 in fle b a = false /\ is_finite (fsub b a) = true /\ flt b (fquantise 54 a b b) = true.
Proof. exact c219_limit. Qed.
Print Assumptions C219_limit.
