(** * Independent specification of envelopes and error spectra. *)
From Verif Require Import Base Cplx.
Local Open Scope R_scope.

(** The complex sum of rotating phasors c + sum of A i exp(j(2 pi J i n / N + ph i)). *)
Definition phasors (N H : nat) (c : R) (A ph : nat -> R) (J : nat -> nat) (n : nat) : C :=
  Cplus (RtoC c) (csum H (fun i => Cscale (A i) (cis (2 * PI * INR (J i) * INR n / INR N + ph i)))).
(** The modulating function 1 + m cos(2 pi q n / N + th) and the modulated carrier of k periods. *)
Definition modulation (N : nat) (m : R) (q : nat) (th : R) (n : nat) : R := 1 + m * cos (2 * PI * INR q * INR n / INR N + th).
Definition carrier (N : nat) (A : R) (k : nat) (ph : R) (n : nat) : R := A * cos (2 * PI * INR k * INR n / INR N + ph).
Definition modulated (N : nat) (A m : R) (k q : nat) (ph th : R) (n : nat) : R := modulation N m q th n * carrier N A k ph n.
(** The record of length N with the samples g 0, g 1, ... *)
Definition record (N : nat) (g : nat -> R) : list R := map g (seq 0 N).
(** The DFT coefficient of a record, written out. *)
Definition coefficient (x : list R) (b : nat) : C :=
  csum (length x) (fun n => Cscale (nth n x 0) (cis (- (2 * PI * INR b * INR n / INR (length x))))).
