(** * Bit-exact binary64 model of snr_to_enob and enob_to_snr of adctoolbox/fundamentals/units.py
    The same functions as in UnitsModel.v with every operation rounded.  nan payloads are not represented. *)
From Flocq Require Import Core.Zaux IEEE754.BinarySingleNaN.
From Verif Require Import Base FltModel.

(** The literals 1.76 and 6.02 of units.py 41, 45: the doubles nearest to them (a correctly rounded quotient of two integers is one). *)
Definition f1_76 : fl := fdiv (fnum 176 0) (fnum 100 0).
Definition f6_02 : fl := fdiv (fnum 602 0) (fnum 100 0).
(** units.py 39-41 *)
Definition fsnr_to_enob (snr_db : fl) : fl := fdiv (fsub snr_db f1_76) f6_02.
(** units.py 43-45 *)
Definition fenob_to_snr (enob : fl) : fl := fadd (fmul enob f6_02) f1_76.
