(** * Property theorems of Fenob: statements only, proofs in FenobProofs.v.
    Generated by tools/mkprops.py from the final lemmas. *)
From Flocq Require Import Core.Core IEEE754.BinarySingleNaN Relative.
From Coq Require Import Psatz Floats.SpecFloat.
From Verif Require Import Base BaseLemmas UnitsModel FltModel FltSpec FltLemmas FltProofs FfreqModel FfreqLemmas FfreqProofs FenobModel.
Local Open Scope R_scope.
From Verif Require Import FenobProofs.

Theorem C176_fin :
  is_finite f1_76 = true /\ Rabs (val f1_76 - 1.76) <= u * 1.77.
Proof. exact c176_fin. Qed.
Print Assumptions C176_fin.

Theorem C602_fin :
  is_finite f6_02 = true /\ Rabs (val f6_02 - 6.02) <= u * 6.03.
Proof. exact c602_fin. Qed.
Print Assumptions C602_fin.

(** A larger ratio never gives fewer bits, and more bits never a smaller ratio: for all doubles, infinities included. *)
Theorem C218_monotone :
  forall x y,
  le_double x y -> le_double (fsnr_to_enob x) (fsnr_to_enob y) /\ le_double (fenob_to_snr x) (fenob_to_snr y).
Proof. exact c218_monotone. Qed.
Print Assumptions C218_monotone.

(** The computed number of bits is within 2^-53 (|x| + 2) of (x - 1.76) / 6.02. *)
Theorem C218_enob :
  forall x,
  is_finite x = true -> Rabs (val x) <= bpow radix2 1000 -> is_finite (fsnr_to_enob x) = true /\ Rabs (val (fsnr_to_enob x) - snr_to_enob (val x)) <= bpow radix2 (-53) * (Rabs (val x) + 2).
Proof. exact c218_enob. Qed.
Print Assumptions C218_enob.

(** The computed ratio is within 2^-53 (19 |e| + 4) of 6.02 e + 1.76. *)
Theorem C218_snr :
  forall e,
  is_finite e = true -> Rabs (val e) <= bpow radix2 1000 -> is_finite (fenob_to_snr e) = true /\ Rabs (val (fenob_to_snr e) - enob_to_snr (val e)) <= bpow radix2 (-53) * (19 * Rabs (val e) + 4).
Proof. exact c218_snr. Qed.
Print Assumptions C218_snr.

(** There and back: within 2^-49 (|x| + 2). *)
Theorem C218_roundtrip :
  forall x,
  is_finite x = true -> Rabs (val x) <= bpow radix2 999 -> Rabs (val (fenob_to_snr (fsnr_to_enob x)) - val x) <= bpow radix2 (-49) * (Rabs (val x) + 2).
Proof. exact c218_roundtrip. Qed.
Print Assumptions C218_roundtrip.

(** Not exact: 7 bits converted to decibels and back are more than 7, and 1 dB comes back as less than 1 dB. *)
Theorem C218_inexact :
  flt (fnum 7 0) (fsnr_to_enob (fenob_to_snr (fnum 7 0))) = true /\ flt (fenob_to_snr (fsnr_to_enob (fnum 1 0))) (fnum 1 0) = true.
Proof. exact c218_inexact. Qed.
Print Assumptions C218_inexact.
