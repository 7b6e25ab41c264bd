(** * Property theorems of Fcap: statements only, proofs in FcapProofs.v.
    Generated by tools/mkprops.py from the final lemmas. *)
From Flocq Require Import Core.Core IEEE754.BinarySingleNaN.
From Coq Require Import Psatz Floats.SpecFloat.
From Verif Require Import Base BaseLemmas CapModel FltModel FltSpec FltLemmas FltProofs FfreqModel FfreqLemmas FfreqProofs FcapModel.
Local Open Scope R_scope.
From Verif Require Import FcapProofs.

(** In double precision, for any finite non-negative capacitances: whenever the total that is returned is finite, every weight is
    a finite double between 0 and 1, one per bit.  Nothing is assumed about intermediate overflow or underflow. *)
Theorem C217_weights :
  forall (cd cb cp w : list fl) (c : fl),
  Forall cap cd -> Forall cap cb -> Forall cap cp -> fconvert_cap cd cb cp = Ok (w, c) -> is_finite c = true ->
  length w = length cd /\ Forall share w /\ cap c.
Proof. exact c217_weights. Qed.
Print Assumptions C217_weights.

(** Without bridges, when all capacitances are whole multiples of one unit and the running total after every stage is a power of two
    (up to 2^53 units), there is no rounding at all: weights and total are those of the exact computation. *)
Theorem C217_exact :
  forall (cd cb cp : list fl) e ks,
  (-1000 <= e <= 900)%Z -> power_totals 0 ks -> Forall2 (fun k x => units e (fst k) x) ks cd -> Forall2 (fun k x => units e (snd k) x) ks cp -> length cb = length cd -> Forall (fun x => is_finite x = true /\ val x <= 0) cb ->
  exists w c, fconvert_cap cd cb cp = Ok (w, c) /\ convert_cap_to_weight (map val cd) (map val cb) (map val cp) = Ok (map val w, val c) /\ is_finite c = true.
Proof. exact c217_exact. Qed.
Print Assumptions C217_exact.

(** Not true in double precision: that the weights never add up to more than one.  Capacitors 1 and 4: the doubles 0.2 and 0.8 add up
    to slightly more than 1. *)
Theorem C217_total_refuted :
  exists cd cb cp a b c, Forall cap cd /\ Forall cap cb /\ Forall cap cp /\ fconvert_cap cd cb cp = Ok ([a; b], c) /\ 1 < val a + val b.
Proof. exact c217_total_refuted. Qed.
Print Assumptions C217_total_refuted.

(** Not true either: that finite capacitances give a usable answer.  Two capacitors of 2^1023: the total overflows, and both weights
    are returned as zero without an error. *)
Theorem C217_overflow_refuted :
  exists cd cb cp a b c, Forall cap cd /\ Forall cap cb /\ Forall cap cp /\ fconvert_cap cd cb cp = Ok ([a; b], c) /\ is_finite c = false /\ (forall x, In x cd -> 0 < val x) /\ val a = 0 /\ val b = 0.
Proof. exact c217_overflow_refuted. Qed.
Print Assumptions C217_overflow_refuted.

(** Arrays of different lengths are refused. *)
Theorem C217_lengths :
  forall (cd cb cp : list fl),
  (length cd <> length cb \/ length cb <> length cp) <-> fconvert_cap cd cb cp = Err ValueError.
Proof. exact c217_lengths. Qed.
Print Assumptions C217_lengths.

(** The 53 bit limit of C128 is sharp.  At 54 bits the ideal weights are still exact, but the trial voltage 1/2 + 2^-54 rounds to 1/2: the input 1/2 gets the last bit set. *)
Theorem C128_limit :
  exists w code, fsar_ideal_weights fold_sum 54 None = Ok w /\ fsar_convert (fun _ => fzero) (fun _ _ => fzero) [fnum 1 (-1)] w [fzero; fone] fzero fzero = Ok [code] /\
  code = bits 54 (2 ^ 53 + 1) /\ Zfloor (val (fnum 1 (-1)) * 2 ^ 54) = (2 ^ 53)%Z.
Proof. exact c128_limit. Qed.
Print Assumptions C128_limit.

(** Nor that the size of the unit does not matter: 2^600 with a bridge of 2^600 gives an infinite total (the product overflows), 1 with a
    bridge of 1 gives 1/2. *)
Theorem C217_unit_refuted :
  (exists w c, fconvert_cap [fnum 1 600] [fnum 1 600] [fzero] = Ok (w, c) /\ is_finite c = false) /\ exists w c, fconvert_cap [fnum 1 0] [fnum 1 0] [fzero] = Ok (w, c) /\ val c = 1 / 2.
Proof. exact c217_unit_refuted. Qed.
Print Assumptions C217_unit_refuted.
