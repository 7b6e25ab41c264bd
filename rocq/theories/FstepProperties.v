(** * Property theorems of Fstep: statements only, proofs in FstepProofs.v.
    Generated by tools/mkprops.py from the final lemmas. *)
From Flocq Require Import Core.Core IEEE754.BinarySingleNaN Mult_error.
From Coq Require Import Psatz.
From Verif Require Import Base BaseLemmas SiggenModel FltModel FltSpec FltLemmas FltProofs FfreqModel FfreqLemmas FfreqProofs FstepModel.
Local Open Scope R_scope.
From Verif Require Import FstepProofs.

(** The coarse code is exact for every sample. *)
Theorem C211_coarse :
  forall (x : fl) m,
  is_finite x = true -> Rabs (val x) <= bpow radix2 200 -> (m <= 100)%nat -> is_finite (fcoarse m x) = true /\ val (fcoarse m x) = IZR (Zfloor (val x * 2 ^ m)) / 2 ^ m.
Proof. exact c211_coarse. Qed.
Print Assumptions C211_coarse.

(** So is the fine code, unless the sample is negative and smaller than half a coarse step. *)
Theorem C211_fine :
  forall (x : fl) m l,
  is_finite x = true -> Rabs (val x) <= bpow radix2 200 -> (m <= 100)%nat -> (l <= 100)%nat -> 0 <= val x \/ val x <= - (/ 2 / 2 ^ m) ->
  is_finite (ffine m l x) = true /\ val (ffine m l x) = IZR (Zfloor ((val x - val (fcoarse m x)) * 2 ^ l)) / 2 ^ l.
Proof. exact c211_fine. Qed.
Print Assumptions C211_fine.

(** Coarse and fine code then add up, without rounding, to the code of one quantiser of all bits. *)
Theorem C211_quantiser :
  forall (x : fl) m l,
  is_finite x = true -> Rabs (val x) <= bpow radix2 200 -> (m <= l <= 100)%nat -> 0 <= val x \/ val x <= - (/ 2 / 2 ^ m) ->
  is_finite (fadd (fcoarse m x) (ffine m l x)) = true /\ val (fadd (fcoarse m x) (ffine m l x)) = IZR (Zfloor (val x * 2 ^ l)) / 2 ^ l.
Proof. exact c211_quantiser. Qed.
Print Assumptions C211_quantiser.

(** The memory effect rounds twice only: the product and the sum. *)
Theorem C211_memory :
  forall (s x prev : fl),
  is_finite x = true -> is_finite prev = true -> is_finite s = true -> Rabs (val x) <= bpow radix2 200 -> Rabs (val prev) <= bpow radix2 200 -> Rabs (val s) <= bpow radix2 200 -> 0 <= val x \/ val x <= - (1 / 32) ->
  is_finite (fmemory s x prev) = true /\ val (fmemory s x prev) = rnd (IZR (Zfloor (val x * 4096)) / 4096 + rnd (val s * (IZR (Zfloor (val prev * 16)) / 16))).
Proof. exact c211_memory. Qed.
Print Assumptions C211_memory.

(** Any gain and offset: the offset is taken off and put back, the gain multiplies one path; four roundings. *)
Theorem C211_gain :
  forall (signal dc g : fl) m l,
  is_finite signal = true -> is_finite dc = true -> is_finite g = true -> Rabs (val signal) <= bpow radix2 199 -> Rabs (val dc) <= bpow radix2 199 -> Rabs (val g) <= bpow radix2 200 -> (m <= 100)%nat -> (l <= 100)%nat ->
  let v := rnd (val signal - val dc) in 0 <= v \/ v <= - (/ 2 / 2 ^ m) ->
  let c := IZR (Zfloor (v * 2 ^ m)) / 2 ^ m in let f := IZR (Zfloor ((v - c) * 2 ^ l)) / 2 ^ l in
  (exists y, fgain dc g m l CoarsePath signal = Ok y /\ val y = rnd (rnd (rnd (c * val g) + f) + val dc)) /\
  (exists y, fgain dc g m l ResiduePath signal = Ok y /\ val y = rnd (rnd (c + rnd (f * val g)) + val dc)).
Proof. exact c211_gain. Qed.
Print Assumptions C211_gain.

(** With relative gain 1 and no offset both modes are that quantiser; a mode that is neither is refused. *)
Theorem C211_unit_gain :
  forall (x : fl) m l mode,
  is_finite x = true -> Rabs (val x) <= bpow radix2 200 -> (m <= l <= 100)%nat -> 0 <= val x \/ val x <= - (/ 2 / 2 ^ m) ->
  match mode with
  | OtherMode => fgain fzero (fnum 1 0) m l mode x = Err ValueError
  | _ => exists y, fgain fzero (fnum 1 0) m l mode x = Ok y /\ val y = IZR (Zfloor (val x * 2 ^ l)) / 2 ^ l
  end.
Proof. exact c211_unit_gain. Qed.
Print Assumptions C211_unit_gain.

(** A small negative sample is quantised to 0 instead of one step below: the difference to the coarse code rounds to a full step. *)
Theorem C211_tiny_refuted :
  exists x : fl, is_finite x = true /\ val x = - bpow radix2 (-100) /\ val (fadd (fcoarse 4 x) (ffine 4 12 x)) = 0 /\ Zfloor (val x * 4096) = (-1)%Z.
Proof. exact c211_tiny_refuted. Qed.
Print Assumptions C211_tiny_refuted.
