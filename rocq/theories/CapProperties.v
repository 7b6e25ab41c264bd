(** * Property theorems of Cap: statements only, proofs in CapProofs.v.
    Generated by tools/mkprops.py from the final lemmas. *)
From Verif Require Import Base BaseLemmas CapModel CapSpec.
From Coq Require Import Psatz.
Local Open Scope R_scope.
From Verif Require Import CapProofs.

(** Non-negative weights, total at most one, non-negative total capacitance; exactly one
    when there is no parasitic capacitance. *)
Theorem C08_conservation :
  forall cd cb cp,
  length cb = length cd -> length cp = length cd -> nonneg_list cd -> nonneg_list cp ->
  exists w c, convert_cap_to_weight cd cb cp = Ok (w, c) /\ length w = length cd /\
    nonneg_list w /\ sum_list w <= 1 /\ 0 <= c /\
    ((forall i, (i < length cp)%nat -> nth i cp 0 = 0) -> 0 < c -> sum_list w = 1).
Proof. exact c08_conservation. Qed.
Print Assumptions C08_conservation.

(** The returned weights are what electrostatics gives: for every choice of bit voltages
    and every solution of the charge equations, the top node sits at the weighted sum. *)
Theorem C08_electrostatics :
  forall cd cb cp b v q w c,
  length cb = length cd -> length cp = length cd -> length b = length cd ->
  nonneg_list cd -> nonneg_list cp ->
  convert_cap_to_weight cd cb cp = Ok (w, c) -> 0 < c ->
  network_solution cd cb cp b v q ->
  v (length cd - 1)%nat = rsum (length cd) (fun i => nth i w 0 * nth i b 0).
Proof. exact c08_electrostatics. Qed.
Print Assumptions C08_electrostatics.

Theorem C09_no_bridge :
  forall cd cb cp,
  length cb = length cd -> length cp = length cd -> nonneg_list cd -> nonneg_list cp ->
  (forall i, (i < length cb)%nat -> nth i cb 0 <= 0) ->
  exists w c, convert_cap_to_weight cd cb cp = Ok (w, c) /\ length w = length cd /\
    c = sum_list cd + sum_list cp /\
    forall i, (i < length cd)%nat ->
      (0 < c -> nth i w 0 = nth i cd 0 / (sum_list cd + sum_list cp)) /\ (c = 0 -> nth i w 0 = 0).
Proof. exact c09_no_bridge. Qed.
Print Assumptions C09_no_bridge.

Theorem C09_scale :
  forall cd cb cp k w c,
  0 < k -> length cb = length cd -> length cp = length cd -> nonneg_list cd -> nonneg_list cp ->
  convert_cap_to_weight cd cb cp = Ok (w, c) ->
  convert_cap_to_weight (map (Rmult k) cd) (map (Rmult k) cb) (map (Rmult k) cp) = Ok (w, k * c).
Proof. exact c09_scale. Qed.
Print Assumptions C09_scale.

Theorem C09_length_mismatch :
  forall cd cb cp,
  ~ (length cd = length cb /\ length cb = length cp) <->
  convert_cap_to_weight cd cb cp = Err ValueError.
Proof. exact c09_length_mismatch. Qed.
Print Assumptions C09_length_mismatch.

(** Two-bit array with one bridge: hypotheses met, and a solution of the charge equations
    in which the LSB bridge divides its contribution. *)
Example C08_network_ex :
  convert_cap_to_weight [1; 1] [1; 0] [1; 0] = Ok ([1/2 * ((2/3) / (5/3)); 1 / (5/3)], 5/3) /\
  network_solution [1; 1] [1; 0] [1; 0] [1; 0] (fun i => match i with O => 2/5 | _ => 1/5 end)
    (fun i => match i with O => 1/5 | _ => 0 end).
Proof. exact c08_network_ex. Qed.
