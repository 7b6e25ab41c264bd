(** * Bit-exact binary64 model of adctoolbox/fundamentals/convert_cap_to_weight.py
    The same function as in CapModel.v with every operation rounded as numpy rounds it.  nan payloads are not represented, and the
    RuntimeWarnings numpy prints on overflow or on inf / inf are not modelled. *)
From Flocq Require Import Core.Zaux IEEE754.BinarySingleNaN.
From Verif Require Import Base CapModel FltModel.

(** x == y on doubles (false as soon as one of them is nan). *)
Definition feq (x y : fl) : bool := fle x y && fle y x.
(** convert_cap_to_weight.py 56-85: one pass of the loop; [weights] are the weights of the lower bits. *)
Definition fcap_step (st : list fl * fl) (c : fl * fl * fl) : list fl * fl :=
  let '(weights, c_load) := st in
  let '(cd, cb, cp) := c in
  let c_node_total := fadd (fadd cd cp) c_load in                             (* l.58 *)
  if feq c_node_total fzero then (weights ++ [fzero], c_load)                 (* l.60-62 *)
  else
    let attenuation_factor := fdiv c_load c_node_total in                     (* l.66 *)
    (map (fun w => fmul w attenuation_factor) weights ++ [fdiv cd c_node_total],   (* l.70, 74 *)
     if flt fzero cb then fdiv (fmul cb c_node_total) (fadd cb c_node_total)  (* l.78-81 *)
     else c_node_total).                                                      (* l.85 *)
(** convert_cap_to_weight.py 40-87 *)
Definition fconvert_cap (caps_bit caps_bridge caps_parasitic : list fl) : result (list fl * fl) :=
  if negb ((length caps_bit =? length caps_bridge) && (length caps_bridge =? length caps_parasitic))%nat then Err ValueError
  else Ok (fold_left fcap_step (combine (combine caps_bit caps_bridge) caps_parasitic) ([], fzero)).
