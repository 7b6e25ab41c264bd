(** * Model of adctoolbox/fundamentals/convert_cap_to_weight.py *)
From Verif Require Import Base.
Local Open Scope R_scope.

(** convert_cap_to_weight.py 56-85: one pass of the LSB-to-MSB loop.  [weights] is the
    prefix weights[:i] already written (the rest of np.zeros(n) is still zero), so
    [continue] leaves the zero of l.50 at position i. *)
Definition cap_step (st : list R * R) (c : R * R * R) : list R * R :=
  let '(weights, c_load) := st in
  let '(cd, cb, cp) := c in
  let c_node := cd + cp + c_load in                              (* l.58 *)
  if Reqb c_node 0 then (weights ++ [0], c_load)                 (* l.60-62 *)
  else
    let att := c_load / c_node in                                (* l.66 *)
    (map (fun w => w * att) weights ++ [cd / c_node],            (* l.70, 74 *)
     if Rltb 0 cb then cb * c_node / (cb + c_node) else c_node). (* l.78-85 *)

(** convert_cap_to_weight.py 40-87. Arrays of finite floats. *)
Definition convert_cap_to_weight (caps_bit caps_bridge caps_parasitic : list R)
    : result (list R * R) :=
  if negb ((length caps_bit =? length caps_bridge)
           && (length caps_bridge =? length caps_parasitic))%nat
  then Err ValueError                                            (* l.44-47 *)
  else Ok (fold_left cap_step (combine (combine caps_bit caps_bridge) caps_parasitic) ([], 0)).
