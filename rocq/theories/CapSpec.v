(** * Specification vocabulary for the capacitor network (independent of CapModel). *)
From Verif Require Import Base.
Local Open Scope R_scope.

Definition nonneg_list (l : list R) : Prop := forall i, (i < length l)%nat -> 0 <= nth i l 0.
Definition sum_list (l : list R) : R := rsum (length l) (fun i => nth i l 0).

(** Electrostatics of the split array.  Node i carries bit capacitor cd_i to the bit
    voltage b_i, parasitic cp_i to ground, and is linked to node i+1 by the bridge cb_i
    (a short when cb_i is not positive).  [v i] is the node voltage, [q i] the charge that
    has moved from node i to node i+1 starting from a discharged network; nothing enters
    below node 0 and nothing leaves above the top node. *)
Definition network_solution (cd cb cp b : list R) (v q : nat -> R) : Prop :=
  let n := length cd in
  (forall i, (i < n)%nat ->
     nth i cd 0 * (v i - nth i b 0) + nth i cp 0 * v i
       = (match i with O => 0 | S k => q k end) - q i) /\
  (forall i, (S i < n)%nat ->
     if Rlt_dec 0 (nth i cb 0) then q i = nth i cb 0 * (v i - v (S i)) else v i = v (S i)) /\
  q (n - 1)%nat = 0.
