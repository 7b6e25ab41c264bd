(** * Specification vocabulary for the remaining MATLAB functions. *)
From Verif Require Import Base MgenModel SiggenModel.
From Coq Require Import Permutation.
Local Open Scope R_scope.

(** The same noise transfer function as given to MATLAB and to Python. *)
Definition same_ntf (m : m_ntf) (p : ntf_arg) : Prop :=
  match p with
  | NtfNone => m = MNum [] \/ m = MCell []
  | NtfFir num => num <> [] /\ (m = MNum num \/ m = MStruct (Some num) None)
  | NtfIir num den => num <> [] /\ (m = MCell [num; den] \/ m = MStruct (Some num) (Some den))
  end.
(** Options noiseshape accepts (the NTF aside). *)
Definition ns_valid (o : ns_opts) : Prop :=
  (0 < o_N o)%Z /\ 0 < o_Fs o /\ 0 < o_Fin o /\ (0 < o_bits o)%Z /\ o_lo o < o_hi o /\ (1 <= o_order o <= 5)%Z.
(** The transfer function num/den that is meant. *)
Definition ntf_means (m : m_ntf) (order : nat) (num den : list R) : Prop :=
  match m with
  | MNum [] | MCell [] => length num = S order /\ (forall x, rsum (S order) (fun k => nth k num 0 * x ^ k) = (1 - x) ^ order) /\ den = [1]
  | MNum l => num = l /\ den = [1]
  | MCell l => l = [num; den]
  | MStruct n d => n = Some num /\ match d with Some d => den = d | None => den = [1] end
  | MOther => False
  end.
(** The signal noiseshape works on. *)
Definition ns_signal (sigin : option (list R)) (o : ns_opts) (x : list R) : Prop :=
  match sigin with
  | Some (v :: l) => x = v :: l
  | _ => length x = Z.to_nat (o_N o) /\ forall t, (t < length x)%nat -> nth t x 0 = o_A o * sin (2 * PI * (o_Fin o / o_Fs o) * INR t) + o_DC o
  end.
(** [s] is [l] in decreasing order and [sig] its significant part: down to the first step by a factor of three or more. *)
Definition significant_of (l s sig : list R) : Prop :=
  Permutation l s /\ (forall i j, (i <= j < length s)%nat -> nth j s 0 <= nth i s 0) /\ sig = firstn (length sig) s /\ (1 <= length sig <= length s)%nat /\
  (forall i, (S i < length sig)%nat -> nth i s 0 / nth (S i) s 0 < 3) /\ ((length sig < length s)%nat -> 3 <= nth (length sig - 1) s 0 / nth (length sig) s 0).
