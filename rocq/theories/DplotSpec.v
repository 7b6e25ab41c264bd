(** * Specification vocabulary for the plots of the digital-output analyses (independent of DplotModel). *)
From Verif Require Import Base DoutSpec.
Local Open Scope R_scope.

(** The bit residue of sample t: value of bits ii..m-1 over their total weight. *)
Definition residue (codes : list (list R)) (w : list R) (m ii t : nat) : R := rest_value (nth t codes []) w ii m / rest_weight w ii m.
(** The samples, in order, whose value is in a class. *)
Definition samples (n : nat) (p : nat -> bool) : list nat := filter p (seq 0 n).
(** Where a bit is drawn: bits are numbered from 1 at the left. *)
Definition place (i : nat) : R := INR i + 1.
(** The bits and their heights as points. *)
Definition bit_points (l : list nat) (h : nat -> R) : list (R * R) := map (fun i => (place i, h i)) l.
(** k+1 leading weights of a descending list are significant: the ratios before are less than 3 and the next one is not. *)
Definition cut_at (s : list R) (k : nat) : Prop :=
  (k < length s)%nat /\ (forall i, (i < k)%nat -> nth i s 0 / nth (S i) s 0 < 3) /\ ((S k < length s)%nat -> 3 <= nth k s 0 / nth (S k) s 0).
(** The column that decides about the colours: column m - ofb, which is the most significant bit for the default; a position
    beyond m wraps around. *)
Definition checked (m : nat) (ofb : option Z) : nat :=
  match ofb with None => 0 | Some b => if (b <=? Z.of_nat m)%Z then m - Z.to_nat b else 2 * m - Z.to_nat b end%nat.
(** All entries are the same. *)
Definition constant_list (l : list R) : Prop := exists c, forall v, In v l -> v = c.
