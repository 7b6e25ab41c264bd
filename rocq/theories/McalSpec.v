(** * Independent specification of the MATLAB weight calibration. *)
From Verif Require Import Base CalModel CalSpec.
Local Open Scope R_scope.

(** As [identifiable], and the record also tells a frequency error apart: no combination of the bits is a tone of this frequency
    plus a multiple of what a small frequency change adds to the true tone. *)
Definition drift_free (bits : mat) (H : nat) (f : R) (w : vec) (off : R) (a b : vec) : Prop :=
  forall u o c s e, (forall t, (t < m_n bits)%nat -> output bits u t = tone H o c s f t +
      e * (INR t * rsum H (fun h => INR (S h) * (b h * cos (2 * PI * f * (INR t * INR (S h))) - a h * sin (2 * PI * f * (INR t * INR (S h))))))) ->
  exists k, (forall j, (j < m_m bits)%nat -> u j = k * w j) /\ o = k * off /\
            (forall h, (h < H)%nat -> c h = k * a h) /\ (forall h, (h < H)%nat -> s h = k * b h) /\ e = 0.
(** No combination of the bits is a tone of this frequency without cosine, or without sine, in its fundamental. *)
Definition separable (bits : mat) (H : nat) (f : R) : Prop :=
  forall u o c s, (forall t, (t < m_n bits)%nat -> output bits u t = tone H o c s f t) -> c 0%nat = 0 \/ s 0%nat = 0 ->
  (forall j, (j < m_m bits)%nat -> u j = 0) /\ o = 0 /\ (forall h, (h < H)%nat -> c h = 0) /\ (forall h, (h < H)%nat -> s h = 0).
(** Several records of one converter, each with its own frequency and tone; data set k has the tone (a k, b k). *)
Definition true_weights_all (l : list mat) (H : nat) (f : list R) (w : vec) (off : R) (a b : nat -> vec) : Prop :=
  forall k t, (k < length l)%nat -> (t < m_n (nth k l (ones 0)))%nat -> output (nth k l (ones 0)) w t = tone H off (a k) (b k) (nth k f 0) t.
Definition identifiable_all (l : list mat) (m H : nat) (f : list R) (w : vec) (off : R) (a b : nat -> vec) : Prop :=
  forall u o c s, true_weights_all l H f u o c s ->
  exists k, (forall j, (j < m)%nat -> u j = k * w j) /\ o = k * off /\
            (forall d h, (d < length l)%nat -> (h < H)%nat -> c d h = k * a d h /\ s d h = k * b d h).
(** The frequencies f of the data sets are given as a list or, when all are the same, once. *)
Definition each_given (l : list mat) (freq0 f : list R) : Prop := length f = length l /\ (freq0 = f \/ exists g, freq0 = [g] /\ f = repeat g (length l)).
