(** * Specification vocabulary for the spectrum analysis (independent of SpecModel). *)
From Verif Require Import Base.
From Coq Require Import Permutation.
Local Open Scope R_scope.

(** Power of the bins i < n selected by [sel]. *)
Definition selected_power (n : nat) (sel : nat -> bool) (P : list R) : R :=
  rsum n (fun i => if sel i then nth i P 0 else 0).
(** Bin i lies in the window of half-width sb around bin c. *)
Definition near (c sb i : nat) : bool := ((c <=? i + sb) && (i <=? c + sb))%nat.
(** Bin i lies in the DC window. *)
Definition near_dc (sb i : nat) : bool := (i <=? sb)%nat.
(** Order on float values: finite below +inf. *)
Definition xle (x y : xr) : Prop :=
  match x, y with Fin a, Fin b => a <= b | Fin _, PInf => True | _, _ => False end.
(** A harmonic window [h-sb, h+sb] and the fundamental window [f-sb, f+sb]. *)
Definition nearZ (h : Z) (sb i : nat) : bool :=
  (Z.abs (Z.of_nat i - h) <=? Z.of_nat sb)%Z.
(** The harmonics that count: clear of the fundamental by more than two half-widths and
    centred outside the DC window. *)
Definition clear_of (f sb : nat) (h : Z) : bool :=
  ((2 * Z.of_nat sb <? Z.abs (h - Z.of_nat f)) && (Z.of_nat sb <? h))%Z.
(** Bin i belongs to neither the DC window nor the fundamental window. *)
Definition outside (f sb i : nat) : bool := negb (near_dc sb i) && negb (near f sb i).
Definition rowmax (l : list R) (m : R) : Prop := In m l /\ forall x, In x l -> x <= m.
Definition rowmin (l : list R) (m : R) : Prop := In m l /\ forall x, In x l -> m <= x.
(** Bin i is left over for the wide-exclusion method: outside both windows and outside the
    window of every in-band harmonic. *)
Definition left_over (f sb nb : nat) (hs : list Z) (i : nat) : bool :=
  outside f sb i && forallb (fun h => negb ((1 <=? h)%Z && (h <? Z.of_nat nb)%Z && nearZ h sb i)) hs.
(** The bins methods 1 and 2 use: the non-negligible ones outside both windows, or the whole
    zeroed band if there are none. *)
Definition used_bins (P : list R) (nb f sb : nat) (u : list R) : Prop :=
  let band := map (fun i => if outside f sb i then nth i P 0 else 0) (seq 0 nb) in
  let big := filter (fun x => Rltb (/ 10 ^ 20) (Rabs x)) band in
  (big <> [] /\ Permutation u big) \/ (big = [] /\ Permutation u band).
