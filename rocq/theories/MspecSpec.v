(** * Vocabulary for the MATLAB spectrum analysis (independent of its model). *)
From Verif Require Import Base SpecSpec.
Local Open Scope R_scope.

(** The runs with their means removed, relative to half the full-scale range. *)
Definition centred (fsc : R) (d : list (list R)) : list (list R) :=
  map (fun r => map (fun x => (x - lmean r) / (fsc / 2)) r) d.
(** A matrix of equally long runs, none of them zero throughout. *)
Definition runs_of (N : nat) (d : list (list R)) : Prop :=
  d <> [] /\ forall r, In r d -> length r = N /\ ~ Forall (fun x => x = 0) r.
(** Bin i counts as noise or distortion: not among the first sb bins, not in the tone's window, not in the window of a removed
    harmonic. *)
Definition unwanted_bin (f sb : nat) (gone : list nat) (i : nat) : bool :=
  (sb <=? i)%nat && negb (near f sb i) && forallb (fun h => negb (near h sb i)) gone.
(** Bin i lies in the window of one of the harmonics. *)
Definition in_harmonic (sb : nat) (hs : list nat) (i : nat) : bool := existsb (fun h => near h sb i) hs.
(** A spectrum with its first bin cleared. *)
Definition without_dc (P Q : list R) : Prop :=
  length Q = length P /\ nth 0 Q 0 = 0 /\ forall i, (1 <= i)%nat -> nth i Q 0 = nth i P 0.
(** The one bin (number sb) that only the MATLAB code counts as noise holds nothing, or is not counted either. *)
Definition no_extra (P : list R) (nb f sb : nat) : Prop := sb = O \/ (nb <= sb)%nat \/ near f sb sb = true \/ nth sb P 0 = 0.
(** x is not halfway between two whole numbers. *)
Definition off_half (x : R) : Prop := forall k : Z, x <> IZR k + / 2.
