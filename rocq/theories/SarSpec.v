(** * Specification vocabulary for the SAR converter (independent of SarModel). *)
From Verif Require Import Base.
Local Open Scope R_scope.

(** Sum of the weights at positions >= j. *)
Definition tail_sum (w : list R) (j : nat) : R :=
  rsum (length w - j) (fun k => nth (j + k) w 0).
Definition total (w : list R) : R := rsum (length w) (fun k => nth k w 0).
Definition nonneg (w : list R) : Prop := forall j, (j < length w)%nat -> 0 <= nth j w 0.
Definition positive (w : list R) : Prop := forall j, (j < length w)%nat -> 0 < nth j w 0.

(** Every weight is at most the sum of the later weights plus [d]. *)
Definition covering (w : list R) (d : R) : Prop :=
  forall j, (j < length w)%nat -> nth j w 0 <= tail_sum w (S j) + d.

(** Slack of stage j: how much too low its decision may be and still be repaired. *)
Definition slack (w : list R) (d : R) (j : nat) : R := tail_sum w (S j) + d - nth j w 0.

(** Value of a code word under weights w. *)
Definition code_value (c : list Z) (w : list R) : R :=
  rsum (length w) (fun j => IZR (nth j c 0%Z) * nth j w 0).

(** Lexicographic order on code words (MSB first). *)
Inductive lex_le : list Z -> list Z -> Prop :=
| lex_nil : forall c, lex_le nil c
| lex_lt : forall a b c d, (a < b)%Z -> lex_le (a :: c) (b :: d)
| lex_eq : forall a c d, lex_le c d -> lex_le (a :: c) (a :: d).

Definition is_code (B : nat) (c : list Z) : Prop :=
  length c = B /\ (forall b, In b c -> b = 0%Z \/ b = 1%Z).

(** Pairwise relation between input samples and output samples. *)
Definition samplewise (P : R -> R -> Prop) (xs ys : list R) : Prop :=
  length xs = length ys /\ forall i, (i < length xs)%nat -> P (nth i xs 0) (nth i ys 0).

(** A finite, strictly positive float. *)
Definition posfin (x : xr) : Prop := exists r, x = Fin r /\ 0 < r.
(** Inputs that the documentation of sar_apply_cap_mismatch calls invalid. *)
Definition bad_mismatch_input (weights : list xr) (sigma : xr) (cap_units : option (list xr)) : Prop :=
  weights = [] \/ (exists x, In x weights /\ ~ posfin x) \/
  ~ (exists s, sigma = Fin s /\ 0 <= s) \/
  (exists u, cap_units = Some u /\ (length u <> length weights \/ exists x, In x u /\ ~ posfin x)).
