(** * Specification vocabulary for the brick-wall filter (independent of BandModel). *)
From Verif Require Import Base.
Local Open Scope R_scope.

(** Some band, with its edges rounded to bins, contains bin k. *)
Definition covered (N : nat) (bands : list (R * R)) (k : nat) : Prop :=
  exists lo hi, (In (lo, hi) bands \/ In (hi, lo) bands) /\ lo <= hi /\
    (round_he (lo * INR N) <= Z.of_nat k <= round_he (hi * INR N))%Z.
Definition good_bands (bands : list (R * R)) : Prop := forall b, In b bands -> 0 <= fst b <= 0.5 /\ 0 <= snd b <= 0.5.
(** The conjugate bin. *)
Definition mirror (N k : nat) : nat := if (k =? 0)%nat then O else (N - k)%nat.
