(** * Independent specification of noise transfer functions and OSR sweeps. *)
From Verif Require Import Base Cplx.
Local Open Scope R_scope.

(** The value of the polynomial c0 z^(L-1) + ... + c(L-1) on the unit circle, z = exp(j w). *)
Definition on_circle (p : list R) (w : R) : C := csum (length p) (fun i => Cscale (nth i p 0) (cis (INR (length p - 1 - i) * w))).
(** Squared magnitude of num/den at the frequency f (relative to the sampling rate). *)
Definition response (num den : list R) (f : R) : R := Cmod2 (on_circle num (2 * PI * f)) / Cmod2 (on_circle den (2 * PI * f)).
(** The 65536 analysis frequencies from 0 to 1/2, and those strictly inside the band. *)
Definition frequency_point (k : nat) : R := INR k / 131070.
Definition inside (lo hi f : R) : Prop := lo < f < hi.
Definition count_inside (n : nat) (lo hi : R) : R := rsum n (fun k => if Rlt_dec lo (frequency_point k) then if Rlt_dec (frequency_point k) hi then 1 else 0 else 0).
(** The response summed over the points of the band, relative to all points. *)
Definition noise_in_band (n : nat) (num den : list R) (lo hi : R) : R :=
  rsum n (fun k => if Rlt_dec lo (frequency_point k) then if Rlt_dec (frequency_point k) hi then response num den (frequency_point k) else 0 else 0) / INR n.
(** No analysis point of the band is a pole. *)
Definition no_pole (n : nat) (den : list R) (lo hi : R) : Prop :=
  forall k, (k < n)%nat -> inside lo hi (frequency_point k) -> on_circle den (2 * PI * frequency_point k) <> C0.
(** [b] suppresses at least as much as [a] (both finite, or [b] infinite). *)
Definition at_least (a b : xr) : Prop := b = PInf \/ exists x y, a = Fin x /\ b = Fin y /\ x <= y.
(** The mean response over the points of the band: what the in-band noise is relative to NTF = 1 in the same band. *)
Definition mean_response (n : nat) (num den : list R) (lo hi : R) : R :=
  noise_in_band n num den lo hi * INR n / count_inside n lo hi.
(** How many points to each side the slope at a point may look: the requested smoothing (by default the larger of 5
    and a tenth of the curve, rounded), never more than half the curve. *)
Definition reach (n : nat) (smooth : option Z) (h : Z) : Prop :=
  exists s, match smooth with Some r => s = r | None => (5 <= s)%Z /\ (Rabs (INR n / 10 - IZR s) <= 1 / 2 \/ s = 5%Z /\ INR n / 10 <= 11 / 2) end /\
  (h <= s /\ 2 * h <= Z.of_nat n - 1)%Z /\ (h = s \/ Z.of_nat n - 1 <= 2 * h + 1)%Z.
