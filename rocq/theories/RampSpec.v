(** * Specification vocabulary for ramp INL/DNL (RampModel is used only for the
    type of the endpoint option). *)
From Verif Require Import Base RampModel.
Local Open Scope R_scope.

(** Number of samples equal to code c. *)
Definition occurrences (c : Z) (codes : list xr) : nat :=
  length (filter (fun x => match x with Fin r => Reqb r (IZR c) | _ => false end) codes).
(** All samples are integer codes. *)
Definition integer_codes (codes : list xr) : Prop := forall x, In x codes -> exists z, x = Fin (IZR z).
(** The first and last analysed code. *)
Definition analysed (exclude : bool) (cmin cmax lo hi : Z) : Prop :=
  if (exclude && (2 <=? cmax - cmin)%Z)%bool then lo = (cmin + 1)%Z /\ hi = (cmax - 1)%Z else lo = cmin /\ hi = cmax.
(** The upper code limit in force. *)
Definition upper_limit (codes : list xr) (num_bits : option Z) (cmin : Z) (code_max : option Z) (m : Z) : Prop :=
  match code_max, num_bits with
  | Some v, _ => m = v
  | None, Some b => m = (cmin + 2 ^ b - 1)%Z
  | None, None => In (Fin (IZR m)) codes /\ forall z, In (Fin (IZR z)) codes -> (z <= m)%Z
  end.
(** A quantiser: code c is output exactly for inputs in [T c, T (c+1)). *)
Definition ramp_sample (v0 step : R) (i : nat) : R := v0 + INR i * step.
(** A converter with non-decreasing transition levels T on the analysed codes, driven by a rising
    uniform ramp that starts at or below T lo and runs past T (hi+1). *)
Definition ideal_setup (T : Z -> R) v0 step n (f : nat -> Z) lo hi : Prop :=
  0 < step /\ v0 <= T lo /\ T (hi + 1)%Z <= v0 + INR n * step /\ T lo < T (hi + 1)%Z /\
  (forall c, (lo <= c <= hi)%Z -> T c <= T (c + 1)%Z) /\
  (forall i c, (i < n)%nat -> (lo <= c <= hi)%Z -> f i = c <-> T c <= ramp_sample v0 step i < T (c + 1)%Z).
(** Arguments for which a result is promised. *)
Definition ramp_valid codes nb cmin cm ep ex : Prop :=
  match nb with Some b => (0 < b)%Z | None => True end /\ codes <> [] /\ integer_codes codes /\ ep <> EpOther /\
  exists m lo hi, upper_limit codes nb cmin cm m /\ (cmin <= m)%Z /\
    (forall z, In (Fin (IZR z)) codes -> (cmin <= z <= m)%Z) /\ analysed ex cmin m lo hi /\
    exists z, In (Fin (IZR z)) codes /\ (lo <= z <= hi)%Z.
