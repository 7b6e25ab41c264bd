(** * Property theorems of Env: statements only, proofs in EnvProofs.v.
    Generated by tools/mkprops.py from the final lemmas. *)
From Verif Require Import Base BaseLemmas Cplx SpecModel TiModel CalModel CalSpec CalProofs FitModel FitSpec FitProofs EnvModel EnvSpec SpecToneSpec CohLemmas TiProofs CohProofs RearProofs EplaneProofs SpecToneProofs SpecLemmas TiSpec SpecPrepProofs SpecMetricProofs SpecProofs.
Local Open Scope R_scope.
From Verif Require Import EnvProofs.

(** The real part of the analytic signal is the record itself, for every real record. *)
Theorem C118_real_part :
  forall x n,
  (n < length x)%nat -> Re (analytic x n) = nth n x 0.
Proof. exact c118_real_part. Qed.
Print Assumptions C118_real_part.

(** So the envelope is never below the magnitude of the record; it fails only for an empty record. *)
Theorem C118_dominates :
  forall x,
  (x = [] /\ envelope x = Err ValueError) \/
  exists e, envelope x = Ok e /\ length e = length x /\ forall n, (n < length x)%nat -> Rabs (nth n x 0) <= nth n e 0.
Proof. exact c118_dominates. Qed.
Print Assumptions C118_dominates.

(** A gain multiplies the envelope by its magnitude (and a sign change leaves it alone). *)
Theorem C118_gain :
  forall x c e,
  envelope x = Ok e -> envelope (map (fun v => c * v) x) = Ok (map (fun v => Rabs c * v) e).
Proof. exact c118_gain. Qed.
Print Assumptions C118_gain.

(** For a constant plus any number of coherent tones strictly between DC and half the sampling rate the envelope is
    the magnitude of the sum of the corresponding phasors. *)
Theorem C118_tones :
  forall N H c A ph J e,
  (0 < N)%nat -> (forall i, (i < H)%nat -> (0 < J i)%nat /\ (2 * J i < N)%nat) ->
  envelope (record N (multitone N H c A ph J)) = Ok e -> forall n, (n < N)%nat -> nth n e 0 = Cmod (phasors N H c A ph J n).
Proof. exact c118_tones. Qed.
Print Assumptions C118_tones.

(** A pure tone has the constant envelope |A|. *)
Theorem C118_pure_tone :
  forall N k A ph e,
  (0 < k)%nat -> (2 * k < N)%nat -> envelope (record N (carrier N A k ph)) = Ok e -> e = repeat (Rabs A) N.
Proof. exact c118_pure_tone. Qed.
Print Assumptions C118_pure_tone.

Theorem C118_modulation :
  forall N A m k q ph th e,
  (q < k)%nat -> (2 * (k + q) < N)%nat -> envelope (record N (modulated N A m k q ph th)) = Ok e ->
  forall n, (n < N)%nat -> nth n e 0 = Rabs A * Rabs (modulation N m q th n).
Proof. exact c118_modulation. Qed.
Print Assumptions C118_modulation.

Theorem C118_energy :
  forall x e,
  envelope x = Ok e -> let N := length x in
  rsum N (fun n => nth n e 0 ^ 2) = 2 * rsum N (fun n => nth n x 0 ^ 2) - rsum N (fun n => nth n x 0) ^ 2 / INR N
    - (if Nat.even N then rsum N (fun n => (-1) ^ n * nth n x 0) ^ 2 / INR N else 0).
Proof. exact c118_energy. Qed.
Print Assumptions C118_energy.

(** Without refinement (max_iterations = 0) the error spectrum does not see a sine of the given frequency or a
    constant added to the record, whatever their size. *)
Theorem C119_invariant :
  forall kz cz lstsq y fs f tol A ph off,
  least_squares lstsq ->
  error_spectrum kz cz lstsq (record (length y) (fun t => nth t y 0 + sine A f ph off t)) fs (Some f) 0 tol = error_spectrum kz cz lstsq y fs (Some f) 0 tol /\
  error_envelope_spectrum kz cz lstsq (record (length y) (fun t => nth t y 0 + sine A f ph off t)) fs (Some f) 0 tol = error_envelope_spectrum kz cz lstsq y fs (Some f) 0 tol.
Proof. exact c119_invariant. Qed.
Print Assumptions C119_invariant.

(** Scaling the record and adding a sine of the given frequency to it scales the error and leaves every reported
    figure unchanged: the figures are relative to the error's own peak, so they are blind to the size of the error. *)
Theorem C119_level :
  forall kz cz lstsq y fs f tol a A ph off,
  least_squares lstsq -> 0 < a ->
  error_spectrum kz cz lstsq (record (length y) (fun t => a * nth t y 0 + sine A f ph off t)) fs (Some f) 0 tol =
    bind (error_spectrum kz cz lstsq y fs (Some f) 0 tol) (fun '(sp, e) => Ok (sp, map (fun v => a * v) e)) /\
  error_envelope_spectrum kz cz lstsq (record (length y) (fun t => a * nth t y 0 + sine A f ph off t)) fs (Some f) 0 tol =
    bind (error_envelope_spectrum kz cz lstsq y fs (Some f) 0 tol) (fun '(sp, e, v) => Ok (sp, map (fun v => a * v) e, map (fun v => a * v) v)).
Proof. exact c119_level. Qed.
Print Assumptions C119_level.

(** The two analyses answer for every nonempty record, except that a record of one sample needs the frequency given. *)
Theorem C119_errors :
  forall kz cz lstsq y fs f mi tol,
  if (length y =? 0)%nat || (match f with None => (length y <? 2)%nat | Some _ => false end)
  then error_spectrum kz cz lstsq y fs f mi tol = Err ValueError /\ error_envelope_spectrum kz cz lstsq y fs f mi tol = Err ValueError
  else exists fit sp spv env, fit_core lstsq y f mi tol = Ok fit /\
    error_spectrum kz cz lstsq y fs f mi tol = Ok (sp, map2 Rminus y (f_fitted fit)) /\
    error_envelope_spectrum kz cz lstsq y fs f mi tol = Ok (spv, map2 Rminus y (f_fitted fit), env).
Proof. exact c119_errors. Qed.
Print Assumptions C119_errors.

(** For a coherent frequency (k whole periods) the error is the record with exactly the bins of the constant and of
    the tone emptied: every other DFT coefficient is kept. *)
Theorem C119_bins :
  forall kz cz lstsq y fs k tol sp e,
  least_squares lstsq -> (0 < k)%nat -> (2 * k < length y)%nat ->
  error_spectrum kz cz lstsq y fs (Some (INR k / INR (length y))) 0 tol = Ok (sp, e) -> length e = length y /\
  forall b, (b < length y)%nat -> coefficient e b = if (b =? 0)%nat || (b =? k)%nat || (b =? length y - k)%nat then C0 else coefficient y b.
Proof. exact c119_bins. Qed.
Print Assumptions C119_bins.

Theorem C119_tones :
  forall kz cz lstsq N H B th J k A ph off fs tol,
  least_squares lstsq -> (0 < k)%nat -> (2 * k < N)%nat ->
  (forall i, (i < H)%nat -> (0 < J i)%nat /\ (2 * J i < N)%nat /\ J i <> k) ->
  exists sp, error_spectrum kz cz lstsq (record N (fun t => sine A (INR k / INR N) ph off t + multitone N H 0 B th J t)) fs (Some (INR k / INR N)) 0 tol
    = Ok (sp, record N (multitone N H 0 B th J)).
Proof. exact c119_tones. Qed.
Print Assumptions C119_tones.

(** If one of the other tones is the strongest, resolvable one, the analysis reports exactly its bin. *)
Theorem C119_strongest :
  forall kz cz lstsq N H B th J k A ph off fs tol sp e,
  least_squares lstsq -> (0 < k)%nat -> (2 * k < N)%nat ->
  (forall i, (i < H)%nat -> J i <> k) -> one_dominant N H 1 1 (N / 2 + 1) B J ->
  error_spectrum kz cz lstsq (record N (fun t => sine A (INR k / INR N) ph off t + multitone N H 0 B th J t)) fs (Some (INR k / INR N)) 0 tol = Ok (sp, e) ->
  e = record N (multitone N H 0 B th J) /\ sp_fund sp = J 0%nat /\ sp_frac sp = INR (J 0%nat).
Proof. exact c119_strongest. Qed.
Print Assumptions C119_strongest.

(** For a record made of the fitted tone (k0 periods, any constant) and an amplitude-modulated error carrier, the
    error is the modulated carrier, its envelope is |A| times the modulating function, and with a resolvable
    modulation the analysis of the envelope reports exactly the modulation bin q -- not the carrier. *)
Theorem C120_modulation :
  forall kz cz lstsq N A m k q ph th k0 A0 ph0 off fs tol,
  least_squares lstsq -> (0 < k0)%nat -> (2 * k0 < N)%nat ->
  (q < k)%nat -> (2 * (k + q) < N)%nat -> k0 <> k -> k0 <> (k + q)%nat -> k0 <> (k - q)%nat -> Rabs m <= 1 ->
  exists sp env, error_envelope_spectrum kz cz lstsq (record N (fun t => sine A0 (INR k0 / INR N) ph0 off t + modulated N A m k q ph th t)) fs (Some (INR k0 / INR N)) 0 tol
    = Ok (sp, record N (modulated N A m k q ph th), env) /\
  (forall n, (n < N)%nat -> nth n env 0 = Rabs A * modulation N m q th n) /\
  ((3 <= q)%nat -> A <> 0 -> m <> 0 -> sp_fund sp = q /\ sp_frac sp = INR q).
Proof. exact c120_modulation. Qed.
Print Assumptions C120_modulation.

Example C118_real_part_ex :
  Re (analytic [1; -2; 4] 2) = 4.
Proof. exact c118_real_part_ex. Qed.

Example C118_dominates_ex :
  exists e, envelope [1; -2; 4] = Ok e /\ 2 <= nth 1 e 0.
Proof. exact c118_dominates_ex. Qed.

Example C118_pure_tone_ex :
  envelope [2; 0; -2; 0] = Ok [2; 2; 2; 2].
Proof. exact c118_pure_tone_ex. Qed.

Example C118_gain_ex :
  envelope (map (fun v => -3 * v) [2; 0; -2; 0]) = Ok [6; 6; 6; 6].
Proof. exact c118_gain_ex. Qed.

Example C118_energy_ex :
  exists e, envelope [1; 3; 2] = Ok e /\ rsum 3 (fun n => nth n e 0 ^ 2) = 16.
Proof. exact c118_energy_ex. Qed.

(** Two tones of equal amplitude beat: the envelope runs from twice the amplitude to nothing. *)
Example C118_tones_ex :
  exists e, envelope (record 8 (multitone 8 2 0 (fun _ => 1) (fun _ => 0) (fun i => S i))) = Ok e /\ nth 0 e 0 = 2 /\ nth 4 e 0 = 0.
Proof. exact c118_tones_ex. Qed.

Example C118_modulation_ex :
  exists e, envelope (record 16 (modulated 16 (-2) (1 / 2) 3 1 0.7 0)) = Ok e /\ nth 0 e 0 = 3 /\ nth 8 e 0 = 1.
Proof. exact c118_modulation_ex. Qed.

(** Adding 3 cos(2 pi t / 4) + 1 to four samples changes nothing; the error is the alternating part of the record. *)
Example C119_invariant_ex :
  forall kz cz lstsq,
  least_squares lstsq ->
  error_spectrum kz cz lstsq [5; 2; -1; 1] 1 (Some (1 / 4)) 0 0 = error_spectrum kz cz lstsq [1; 1; 1; 0] 1 (Some (1 / 4)) 0 0.
Proof. exact c119_invariant_ex. Qed.

Example C119_level_ex :
  forall kz cz lstsq sp e,
  least_squares lstsq -> error_spectrum kz cz lstsq [1; 1; 1; 0] 1 (Some (1 / 4)) 0 0 = Ok (sp, e) ->
  error_spectrum kz cz lstsq [1000; 1000; 1000; 0] 1 (Some (1 / 4)) 0 0 = Ok (sp, map (fun v => 1000 * v) e).
Proof. exact c119_level_ex. Qed.

(** The three empty bins (0, 1 and 3) leave only bin 2. *)
Example C119_bins_ex :
  forall kz cz lstsq,
  least_squares lstsq -> exists sp e, error_spectrum kz cz lstsq [1; 1; 1; 0] 1 (Some (1 / 4)) 0 0 = Ok (sp, e) /\ length e = 4%nat /\
  coefficient e 0 = C0 /\ coefficient e 1 = C0 /\ coefficient e 2 = RtoC 1 /\ coefficient e 3 = C0.
Proof. exact c119_bins_ex. Qed.

(** A 2 V tone at bin 5 with spurs at bins 9 and 20 of a 64-point record: the error is the two spurs, and the
    reported fundamental of the error is bin 20, the stronger one. *)
Example C119_strongest_ex :
  forall kz cz lstsq,
  least_squares lstsq -> let B := fun i => nth i [0.03; 0.01] 0 in let J := (fun i => nth i [20; 9] 0)%nat in
  exists sp, error_spectrum kz cz lstsq (record 64 (fun t => sine 2 (INR 5 / INR 64) 0.3 0.5 t + multitone 64 2 0 B (fun _ => 1) J t)) 1 (Some (INR 5 / INR 64)) 0 0
    = Ok (sp, record 64 (multitone 64 2 0 B (fun _ => 1) J)) /\ sp_fund sp = 20%nat.
Proof. exact c119_strongest_ex. Qed.

Example C119_errors_ex :
  forall kz cz lstsq,
  error_spectrum kz cz lstsq [7] 1 None 0 0 = Err ValueError /\ exists sp e, error_spectrum kz cz lstsq [7] 1 (Some 0.1) 0 0 = Ok (sp, e).
Proof. exact c119_errors_ex. Qed.

(** A tone at bin 5 with an error carrier at bin 20 modulated 50 % by 4 periods: the envelope runs from 0.015 down to 0.005 and the
    envelope spectrum reports bin 4. *)
Example C120_modulation_ex :
  forall kz cz lstsq,
  least_squares lstsq -> exists sp env,
  error_envelope_spectrum kz cz lstsq (record 64 (fun t => sine 2 (INR 5 / INR 64) 0.3 0.5 t + modulated 64 (1 / 100) (1 / 2) 20 4 1 0 t)) 1 (Some (INR 5 / INR 64)) 0 0
    = Ok (sp, record 64 (modulated 64 (1 / 100) (1 / 2) 20 4 1 0), env) /\ nth 0 env 0 = 3 / 200 /\ nth 8 env 0 = 1 / 200 /\ sp_fund sp = 4%nat.
Proof. exact c120_modulation_ex. Qed.
