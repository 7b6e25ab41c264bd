(** * Property theorems of Units: statements only, proofs in UnitsProofs.v.
    Generated by tools/mkprops.py from the final lemmas. *)
From Verif Require Import Base BaseLemmas UnitsModel UnitsSpec.
From Coq Require Import Psatz.
Local Open Scope R_scope.
From Verif Require Import UnitsProofs.

Theorem C13_bin_roundtrip :
  forall (k n : Z) fs,
  fs <> 0 -> n <> 0%Z ->
  exists f, bin_to_freq (IZR k) fs n = Ok f /\ freq_to_bin f fs n = Ok k.
Proof. exact c13_bin_roundtrip. Qed.
Print Assumptions C13_bin_roundtrip.

(** The nearest bin: no bin centre is closer, and the error is at most half a bin. *)
Theorem C13_nearest_bin :
  forall f fs n,
  0 < fs -> (0 < n)%Z ->
  exists k, freq_to_bin f fs n = Ok k /\
    exists fk, bin_to_freq (IZR k) fs n = Ok fk /\ Rabs (f - fk) <= fs / IZR n / 2.
Proof. exact c13_nearest_bin. Qed.
Print Assumptions C13_nearest_bin.

Theorem C13_lsb_volts :
  forall lsb volts vref n,
  0 < vref ->
  volts_to_lsb (lsb_to_volts lsb vref n) vref n = Ok lsb /\
  (exists c, volts_to_lsb volts vref n = Ok c /\ lsb_to_volts c vref n = volts).
Proof. exact c13_lsb_volts. Qed.
Print Assumptions C13_lsb_volts.

Theorem C13_enob :
  forall x y,
  snr_to_enob (enob_to_snr x) = x /\ enob_to_snr (snr_to_enob x) = x /\
  (x < y -> snr_to_enob x < snr_to_enob y /\ enob_to_snr x < enob_to_snr y).
Proof. exact c13_enob. Qed.
Print Assumptions C13_enob.

(** ** C14 *)
Theorem C14_inverse :
  forall x,
  
  mag_to_db (db_to_mag x) = Fin x /\ power_to_db (db_to_power x) = Fin x /\
  (0 < x -> exists d, mag_to_db x = Fin d /\ db_to_mag d = x) /\
  (0 < x -> exists d, power_to_db x = Fin d /\ db_to_power d = x).
Proof. exact c14_inverse. Qed.
Print Assumptions C14_inverse.

Theorem C14_monotone :
  forall x y,
  x < y ->
  db_to_mag x < db_to_mag y /\ db_to_power x < db_to_power y /\
  (0 < x -> finite_lt (mag_to_db x) (mag_to_db y) /\ finite_lt (power_to_db x) (power_to_db y)).
Proof. exact c14_monotone. Qed.
Print Assumptions C14_monotone.

Theorem C14_products :
  forall x y,
  
  db_to_mag (x + y) = db_to_mag x * db_to_mag y /\ db_to_power (x + y) = db_to_power x * db_to_power y /\
  db_to_power x = db_to_mag x ^ 2 /\
  (0 < x -> 0 < y -> exists a b, mag_to_db x = Fin a /\ mag_to_db y = Fin b /\ mag_to_db (x * y) = Fin (a + b)).
Proof. exact c14_products. Qed.
Print Assumptions C14_products.

Theorem C14_dbm :
  forall d v z mw,
  0 < z ->
  (exists u, dbm_to_vrms d z = Fin u /\ 0 < u /\ vrms_to_dbm u z = Ok (Fin d)) /\
  (0 < v -> exists e, vrms_to_dbm v z = Ok (Fin e) /\ dbm_to_vrms e z = Fin v) /\
  mw_to_dbm (dbm_to_mw d) = Fin d /\
  (0 < mw -> exists e, mw_to_dbm mw = Fin e /\ dbm_to_mw e = mw).
Proof. exact c14_dbm. Qed.
Print Assumptions C14_dbm.

(** Outside the positive reals the conversions return -inf or nan, never a number. *)
Theorem C14_domain :
  forall x,
  x <= 0 ->
  (forall r, mag_to_db x <> Fin r) /\ (forall r, power_to_db x <> Fin r).
Proof. exact c14_domain. Qed.
Print Assumptions C14_domain.

(** ** C15 *)
Theorem C15_agree :
  forall snr nsd fs sig osr,
  units_snr_to_nsd snr fs sig osr = snr_to_nsd snr fs osr sig /\
  units_nsd_to_snr nsd fs sig osr = nsd_to_snr nsd fs osr sig.
Proof. exact c15_agree. Qed.
Print Assumptions C15_agree.

Theorem C15_value_and_inverse :
  forall snr fs sig osr,
  0 < fs -> 0 < osr ->
  snr_to_nsd snr fs osr sig = Ok (Fin (sig - snr - 10 * lg (fs / (2 * osr)))) /\
  (forall nsd, snr_to_nsd snr fs osr sig = Ok (Fin nsd) -> nsd_to_snr nsd fs osr sig = Ok (Fin snr)) /\
  (forall nsd x, nsd_to_snr nsd fs osr sig = Ok (Fin x) -> snr_to_nsd x fs osr sig = Ok (Fin nsd)).
Proof. exact c15_value_and_inverse. Qed.
Print Assumptions C15_value_and_inverse.

Theorem C15_osr_doubling :
  forall snr fs sig osr a b,
  0 < fs -> 0 < osr ->
  snr_to_nsd snr fs osr sig = Ok (Fin a) -> snr_to_nsd snr fs (2 * osr) sig = Ok (Fin b) ->
  b - a = 10 * lg 2.
Proof. exact c15_osr_doubling. Qed.
Print Assumptions C15_osr_doubling.

(** The two modules take (signal level, osr) in opposite positional order, so the same
    positional call gives different answers. *)
Theorem C15_positional_order_refuted :
  exists snr fs x y, 0 < fs /\ 0 < x /\ 0 < y /\
    units_snr_to_nsd snr fs x y <> snr_to_nsd snr fs x y.
Proof. exact c15_positional_order_refuted. Qed.
Print Assumptions C15_positional_order_refuted.

(** ** C16 *)
Theorem C16_infinite_iff :
  forall sig noise osr,
  0 <= noise -> (fst (fst (amplitudes_to_snr sig noise osr)) = PInf <-> noise = 0).
Proof. exact c16_infinite_iff. Qed.
Print Assumptions C16_infinite_iff.

(** For positive amplitudes: 10 log10 of signal power over noise power, plus the
    oversampling gain; the returned powers are A^2/2 and sigma^2. *)
Theorem C16_value :
  forall sig noise osr,
  0 < sig -> 0 < noise ->
  exists ps pn,
    amplitudes_to_snr sig noise osr =
      (Fin (10 * lg (ps / pn) + (if Rlt_dec 1 osr then 10 * lg osr else 0)), ps, pn) /\
    ps = sig ^ 2 / 2 /\ pn = noise ^ 2.
Proof. exact c16_value. Qed.
Print Assumptions C16_value.

Theorem C16_scale_and_monotone :
  forall sig noise noise' osr k,
  0 < sig -> 0 < noise -> 0 < k ->
  fst (fst (amplitudes_to_snr (k * sig) (k * noise) osr)) = fst (fst (amplitudes_to_snr sig noise osr)) /\
  (noise < noise' -> finite_lt (fst (fst (amplitudes_to_snr sig noise' osr))) (fst (fst (amplitudes_to_snr sig noise osr)))).
Proof. exact c16_scale_and_monotone. Qed.
Print Assumptions C16_scale_and_monotone.

Theorem C16_osr :
  forall sig noise osr1 osr2,
  0 < sig -> 0 < noise -> 1 < osr1 -> osr1 < osr2 ->
  exists a b, fst (fst (amplitudes_to_snr sig noise osr1)) = Fin a /\
              fst (fst (amplitudes_to_snr sig noise osr2)) = Fin b /\ b - a = 10 * lg (osr2 / osr1).
Proof. exact c16_osr. Qed.
Print Assumptions C16_osr.

(** ** C56: figures of merit *)
Theorem C56_walden :
  forall p fs e,
  0 < p -> 0 < fs ->
  0 < walden_fom p fs e /\
  (forall b, walden_fom p fs (INR b) = p / (2 ^ b * fs)) /\
  walden_fom p fs (e + 1) = walden_fom p fs e / 2 /\
  (forall k, walden_fom (k * p) fs e = k * walden_fom p fs e) /\
  (forall k, 0 < k -> walden_fom (k * p) (k * fs) e = walden_fom p fs e).
Proof. exact c56_walden. Qed.
Print Assumptions C56_walden.

Theorem C56_schreier :
  forall p sndr bw,
  0 < p -> 0 < bw ->
  exists f, schreier_fom p sndr bw = Fin f /\ f = sndr + 10 * (lg bw - lg p) /\
    (forall k, 0 < k -> schreier_fom (k * p) sndr (k * bw) = Fin f) /\
    (forall d, schreier_fom p (sndr + d) bw = Fin (f + d)).
Proof. exact c56_schreier. Qed.
Print Assumptions C56_schreier.

Theorem C56_thermal :
  forall cap v k,
  0 < cap -> 0 < v -> 0 < k ->
  exists s, thermal_noise_limit cap v = Fin s /\
    thermal_noise_limit (k * cap) v = Fin (s + 10 * lg k) /\
    thermal_noise_limit cap (k * v) = Fin (s + 20 * lg k).
Proof. exact c56_thermal. Qed.
Print Assumptions C56_thermal.

Theorem C56_jitter :
  forall f tj k,
  0 < f -> 0 < tj -> 0 < k ->
  exists s, jitter_limit f tj = Fin s /\
    jitter_limit (k * f) tj = Fin (s - 20 * lg k) /\ jitter_limit f (k * tj) = Fin (s - 20 * lg k).
Proof. exact c56_jitter. Qed.
Print Assumptions C56_jitter.

(** A sine of amplitude A into z ohm: power A^2/(2z), consistent with the dBm conversions. *)
Theorem C56_sine_power :
  forall a z,
  0 < a -> 0 < z ->
  exists p, sine_amplitude_to_power a z = Ok p /\ p = a ^ 2 / (2 * z) /\
    vrms_to_dbm (a / sqrt 2) z = Ok (mw_to_dbm (p * 1000)).
Proof. exact c56_sine_power. Qed.
Print Assumptions C56_sine_power.

(** Concrete values. *)
Example C13_values_ex :
  lsb_to_volts 3 1 3 = 3/8 /\ freq_to_bin 2.6 8 8 = Ok 3%Z /\ snr_to_enob 61.96 = 10.
Proof. exact c13_values_ex. Qed.

Example C14_values_ex :
  mag_to_db 10 = Fin 20 /\ db_to_power 20 = 100 /\ mag_to_db 0 = NInf.
Proof. exact c14_values_ex. Qed.

Example C15_value_ex :
  snr_to_nsd 80 20 1 0 = Ok (Fin (-90)).
Proof. exact c15_value_ex. Qed.

Example C16_value_ex :
  fst (fst (amplitudes_to_snr (sqrt 2) 0.1 10)) = Fin 30.
Proof. exact c16_value_ex. Qed.
