(** * Property theorems of Mwave: statements only, proofs in MwaveProofs.v.
    Generated by tools/mkprops.py from the final lemmas. *)
From Coq Require Import Psatz.
From Verif Require Import Base BaseLemmas Cplx TiModel CalModel CalSpec CalExLemmas FitModel FitSpec FitProofs SiggenModel RearModel RearSpec MatModel MatProofs MsinModel MsinProofs MerrModel MerrProofs MwaveModel.
Local Open Scope R_scope.
From Verif Require Import MwaveProofs.

(** The scripts for noise, jitter, amplitude noise, an amplitude tone and glitches are chains of the Python appliers, given the same draws. *)
Theorem C204_noise :
  forall g rms d,
  length d = g_N g -> w_noise (g_N g) (g_A g) (g_DC g) (g_Fin g) (g_Fs g) rms d = apply_thermal_noise g None rms d.
Proof. exact c204_noise. Qed.
Print Assumptions C204_noise.

Theorem C204_jitter :
  forall g Tj rms d1 d2,
  length d1 = g_N g -> length d2 = g_N g ->
  w_jitter (g_N g) (g_A g) (g_DC g) (g_Fin g) (g_Fs g) Tj rms d1 d2 = apply_thermal_noise g (Some (jitter_clean g Tj d1)) rms d2.
Proof. exact c204_jitter. Qed.
Print Assumptions C204_jitter.

Theorem C204_am_noise :
  forall g s rms d1 d2,
  length d1 = g_N g -> length d2 = g_N g ->
  w_am_noise (g_N g) (g_A g) (g_DC g) (g_Fin g) (g_Fs g) s rms d1 d2 = apply_thermal_noise g (Some (apply_am_noise g None s d1)) rms d2.
Proof. exact c204_am_noise. Qed.
Print Assumptions C204_am_noise.

Theorem C204_am_tone :
  forall g m f rms d,
  length d = g_N g ->
  w_am_tone (g_N g) (g_A g) (g_DC g) (g_Fin g) (g_Fs g) m f rms d = apply_thermal_noise g (Some (apply_am_tone g None f m)) rms d.
Proof. exact c204_am_tone. Qed.
Print Assumptions C204_am_tone.

Theorem C204_glitch :
  forall g p rms d u,
  length d = g_N g -> length u = g_N g ->
  w_glitch (g_N g) (g_A g) (g_DC g) (g_Fin g) (g_Fs g) p rms d u = apply_glitch g (Some (apply_thermal_noise g None rms d)) p 0.1 u.
Proof. exact c204_glitch. Qed.
Print Assumptions C204_glitch.

(** Noise of a given voltage on the amplitude is the relative noise of the Python generator, on the phase it is jitter. *)
Theorem C204_am_pm :
  forall g rms d,
  g_A g <> 0 -> g_Fin g <> 0 -> length d = g_N g ->
  w_am_abs (g_N g) (g_A g) (g_DC g) (g_Fin g) (g_Fs g) rms d = apply_am_noise g None (rms / g_A g) d /\ w_pm_abs (g_N g) (g_A g) (g_DC g) (g_Fin g) (g_Fs g) rms d = jitter_clean g (rms / g_A g / (2 * PI * g_Fin g)) d.
Proof. exact c204_am_pm. Qed.
Print Assumptions C204_am_pm.

(** The two distortion scripts are the Python appliers at an offset of one half. *)
Theorem C204_static :
  forall g k2 k3 k4 k5 d,
  g_DC g = 1 / 2 -> length d = g_N g ->
  w_nonlin_static (g_N g) (g_A g) (g_Fin g) (g_Fs g) 1 k2 k3 k4 k5 d = apply_thermal_noise g (Some (apply_static_nonlinearity g None k2 k3 k4 k5)) (1 / 10 ^ 4) d.
Proof. exact c204_static. Qed.
Print Assumptions C204_static.

Theorem C204_hd :
  forall g a b rms d,
  g_A g <> 0 -> g_DC g = 1 / 2 -> length d = g_N g ->
  w_nonlin_hd (g_N g) (g_A g) (g_Fin g) (g_Fs g) a b rms d = apply_thermal_noise g (Some (apply_static_nonlinearity_hd g None (Some a) (Some b) None None)) rms d.
Proof. exact c204_hd. Qed.
Print Assumptions C204_hd.

(** So is the script for incomplete settling, with the tracking time of one fifth of the period both take. *)
Theorem C204_settling :
  forall g target tau c rms d,
  length d = g_N g -> exists v,
  apply_incomplete_sampling g None None tau c = Ok v /\ snd (w_nonlin_dynamic (g_N g) (g_A g) (g_DC g) (g_Fin g) (g_Fs g) target tau c rms d) = apply_thermal_noise g (Some v) rms d.
Proof. exact c204_settling. Qed.
Print Assumptions C204_settling.

(** Fixed thresholds instead of percentiles: clipping holds the values between them, leaves the others and is done after one pass. *)
Theorem C204_clip :
  forall th x,
  th <= 1 / 2 -> th <= w_clip th x <= 1 - th /\ (th <= x <= 1 - th -> w_clip th x = x) /\ w_clip th (w_clip th x) = w_clip th x.
Proof. exact c204_clip. Qed.
Print Assumptions C204_clip.

(** The drift starts at 0, rises and stays below its amplitude. *)
Theorem C204_drift :
  forall N amp k,
  0 < amp -> (0 < N)%nat -> w_drift N amp 0 = 0 /\ w_drift N amp k < w_drift N amp (S k) < amp.
Proof. exact c204_drift. Qed.
Print Assumptions C204_drift.

(** The distorted sine has the harmonics asked for relative to A, an offset, and a larger fundamental. *)
Theorem C205_harmonics :
  forall A db2 db3 ph,
  A <> 0 -> let h2 := Rpower 10 (db2 / 20) in let h3 := Rpower 10 (db3 / 20) in
  w_hd A db2 db3 (A * sin ph) = A * h2 + A * (1 + 3 * h3) * sin ph - A * h2 * cos (2 * ph) - A * h3 * sin (3 * ph).
Proof. exact c205_harmonics. Qed.
Print Assumptions C205_harmonics.

(** Relative to the fundamental the third harmonic is therefore below the level asked for, always. *)
Theorem C205_level_refuted :
  forall A db2 db3,
  0 < A -> exists a1 a3, (forall ph, w_hd A db2 db3 (A * sin ph) = A * Rpower 10 (db2 / 20) + a1 * sin ph - A * Rpower 10 (db2 / 20) * cos (2 * ph) - a3 * sin (3 * ph)) /\ 0 < a3 /\ a3 / a1 < Rpower 10 (db3 / 20).
Proof. exact c205_level_refuted. Qed.
Print Assumptions C205_level_refuted.

Theorem C206_zones_refuted :
  exists a b, 500000000 < a < 625000000 /\ 1000000000 < b < 1250000000 /\ w_zone (2 ^ 13) 2500000000 a = Ok (Some 1%Z) /\ w_zone (2 ^ 13) 2500000000 b = Ok (Some 1%Z).
Proof. exact c206_zones_refuted. Qed.
Print Assumptions C206_zones_refuted.

(** The zone in the name, whenever a bin is found: the signal lies in it. *)
Theorem C206_zone :
  forall N fs target z,
  (0 < N)%nat -> 0 < fs -> w_zone N fs target = Ok (Some z) -> exists J, m_findbin N fs target (Z.of_nat N) = Ok (Some J) /\ IZR (z - 1) * (fs / 2) < IZR J / INR N * fs <= IZR z * (fs / 2).
Proof. exact c206_zone. Qed.
Print Assumptions C206_zone.

(** The data of the script for incomplete settling do not depend on the frequency in the name of the file. *)
Theorem C206_dynamic :
  forall N A DC fin fs target target' tau c rms d,
  snd (w_nonlin_dynamic N A DC fin fs target tau c rms d) = snd (w_nonlin_dynamic N A DC fin fs target' tau c rms d).
Proof. exact c206_dynamic. Qed.
Print Assumptions C206_dynamic.

(** With the numbers of the script: the name says 450 MHz, the signal has 1 GHz. *)
Theorem C206_name_refuted :
  forall A DC tau c rms d,
  exists fin, 999000000 < fin < 1001000000 /\ (exists J, m_findbin (2 ^ 13) 2500000000 1000000000 (2 ^ 13) = Ok (Some J) /\ fin = IZR J / 8192 * 2500000000) /\
  450000000 < fst (w_nonlin_dynamic (2 ^ 13) A DC fin 2500000000 450000000 tau c rms d) < 451000000.
Proof. exact c206_name_refuted. Qed.
Print Assumptions C206_name_refuted.

(** The frequency in the name belongs to an odd bin within three halves of the one asked for. *)
Theorem C206_name :
  forall N A DC fin fs target tau c rms d,
  (0 < N)%nat -> 0 <= target / fs * INR N -> exists J, Z.odd J = true /\ fst (w_nonlin_dynamic N A DC fin fs target tau c rms d) = IZR J * fs / INR N /\ target / fs * INR N - 1 / 2 < IZR J <= target / fs * INR N + 3 / 2.
Proof. exact c206_name. Qed.
Print Assumptions C206_name.

(** Errors with amplitude noise a at the peaks and p at the crossings are told apart exactly, from two phases on. *)
Theorem C207_exact :
  forall ls bin er mag phi fin err a p t1 t2,
  least_squares ls -> 0 <= a -> 0 <= p ->
  (forall t, (t < length err)%nat -> nth t err 0 ^ 2 = a * cos (2 * PI * fin * INR t + phi) ^ 2 + p * sin (2 * PI * fin * INR t + phi) ^ 2) ->
  (t1 < length err)%nat -> (t2 < length err)%nat -> cos (2 * PI * fin * INR t1 + phi) ^ 2 <> cos (2 * PI * fin * INR t2 + phi) ^ 2 ->
  hp_noi (hp_by_phase ls bin er mag phi fin err) = Some (sqrt a, sqrt p / mag).
Proof. exact c207_exact. Qed.
Print Assumptions C207_exact.

(** R2 is never above 1. *)
Theorem C207_r2_le :
  forall ls bin er mag phi fin err,
  exists r, hp_R2 (hp_by_phase ls bin er mag phi fin err) = Some r /\ r <= 1.
Proof. exact c207_r2_le. Qed.
Print Assumptions C207_r2_le.

(** With at most one sample in a bin every deviation is 0 and R2 is 1, whatever the errors and the fit. *)
Theorem C207_alone :
  forall ls bin er mag phi fin err,
  (0 < bin)%Z -> err <> [] ->
  (forall i j, (i < length err)%nat -> (j < length err)%nat -> hp_bin bin (hp_deg phi fin i) = hp_bin bin (hp_deg phi fin j) -> i = j) ->
  hp_R2 (hp_by_phase ls bin er mag phi fin err) = Some 1 /\ hp_rms (hp_by_phase ls bin er mag phi fin err) = repeat 0 (Z.to_nat bin).
Proof. exact c207_alone. Qed.
Print Assumptions C207_alone.

(** The documented range of R2 is not kept: with two bins it falls to -9, for every exact solver. *)
Theorem C207_r2_range_refuted :
  exists phi fin err, forall ls mag, least_squares ls -> hp_R2 (hp_by_phase ls 2 None mag phi fin err) = Some (-9).
Proof. exact c207_r2_range_refuted. Qed.
Print Assumptions C207_r2_range_refuted.

(** The bins start at the positions given, which are not their centres. *)
Theorem C207_bins :
  forall bin p,
  (0 < bin)%Z -> 0 <= p < 360 -> (hp_bin bin p < Z.to_nat bin)%nat /\ hp_xx bin (hp_bin bin p) <= p < hp_xx bin (hp_bin bin p) + 360 / IZR bin.
Proof. exact c207_bins. Qed.
Print Assumptions C207_bins.

(** Value mode is that of errsin without oversampling, except that an empty bin gives 0 instead of NaN. *)
Theorem C207_value :
  forall bin sig err phase b,
  (0 < bin)%Z -> lmin1 (hd 0 sig) sig < lmax1 (hd 0 sig) sig -> (b < Z.to_nat bin)%nat ->
  let e := m_by_value bin None sig err phase in let h := hp_by_value bin sig err in
  hp_x h = me_xx e /\ (nth b (me_mean e) NaN = Fin (nth b (hp_mean h) 0) /\ nth b (me_rms e) NaN = Fin (nth b (hp_rms h) 0) \/ nth b (me_mean e) NaN = NaN /\ nth b (me_rms e) NaN = NaN /\ nth b (hp_mean h) 0 = 0 /\ nth b (hp_rms h) 0 = 0).
Proof. exact c207_value. Qed.
Print Assumptions C207_value.

(** Errors of the arguments, and what is analysed otherwise: fit minus signal. *)
Theorem C207_run :
  forall ls sig bin fin value er,
  ((bin <= 0)%Z \/ (exists f, fin = Some f /\ (f <= 0 \/ 1 <= f)) -> errsin_hp ls sig bin fin value er = Err RuntimeError) /\
  (forall o, errsin_hp ls sig bin fin value er = Ok o -> exists r, m_sinfit ls (map (fun x => [x]) sig) (match fin with Some f => f | None => 0 end) (1 / 10 ^ 12) (1 / 2) false 100 = Ok (Some r) /\
     (value = true -> hp_err o = map2 Rminus (mf_fitout r) sig /\ hp_errxx o = sig /\ hp_noi o = None /\ hp_R2 o = None) /\
     (value = false -> o = hp_by_phase ls bin er (mf_mag r) (mf_phi r) (match fin with Some f => f | None => mf_freq r end) (map2 Rminus (mf_fitout r) sig))).
Proof. exact c207_run. Qed.
Print Assumptions C207_run.

(** The phases are those of the fitted cosine, in degrees from 0 to 360. *)
Theorem C207_phase :
  forall ls bin mag phi fin err t,
  (t < length err)%nat -> let o := hp_by_phase ls bin None mag phi fin err in
  length (hp_errxx o) = length err /\ 0 <= nth t (hp_errxx o) 0 < 360 /\ (exists k, nth t (hp_errxx o) 0 = (2 * PI * fin * INR t + phi) / PI * 180 - 360 * IZR k) /\ hp_err o = err.
Proof. exact c207_phase. Qed.
Print Assumptions C207_phase.

(** Mean and deviation of a bin are those of the samples whose phase lies from its position to the next. *)
Theorem C207_mean :
  forall ls bin er mag phi fin err b,
  (0 < bin)%Z -> (b < Z.to_nat bin)%nat -> let o := hp_by_phase ls bin er mag phi fin err in
  let member t := (Rleb (hp_xx bin b) (hp_deg phi fin t) && Rltb (hp_deg phi fin t) (hp_xx bin b + 360 / IZR bin))%bool in
  let number := rsum (length err) (fun t => if member t then 1 else 0) in
  nth b (hp_x o) 0 = INR b / IZR bin * 360 /\
  nth b (hp_mean o) 0 * Rmax 1 number = rsum (length err) (fun t => if member t then nth t err 0 else 0) /\
  nth b (hp_rms o) 0 ^ 2 * Rmax 1 number = rsum (length err) (fun t => if member t then (nth t err 0 - nth b (hp_mean o) 0) ^ 2 else 0).
Proof. exact c207_mean. Qed.
Print Assumptions C207_mean.
