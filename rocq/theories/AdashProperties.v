(** * Property theorems of Adash: statements only, proofs in AdashProofs.v.
    Generated by tools/mkprops.py from the final lemmas. *)
From Verif Require Import Base BaseLemmas Cplx FreqProofs SpecModel SpecLemmas SpecProofs SineHistModel SineHistSpec SineHistProofs SiggenModel OverModel OverProofs PlotModel PlotSpec PlotProofs DoutProofs UnitsModel CalModel CalSpec CalProofs CalExLemmas CalExProofs TiModel TiToneProofs FitModel FitSpec FitProofs HarmModel HarmSpec HarmProofs AcfModel AcfSpec AcfProofs RearModel RearSpec RearProofs AoutMoreProofs EpdfModel EpdfProofs EnvModel EnvProofs PlaneModel PlaneProofs EplaneModel EplaneSpec EplaneProofs CohModel CohProofs DrawModel DrawSpec DrawProofs PanelModel PanelProofs EplotModel EplotProofs DplotModel DplotProofs DashModel DashSpec DashProofs.
From Coq Require Import Psatz.
Local Open Scope R_scope.
From Verif Require Import AdashProofs.

(** Each panel is the single analysis with its default settings.  The frequency only reaches the autocorrelation, the
    resolution only the density, and the sampling rate only the two spectra (besides turning the frequency into a relative
    one). *)
Theorem C159_panels :
  forall kz cz xa argsort lstsq signal fs freq res d,
  generate_aout_dashboard kz cz xa argsort lstsq signal fs freq res = Ok d ->
  let tol := 1 / 10 ^ 9 in
  (freq <> None -> fs <> 0) /\ analyze_spectrum kz cz xa [signal] fs ScaleAuto Hann None 1 5 0 None true true true 3 = Ok (ad_spectrum d) /\
  analyze_polar_plot kz cz [signal] ScaleAuto 5 1 0 fs Boxcar None = Ok (ad_polar d) /\ analyze_error_by_value lstsq signal None (Some 100%Z) (1 / 100) None true 1 tol = Ok (ad_value d) /\
  analyze_error_by_phase argsort lstsq signal None 100 true true 1 tol = Ok (ad_phase d) /\ analyze_decomposition_time lstsq signal 5 5 true None 1 tol = Ok (ad_time d) /\
  analyze_decomposition_polar lstsq signal 5 true None 1 tol = Ok (ad_decomp d) /\ analyze_error_pdf lstsq signal res None None true 1 tol = Ok (ad_pdf d) /\
  (forall f, freq = Some f -> analyze_acf lstsq signal (Some (f / fs)) 50 true true 1 tol = Ok (ad_acf d)) /\ (freq = None -> analyze_acf lstsq signal None 50 true true 1 tol = Ok (ad_acf d)).
Proof. exact c159_panels. Qed.
Print Assumptions C159_panels.

Theorem C159_arguments :
  forall kz cz xa argsort lstsq signal fs fs' freq freq' res res' d d',
  generate_aout_dashboard kz cz xa argsort lstsq signal fs freq res = Ok d -> generate_aout_dashboard kz cz xa argsort lstsq signal fs' freq' res' = Ok d' ->
  ad_value d = ad_value d' /\ ad_phase d = ad_phase d' /\ ad_time d = ad_time d' /\ ad_decomp d = ad_decomp d' /\ (fs = fs' -> ad_spectrum d = ad_spectrum d' /\ ad_polar d = ad_polar d') /\ (res = res' -> ad_pdf d = ad_pdf d') /\
  (forall f f', freq = Some f -> freq' = Some f' -> f * fs' = f' * fs -> ad_acf d = ad_acf d') /\ (freq = None -> freq' = None -> ad_acf d = ad_acf d').
Proof. exact c159_arguments. Qed.
Print Assumptions C159_arguments.

(** The dashboard with twelve panels contains the one with eight. *)
Theorem C159_twelve :
  forall kz cz xa argsort lstsq signal fs freq res d,
  generate_aout_dashboard_3x4 kz cz xa argsort lstsq signal fs freq res = Ok d ->
  let tol := 1 / 10 ^ 9 in
  generate_aout_dashboard kz cz xa argsort lstsq signal fs freq res = Ok (ad_first d) /\ analyze_error_spectrum kz cz xa lstsq signal fs None 1 tol = Ok (ad_error d) /\
  analyze_error_envelope_spectrum kz cz xa lstsq signal fs None 1 tol = Ok (ad_envelope d) /\ analyze_phase_plane signal None true 4 true = Ok (ad_plane d) /\ analyze_error_phase_plane lstsq signal 3 true UnitAuto true = Ok (ad_eplane d) /\
  snd (ad_plane d) <> None /\ snd (ad_eplane d) <> None.
Proof. exact c159_twelve. Qed.
Print Assumptions C159_twelve.

(** What a record needs for the dashboard ([r] being its decomposition): a sampling rate other than 0 if a frequency is
    given, at least 50 samples (or two), a sample at an inner level, two different samples, and something left beside the
    five harmonics.  For records of even length this is exact, all others raise. *)
Theorem C159_accepts :
  forall kz cz xa argsort lstsq signal fs freq res r,
  decompose_harmonic_error lstsq [signal] 5 None 1 (1 / 10 ^ 9) = Ok r ->
  let dash := generate_aout_dashboard kz cz xa argsort lstsq signal fs freq res in
  let good := (freq <> None -> fs <> 0) /\ ((50 <= length signal)%nat \/ (length signal <= 2)%nat) /\ inner_sample signal /\ ~ flat signal /\ 0 < rms_of (h_noise r) in
  (forall d, dash = Ok d -> good) /\ (Nat.Even (length signal) -> good -> exists d, dash = Ok d) /\ (Nat.Even (length signal) -> ~ good -> dash = Err (if match freq with Some _ => Reqb fs 0 | None => false end then ZeroDivisionError else ValueError)).
Proof. exact c159_accepts. Qed.
Print Assumptions C159_accepts.

(** The part beside the harmonics is not zero if the record stands still for twelve samples, but not for ever. *)
Theorem C159_pause :
  forall kz cz xa argsort lstsq signal fs freq res s v,
  Nat.Even (length signal) -> (50 <= length signal)%nat -> (freq <> None -> fs <> 0) -> inner_sample signal -> ~ flat signal ->
  (s + 12 <= length signal)%nat -> (forall t, (s <= t < s + 12)%nat -> nth t signal 0 = v) ->
  exists d, generate_aout_dashboard kz cz xa argsort lstsq signal fs freq res = Ok d.
Proof. exact c159_pause. Qed.
Print Assumptions C159_pause.

(** A sine with a whole number of periods in the record is refused: nothing is left beside its harmonics. *)
Theorem C159_clean :
  forall kz cz xa argsort lstsq signal fs freq res k A ph off,
  least_squares lstsq -> (0 < k)%nat -> (k < length signal / 2)%nat -> (5 <= length signal)%nat -> INR (length signal) <= 10 ^ 10 -> 0 < A ->
  is_record signal (sine A (INR k / INR (length signal)) ph off) -> forall d, generate_aout_dashboard kz cz xa argsort lstsq signal fs freq res <> Ok d.
Proof. exact c159_clean. Qed.
Print Assumptions C159_clean.

(** Fewer than 50 samples are never enough. *)
Theorem C159_short :
  forall kz cz xa argsort lstsq signal fs freq res,
  least_squares lstsq -> (length signal < 50)%nat -> forall d, generate_aout_dashboard kz cz xa argsort lstsq signal fs freq res <> Ok d.
Proof. exact c159_short. Qed.
Print Assumptions C159_short.

(** The larger dashboard needs, beside what the smaller one needs, a sample strictly between the 2nd and the 98th percentile. *)
Theorem C159_twelve_accepts :
  forall kz cz xa argsort lstsq signal fs freq res lo hi,
  Nat.Even (length signal) ->
  is_percentile (length signal) (fun t => nth t signal 0) 2 lo -> is_percentile (length signal) (fun t => nth t signal 0) 98 hi ->
  let small := generate_aout_dashboard kz cz xa argsort lstsq signal fs freq res in let large := generate_aout_dashboard_3x4 kz cz xa argsort lstsq signal fs freq res in
  (forall e, small = Err e -> large = Err e) /\
  (forall d, small = Ok d -> (exists x, In x signal /\ lo < x < hi) -> exists d', large = Ok d' /\ ad_first d' = d) /\
  (forall d, small = Ok d -> ~ (exists x, In x signal /\ lo < x < hi) -> large = Err TypeError).
Proof. exact c159_twelve_accepts. Qed.
Print Assumptions C159_twelve_accepts.

(** 3, 2, 1 and 47 zeros: both dashboards are drawn, whatever the least squares routine returns. *)
Example C159_pause_ex :
  forall kz cz xa argsort lstsq,
  exists d d', generate_aout_dashboard kz cz xa argsort lstsq settle 1 None 12 = Ok d /\ generate_aout_dashboard_3x4 kz cz xa argsort lstsq settle 1 None 12 = Ok d' /\ ad_first d' = d.
Proof. exact c159_pause_ex. Qed.

(** A record with only two values never gets the larger dashboard. *)
Theorem C159_two_level :
  forall kz cz xa argsort lstsq signal fs freq res v w,
  (forall x, In x signal -> x = v \/ x = w) -> forall d, generate_aout_dashboard_3x4 kz cz xa argsort lstsq signal fs freq res <> Ok d.
Proof. exact c159_two_level. Qed.
Print Assumptions C159_two_level.

Example C159_two_level_ex :
  forall kz cz xa argsort lstsq,
  forall d, generate_aout_dashboard_3x4 kz cz xa argsort lstsq (repeat 1 100 ++ repeat 0 100) 1 None 12 <> Ok d.
Proof. exact c159_two_level_ex. Qed.

(** The sampling rate changes two panels only. *)
Example C159_arguments_ex :
  forall kz cz xa argsort lstsq,
  exists d d', generate_aout_dashboard kz cz xa argsort lstsq settle 1 None 12 = Ok d /\ generate_aout_dashboard kz cz xa argsort lstsq settle 2 None 8 = Ok d' /\ ad_value d = ad_value d' /\ ad_phase d = ad_phase d' /\ ad_acf d = ad_acf d'.
Proof. exact c159_arguments_ex. Qed.

(** A dashboard of a full period of a sine in 64 samples is not drawn, although its samples are many, different and inside the range. *)
Theorem C159_clean_refuted :
  exists signal, least_squares gs_lstsq /\ length signal = 64%nat /\ is_record signal (sine 1 (INR 1 / INR 64) 0 0) /\ ~ flat signal /\
  forall kz cz xa argsort fs freq res d, generate_aout_dashboard kz cz xa argsort gs_lstsq signal fs freq res <> Ok d.
Proof. exact c159_clean_refuted. Qed.
Print Assumptions C159_clean_refuted.

Example C159_short_ex :
  forall kz cz xa argsort,
  forall d, generate_aout_dashboard kz cz xa argsort gs_lstsq (3 :: 2 :: 1 :: repeat 0 45) 1 None 12 <> Ok d.
Proof. exact c159_short_ex. Qed.
