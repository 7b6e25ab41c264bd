(** * Property theorems of Draw: statements only, proofs in DrawProofs.v.
    Generated by tools/mkprops.py from the final lemmas. *)
From Verif Require Import Base BaseLemmas Cplx FreqProofs TiProofs SpecModel SpecLemmas SpecProofs RampModel RampSpec RampProofs SineHistModel SineHistSpec SineHistProofs PlotModel PlotSpec PlotProofs.
From Verif Require Import DoutProofs UnitsModel CalModel CalSpec CalProofs CalExLemmas CalExProofs TiModel TiToneProofs SpecToneProofs FitModel FitSpec FitProofs AcfModel AcfProofs RearProofs HarmModel HarmSpec HarmProofs DrawModel DrawSpec.
From Coq Require Import Psatz.
Local Open Scope R_scope.
From Verif Require Import DrawProofs.

(** The vertical limits. *)
Theorem C141_limits :
  forall code data nb p lo hi,
  single_curve code data nb = Ok p -> extremes (pn_y p) lo hi ->
  data = map Fin (pn_y p) /\
  (covers (pn_ylim p) (pn_y p) <-> -1 <= lo /\ hi <= 1 \/ lo <= 0 <= hi) /\
  (covers (pn_ylim p) reference_lines <-> -1 <= lo /\ hi <= 1 \/ lo <= - (5 / 6) /\ 5 / 6 <= hi) /\
  (lo <= 0 <= hi -> lo < -1 \/ 1 < hi -> fst (pn_ylim p) = 6 / 5 * lo /\ snd (pn_ylim p) = 6 / 5 * hi).
Proof. exact c141_limits. Qed.
Print Assumptions C141_limits.

(** "minimum +-1": a curve between -0.1 and 5 is drawn without the line at -1. *)
Theorem C141_lines_refuted :
  exists code data nb p, single_curve code data nb = Ok p /\ ~ covers (pn_ylim p) reference_lines.
Proof. exact c141_lines_refuted. Qed.
Print Assumptions C141_lines_refuted.

(** The ramp analysis with a plot succeeds exactly when it does without, and returns the same result.  No
    point is hidden vertically.  Horizontally none is hidden either when no resolution is given, or when it
    is and the codes run from zero or more to at most 2^bits.  The titles state the true extremes. *)
Theorem C141_ramp :
  forall codes nb cmin cm ep ex st r,
  compute_inl_from_ramp codes nb cmin cm ep ex = Ok r ->
  exists g, analyze_inl_from_ramp true codes nb cmin cm ep ex true st = Ok (r, Some g) /\
  pn_y (di_dnl g) = r_dnl r /\ pn_y (di_inl g) = r_inl r /\
  covers (pn_ylim (di_dnl g)) (r_dnl r) /\ covers (pn_ylim (di_inl g)) (r_inl r) /\
  (nb = None -> pn_x (di_dnl g) = map IZR (r_code r) /\ pn_x (di_inl g) = map IZR (r_trans r)) /\
  (forall b, nb = Some b -> pn_x (di_dnl g) = map (fun c => IZR c / IZR (2 ^ b)) (r_code r) /\ pn_x (di_inl g) = map (fun c => IZR c / IZR (2 ^ b)) (r_trans r) /\
     pn_xlim (di_dnl g) = (0, 1) /\ pn_xlim (di_inl g) = (0, 1)) /\
  (match nb with None => True | Some b => (0 <= cmin)%Z /\ (r_code_max r < 2 ^ b)%Z end ->
     covers (pn_xlim (di_dnl g)) (pn_x (di_dnl g)) /\ covers (pn_xlim (di_inl g)) (pn_x (di_inl g))) /\
  match di_titles g with
  | None => st = false
  | Some ((a, b), (c, d)) => st = true /\ exists dl dh il ih, extremes (r_dnl r) dl dh /\ extremes (r_inl r) il ih /\
      reads false a (Fin dl) /\ reads false b (Fin dh) /\ reads false c (Fin il) /\ reads false d (Fin ih)
  end.
Proof. exact c141_ramp. Qed.
Print Assumptions C141_ramp.

(** Signed codes: a two-bit ramp over -2 .. 1 with the resolution given is drawn half outside the axes. *)
Theorem C141_signed_refuted :
  exists codes b cmin r g, (forall z, In (Fin (IZR z)) codes -> (cmin <= z < cmin + 2 ^ b)%Z) /\
  analyze_inl_from_ramp true codes (Some b) cmin None EpEndpoints false true true = Ok (r, Some g) /\
  ~ covers (pn_xlim (di_dnl g)) (pn_x (di_dnl g)) /\ ~ covers (pn_xlim (di_inl g)) (pn_x (di_inl g)).
Proof. exact c141_signed_refuted. Qed.
Print Assumptions C141_signed_refuted.

(** The sine analysis with a plot: ValueError when no sample lies strictly between the end codes, although
    the analysis itself succeeds; otherwise the DNL is never hidden vertically, nor the INL when no code has
    to be clamped; horizontally nothing is hidden for codes from zero or more to at most 2^bits. *)
Theorem C141_sine :
  forall is_float data nb fs clip st r codes lo hi,
  compute_inl_from_sine is_float data nb fs clip = Ok r -> record_codes is_float data nb fs codes -> hist_range codes clip lo hi ->
  (~ interior_hit codes lo hi -> analyze_inl_from_sine is_float data nb fs clip true st = Err ValueError) /\
  (interior_hit codes lo hi -> exists g dn il, analyze_inl_from_sine is_float data nb fs clip true st = Ok (r, Some g) /\
     s_dnl r = map Fin dn /\ s_inl r = map Fin il /\ pn_y (di_dnl g) = dn /\ pn_y (di_inl g) = il /\
     pn_x (di_dnl g) = pn_x (di_inl g) /\ pn_x (di_inl g) = map (fun c => IZR c / match nb with Some b => 2 ^ b | None => 1 end) (s_codes r) /\
     covers (pn_ylim (di_dnl g)) dn /\
     ((forall c, (lo < c < hi)%Z -> -1 <= dnl_of codes lo hi c) -> covers (pn_ylim (di_inl g)) il) /\
     (match nb with None => True | Some b => (0 <= lo)%Z /\ (hi <= 2 ^ Z.of_nat b)%Z end ->
        covers (pn_xlim (di_dnl g)) (pn_x (di_dnl g)) /\ covers (pn_xlim (di_inl g)) (pn_x (di_inl g)))).
Proof. exact c141_sine. Qed.
Print Assumptions C141_sine.

(** A missing code hides INL points: the record 0, 1, 4 gives INL 10/3, 7/3, 4/3 on an axis from 1.6. *)
Theorem C141_sine_refuted :
  exists r g, analyze_inl_from_sine false [0; 1; 4] None None 0 true true = Ok (r, Some g) /\
  pn_y (di_inl g) = [10 / 3; 7 / 3; 4 / 3] /\ fst (pn_ylim (di_inl g)) = 1.6 /\ ~ covers (pn_ylim (di_inl g)) (pn_y (di_inl g)).
Proof. exact c141_sine_refuted. Qed.
Print Assumptions C141_sine_refuted.

(** Four codes, one of them missing: DNL 0, 1, -1, 0 on axes from -1 to 1, titles -1.00 .. 1.00 and 0.00 .. 1.00. *)
Example C141_ramp_ex :
  exists r g, analyze_inl_from_ramp true (map (fun z => Fin (IZR z)) [0;1;1;3]%Z) (Some 2%Z) 0 None EpEndpoints false true true = Ok (r, Some g) /\
  pn_y (di_dnl g) = [0; 1; -1; 0] /\ pn_ylim (di_dnl g) = (-1, 1) /\ pn_y (di_inl g) = [0; 0; 1; 0; 0] /\ di_titles g = Some ((Num 2 (-100), Num 2 100), (Num 2 0, Num 2 100)).
Proof. exact c141_ramp_ex. Qed.

(** What is shown: d consecutive samples from s on, inside the record and around the (first) largest
    deviation of the signal from the fitted sine, which sits a third into the window unless an end of the
    record is in the way.  The samples are numbered from one. *)
Theorem C142_window :
  forall lstsq signal nh nc f mi tol r g,
  analyze_decomposition_time lstsq signal nh nc true f mi tol = Ok (r, Some g) ->
  decompose_harmonic_error lstsq [signal] nh f mi tol = Ok r /\
  let n := length signal in exists s d m, first_peak n (fun t => Rabs (nth t signal 0 - nth t (h_fundamental r) 0)) m /\
  (0 < d)%nat /\ (s + d <= n)%nat /\ (s <= m < s + d)%nat /\
  (d / 3 <= m -> m - d / 3 + d <= n -> s = m - d / 3)%nat /\ (m < d / 3 -> s = 0)%nat /\ (n < m - d / 3 + d -> s = n - d)%nat /\
  part_of signal s d (tf_signal g) /\ part_of (h_fundamental r) s d (tf_fitted g) /\ part_of (h_harmonic r) s d (tf_harmonic g) /\ part_of (h_noise r) s d (tf_other g) /\
  tf_index g = seq (s + 1) d /\ tf_xlim g = ((s + 1)%nat, (s + d)%nat) /\
  (forall i, (i < d)%nat -> nth i (tf_signal g) 0 = nth i (tf_fitted g) 0 + nth i (tf_harmonic g) 0 + nth i (tf_other g) 0).
Proof. exact c142_window. Qed.
Print Assumptions C142_window.

(** How many: with n_cycles >= 0 and a positive frequency at most n_cycles periods, and unless the record is
    too short more than n_cycles periods less n_cycles + 1 samples; exactly n_cycles periods when the period
    is a whole number of samples and n_cycles of them too.  With a frequency that is not positive 50 (or all).
    The plot fails only when less than one sample is asked for. *)
Theorem C142_cycles :
  forall lstsq signal nh nc f mi tol r,
  decompose_harmonic_error lstsq [signal] nh f mi tol = Ok r -> 0 <= nc ->
  let n := length signal in
  analyze_decomposition_time lstsq signal nh nc true f mi tol = Err ValueError /\ 0 < h_freq r /\ nc / h_freq r - nc < 1 \/
  exists g, analyze_decomposition_time lstsq signal nh nc true f mi tol = Ok (r, Some g) /\ let d := length (tf_signal g) in (0 < d <= n)%nat /\
  (0 < h_freq r -> INR d <= nc / h_freq r /\ ((d < n)%nat -> nc / h_freq r - nc - 1 < INR d) /\
     (forall p k : nat, 1 / h_freq r = INR p -> nc * INR p = INR k -> d = Nat.min k n)) /\
  (h_freq r <= 0 -> d = Nat.min 50 n).
Proof. exact c142_cycles. Qed.
Print Assumptions C142_cycles.

(** Vertical limits: a tenth of the range beyond the extremes of the signal (top) and of both error parts
    together (bottom), 0.1 beyond a constant; so every sample of these three curves is inside. *)
Theorem C142_vertical :
  forall lstsq signal nh nc f mi tol r g,
  analyze_decomposition_time lstsq signal nh nc true f mi tol = Ok (r, Some g) ->
  covers (tf_top g) (tf_signal g) /\ covers (tf_bottom g) (tf_harmonic g) /\ covers (tf_bottom g) (tf_other g) /\
  (forall lo hi, extremes (tf_signal g) lo hi -> lo < hi -> tf_top g = (lo - (hi - lo) / 10, hi + (hi - lo) / 10)) /\
  (forall lo hi, extremes (tf_signal g) lo hi -> lo = hi -> tf_top g = (lo - 1 / 10, hi + 1 / 10)) /\
  (forall lo hi, extremes (tf_harmonic g ++ tf_other g) lo hi -> lo < hi -> tf_bottom g = (lo - (hi - lo) / 10, hi + (hi - lo) / 10)) /\
  (forall lo hi, extremes (tf_harmonic g ++ tf_other g) lo hi -> lo = hi -> tf_bottom g = (lo - 1 / 10, hi + 1 / 10)).
Proof. exact c142_vertical. Qed.
Print Assumptions C142_vertical.

(** "Number of cycles to display": at frequency 0.34 five cycles are asked for and the record has room for
    them, yet 10 samples, 3.4 cycles, are shown. *)
Theorem C142_cycles_refuted :
  exists signal f r g, f = 0.34 /\ 5 / f <= INR (length signal) /\ h_freq r = f /\
  analyze_decomposition_time gs_lstsq signal 1 5 true (Some f) 0 (1 / 10 ^ 9) = Ok (r, Some g) /\ INR (length (tf_signal g)) * f = 3.4.
Proof. exact c142_cycles_refuted. Qed.
Print Assumptions C142_cycles_refuted.

(** The top panel shows the fitted sine too, but its limits are those of the signal: for
    cos x - 0.17 cos 3x the peaks of the fitted cos x are cut off. *)
Theorem C142_fit_hidden_refuted :
  exists signal A ph r g, is_record signal (distorted 3 0 A ph (1 / 8)) /\ length signal = 8%nat /\
  analyze_decomposition_time gs_lstsq signal 3 1 true (Some (1 / 8)) 0 (1 / 10 ^ 9) = Ok (r, Some g) /\ (forall t, (t < 8)%nat -> nth t (tf_fitted g) 0 = cos (PI / 4 * INR t)) /\
  ~ covers (tf_top g) (tf_fitted g).
Proof. exact c142_fit_hidden_refuted. Qed.
Print Assumptions C142_fit_hidden_refuted.

(** Windows of 30 samples in a record of 100: largest deviation at 50, 2 and 95. *)
Example C142_window_ex :
  time_window 100 50 30 = (40, 70)%nat /\ time_window 100 2 30 = (0, 30)%nat /\ time_window 100 95 30 = (70, 100)%nat.
Proof. exact c142_window_ex. Qed.

(** What the plot says, with B the level at the centre (a multiple of 10 dB): every harmonic is marked at its
    phase, the fundamental at angle zero, at radius level - B, between 10 and the outer radius; the ring
    labels are exactly B + radius, one ring every 10 dB from 0 to the outer radius, itself a multiple of
    10 dB less than 10 dB beyond the largest harmonic.  The residual circle has radius level - B, at least
    10, and its level is printed to two decimals; B is less than 20 dB below the lowest of all levels; the
    circle is inside the axes when some harmonic reaches it. *)
Theorem C143_reading :
  forall lstsq signal nh f mi tol r g,
  analyze_decomposition_polar lstsq signal nh true f mi tol = Ok (r, Some g) ->
  decompose_harmonic_error lstsq [signal] nh f mi tol = Ok r /\
  exists (b : Z) (lev : nat -> R), let B := IZR b * 10 in let H := Z.to_nat nh in let out := pf_max_radius g in
  (0 < H)%nat /\ length (pf_points g) = H /\
  (forall h, (h < H)%nat -> nth h (h_magnitudes_db r) NaN = Fin (lev h) /\ nth h (pf_points g) (0, 0) = (nth h (h_phases r) 0, lev h - B) /\ 10 <= lev h - B <= out) /\
  fst (nth 0 (pf_points g) (0, 0)) = 0 /\
  (forall rad lab, In (rad, lab) (pf_ticks g) -> IZR lab = B + rad) /\
  (forall rad, (exists lab, In (rad, lab) (pf_ticks g)) <-> exists j : nat, rad = 10 * INR j /\ rad <= out) /\
  (exists k : Z, out = IZR k * 10) /\ (exists h, (h < H)%nat /\ out < lev h - B + 10) /\
  reads false (pf_noise_text g) (h_noise_db r) /\
  (forall x, h_noise_db r = Fin x -> pf_noise_radius g = Fin (x - B) /\ 10 <= x - B /\ (x < B + 20 \/ exists h, (h < H)%nat /\ lev h < B + 20) /\
     ((exists h, (h < H)%nat /\ x <= lev h) -> x - B <= out)).
Proof. exact c143_reading. Qed.
Print Assumptions C143_reading.

(** The plot can be drawn exactly when the record is not constant and the decomposition leaves a residual;
    otherwise ValueError although the decomposition itself succeeds. *)
Theorem C143_accepts :
  forall lstsq signal nh f mi tol r lo hi,
  decompose_harmonic_error lstsq [signal] nh f mi tol = Ok r -> extremes signal lo hi ->
  (lo < hi -> 0 < rms_of (h_noise r) -> exists g, analyze_decomposition_polar lstsq signal nh true f mi tol = Ok (r, Some g)) /\
  (lo = hi \/ rms_of (h_noise r) = 0 -> analyze_decomposition_polar lstsq signal nh true f mi tol = Err ValueError).
Proof. exact c143_accepts. Qed.
Print Assumptions C143_accepts.

(** A signal that the harmonics describe completely cannot be drawn (in exact arithmetic). *)
Theorem C143_perfect_refuted :
  exists signal r, decompose_harmonic_error gs_lstsq [signal] 2 None 0 (1 / 10 ^ 9) = Ok r /\ h_magnitudes r = [2; 1] /\
  analyze_decomposition_polar gs_lstsq signal 2 true None 0 (1 / 10 ^ 9) = Err ValueError.
Proof. exact c143_perfect_refuted. Qed.
Print Assumptions C143_perfect_refuted.

(** The circle of the residual can lie far outside the axes: an alternating record analysed at a quarter of
    the sampling rate has a fundamental of -400 dB and a residual above 0 dB. *)
Theorem C143_circle_refuted :
  exists signal r g x, analyze_decomposition_polar gs_lstsq signal 1 true (Some (1 / 4)) 0 (1 / 10 ^ 9) = Ok (r, Some g) /\
  signal = [1; -1; 1; -1] /\ h_noise_db r = Fin x /\ exists y, pf_noise_radius g = Fin y /\ pf_max_radius g + 400 < y.
Proof. exact c143_circle_refuted. Qed.
Print Assumptions C143_circle_refuted.
