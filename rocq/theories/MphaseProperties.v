(** * Property theorems of Mphase: statements only, proofs in MphaseProofs.v.
    Generated by tools/mkprops.py from the final lemmas. *)
From Coq Require Import Lia Lra Psatz Permutation Sorting.
From Verif Require Import Base BaseLemmas Cplx FreqModel FreqSpec FreqProofs UnitsModel UnitsSpec UnitsProofs TiModel TiSpec TiProofs TiToneProofs SpecModel SpecSpec SpecLemmas SpecProofs SpecMetricProofs SpecPrepProofs SpecToneSpec SpecToneProofs SpecReportSpec SpecReportProofs CalModel CalSpec CalProofs CalExLemmas FitModel FitSpec FitProofs HarmModel HarmSpec HarmProofs PlotModel PlotSpec PlotProofs MatModel MatProofs CohModel CohSpec CohLemmas CohProofs DoutModel DoutSpec DoutProofs AcfProofs MsinModel MsinProofs MspecModel MspecSpec MspecProofs MspecCohProofs MphaseModel MphaseSpec.
Local Open Scope R_scope.
From Verif Require Import MphaseProofs.

(** The plotted values are a least-squares solution: magnitudes twice the amplitudes and angles the phases (clockwise, relative to the
    fundamental) of harmonics whose residual is the smallest possible; without oversampling that residual is the noise, times 2 sqrt 2. *)
Theorem C190_best :
  forall lin y f nh osr w g,
  least_squares lin -> osr <= 1 -> p_lms_at lin y f nh osr w = Ok g -> let H := Z.to_nat nh in
  exists A ph, length (pl_mag g) = H /\ length (pl_phase g) = H /\
  (forall h, (h < H)%nat -> 0 <= A h /\ nth h (pl_mag g) 0 = 2 * A h /\ same_angle (nth h (pl_phase g) 0) (- (ph h - INR (S h) * ph 0%nat)) /\ - PI <= nth h (pl_phase g) 0 < PI) /\
  pl_noise g = 2 * sqrt 2 * rms_of (left_over y H A ph f) /\
  forall B th, rms_of (left_over y H A ph f) <= rms_of (left_over y H B th f).
Proof. exact c190_best. Qed.
Print Assumptions C190_best.

(** A record that consists of harmonics only cannot be drawn: the residual's level is minus infinity. *)
Theorem C190_perfect :
  forall lin y f nh osr w A ph,
  least_squares lin -> osr <= 1 -> (forall t, (t < length y)%nat -> nth t y 0 = distorted (Z.to_nat nh) 0 A ph f t) ->
  p_lms_at lin y f nh osr w = Err RuntimeError.
Proof. exact c190_perfect. Qed.
Print Assumptions C190_perfect.

(** What the figure shows: angle and level of every harmonic and the level of the residual, measured from a multiple of 10 dB that lies at
    least 10 dB below all of them; the fundamental points upwards; the labels are the levels; the perimeter is the next multiple of 10 dB above the
    largest harmonic, and the circle of the residual is inside it exactly when its level is not above that. *)
Theorem C190_reading :
  forall lin y f nh osr w g,
  p_lms_at lin y f nh osr w = Ok g -> let H := Z.to_nat nh in
  exists b : Z, let B := IZR b * 10 in let out := pl_limit g in
  (0 < H)%nat /\ length (pl_points g) = H /\ length (pl_mag g) = H /\ 0 < pl_noise g /\
  (forall h, (h < H)%nat -> 0 < nth h (pl_mag g) 0 /\ nth h (pl_points g) (0, 0) = (nth h (pl_phase g) 0, level_db (nth h (pl_mag g) 0) - B) /\ 10 <= level_db (nth h (pl_mag g) 0) - B <= out) /\
  fst (nth 0 (pl_points g) (0, 0)) = 0 /\
  pl_circle g = level_db (pl_noise g) - B /\ 10 <= pl_circle g /\ (pl_circle g < 20 \/ exists h, (h < H)%nat /\ snd (nth h (pl_points g) (0, 0)) < 20) /\
  says (pl_text g, Unit) (level_db (pl_noise g)) /\
  (forall rad lab, In (rad, lab) (pl_ticks g) -> IZR lab = B + rad) /\
  (forall rad, (exists lab, In (rad, lab) (pl_ticks g)) <-> exists j : nat, rad = 10 * INR j /\ rad <= out) /\
  (exists k : Z, out = IZR k * 10) /\ (exists h, (h < H)%nat /\ out < level_db (nth h (pl_mag g) 0) - B + 10).
Proof. exact c190_reading. Qed.
Print Assumptions C190_reading.

(** A capture whose runs average to harmonics of a coherent frequency plus an error that has no part at those frequencies: the plotted magnitudes
    are twice the amplitudes, the angles the phases relative to the fundamental, the noise 2 sqrt 2 times the rms of the error, all over the full scale. *)
Theorem C190_recovers :
  forall lin d scale k nh osr w dc A ph e,
  least_squares lin -> d <> [] -> 0 < scale -> osr <= 1 -> (0 < nh)%Z -> let H := Z.to_nat nh in
  let n := length (hd [] d) in let f := INR k / INR n in (0 < k)%nat -> (2 * H * k < n)%nat ->
  (forall t, (t < n)%nat -> run_mean d t = distorted H dc A ph f t + e t) -> out_of_harmonics n H f e -> (forall h, (h < H)%nat -> 0 < A h) -> 0 < rsum n (fun t => e t ^ 2) ->
  exists g, p_lms_at lin (p_record scale d) f nh osr w = Ok g /\
  (forall h, (h < H)%nat -> nth h (pl_mag g) 0 = 2 * A h / scale /\ same_angle (nth h (pl_phase g) 0) (- (ph h - INR (S h) * ph 0%nat))) /\
  pl_noise g = 2 * sqrt 2 * sqrt (rsum n (fun t => e t ^ 2) / INR n) / scale.
Proof. exact c190_recovers. Qed.
Print Assumptions C190_recovers.

(** One run at a coherent frequency, no oversampling, any two least-squares solvers: the plotted magnitudes and the noise are the Python ones over the
    full scale, and the angles are the same. *)
Theorem C190_python :
  forall lin lst y k nh tol osr w scale r g,
  least_squares lin -> least_squares lst -> 0 < scale -> osr <= 1 -> (2 <= length y)%nat -> let H := Z.to_nat nh in let f := INR k / INR (length y) in
  (0 < k)%nat -> (2 * H * k < length y)%nat -> decompose_harmonic_error lst [y] nh (Some f) 0 tol = Ok r -> p_lms_at lin (p_record scale [y]) f nh osr w = Ok g ->
  pl_phase g = h_phases r /\ pl_mag g = map (fun m => m / scale) (h_magnitudes r) /\ pl_noise g = h_residual_rms r / scale.
Proof. exact c190_python. Qed.
Print Assumptions C190_python.

(** With the automatic full scale, gain and offset of the converter change nothing. *)
Theorem C190_invariant :
  forall lin r nh fs osr cutoff w a b,
  0 < a ->
  m_plotphase_lms lin [map (fun v => a * v + b) r] nh None fs osr cutoff w = m_plotphase_lms lin [r] nh None fs osr cutoff w.
Proof. exact c190_invariant. Qed.
Print Assumptions C190_invariant.

(** Without a constant among the columns the fit is biased when the record does not hold whole periods: a cosine of amplitude 1 and its true
    frequency, five samples, full scale 2.  The magnitude should be 1 (0 dB); the Python fit, which has the constant, finds 1. *)
Theorem C190_offset_refuted :
  exists y f g r, is_record y (sine 1 f 0 0) /\ p_lms_at gs_lstsq (p_record 2 [y]) f 1 1 MRect = Ok g /\ nth 0 (pl_mag g) 0 = 14 / 15 /\
  decompose_harmonic_error gs_lstsq [y] 1 (Some f) 0 (1 / 10 ^ 9) = Ok r /\ nth 0 (h_magnitudes r) 0 / 2 = 1.
Proof. exact c190_offset_refuted. Qed.
Print Assumptions C190_offset_refuted.

(** What the polar spectrum shows.  S: the sum of the aligned runs over the band, without the bins below the cutoff. *)
Theorem C191_reading :
  forall sig H ms fs osr cut w g,
  m_plotphase_fft sig H ms fs osr cut w = Ok g ->
  let N := ncols (m_orient sig) in let nb := p_band N osr in let al := p_aligned_runs N nb (m_heard (p_scale ms sig) (m_window w N) (m_orient sig)) in
  let S := p_cut cut fs N (p_sum al nb) in let level := fun b => level_db (4 * Cmod (nth b S C0) / (INR N * INR (length al))) in
  0 < px_limit g /\ length (px_points g) = length S /\
  (forall b, (b < length S)%nat -> (nth b S C0 = C0 -> nth b (px_points g) None = None) /\
     (nth b S C0 <> C0 -> exists a, nth b (px_points g) None = Some (a, Rmax 0 (level b + px_limit g)) /\ (0 < level b + px_limit g -> angle_of (nth b S C0) a))) /\
  (forall r l, In (r, l) (px_ticks g) <-> exists i : nat, l = - (10 * INR i) /\ r = px_limit g + l /\ 0 <= r) /\
  map fst (px_harmonics g) = seq 2 (H - 1) /\ (forall h p, In (h, p) (px_harmonics g) -> In p (px_points g)).
Proof. exact c191_reading. Qed.
Print Assumptions C191_reading.

(** Where the centre lies: at -100 dB as soon as one bin in a hundred is empty, else at the level of a bin with less than a hundredth of all
    bins below it. *)
Theorem C191_centre :
  forall sig H ms fs osr cut w g,
  m_plotphase_fft sig H ms fs osr cut w = Ok g ->
  let N := ncols (m_orient sig) in let nb := p_band N osr in let al := p_aligned_runs N nb (m_heard (p_scale ms sig) (m_window w N) (m_orient sig)) in
  let levels := map (level_of N (length al)) (p_cut cut fs N (p_sum al nb)) in let n := INR (length levels) in let empty := length (filter (fun l => match l with None => true | Some _ => false end) levels) in
  (0.01 * n <= INR empty -> px_limit g = 100) /\ (INR empty < 0.01 * n -> In (Some (- px_limit g)) levels /\ INR (below (- px_limit g) levels) < 0.01 * n).
Proof. exact c191_centre. Qed.
Print Assumptions C191_centre.

(** With at most a hundred bins and no cutoff the axis always ends at 100 dB: bin 0 is empty. *)
Theorem C191_hundred :
  forall sig H ms fs osr w g,
  m_plotphase_fft sig H ms fs osr 0 w = Ok g -> (length (px_points g) <= 100)%nat -> px_limit g = 100.
Proof. exact c191_hundred. Qed.
Print Assumptions C191_hundred.

(** One run, no cutoff: every bin is as far out as the run's own spectrum is strong, and the strongest bin is at angle 0. *)
Theorem C191_single :
  forall r H v fs osr w g,
  m_plotphase_fft [r] H (Some v) fs osr 0 w = Ok g -> 1 <= osr -> length (m_window w (length r)) = length r ->
  let N := length r in let X := rfft (m_run v (m_window w N) r) in let nb := length (px_points g) in let level := fun b => level_db (4 * Cmod (X b) / INR N) in
  nb = p_band N osr /\ nth 0 (px_points g) None = None /\
  (forall b, (1 <= b < nb)%nat -> (X b = C0 -> nth b (px_points g) None = None) /\ (X b <> C0 -> exists a, nth b (px_points g) None = Some (a, Rmax 0 (level b + px_limit g)))) /\
  exists k, (1 <= k < nb)%nat /\ X k <> C0 /\ (forall b, (1 <= b < nb)%nat -> Cmod (X b) <= Cmod (X k)) /\ (forall b, (1 <= b < k)%nat -> Cmod (X b) < Cmod (X k)) /\
    (- px_limit g < level k -> nth k (px_points g) None = Some (0, level k + px_limit g) /\ px_tone g = Some (0, level k + px_limit g)).
Proof. exact c191_single. Qed.
Print Assumptions C191_single.

(** Records that differ only in where they start (rectangular window, tone with a number of periods coprime to the record length) give the
    figure of one of them. *)
Theorem C191_delays :
  forall r k ds H v fs osr cut,
  let N := length r in let nb := p_band N osr in let t := m_run v (m_window MRect N) r in 1 <= osr -> ~ Forall (fun x => x = 0) r ->
  strongest_bin N nb t k -> rfft t k <> C0 -> Nat.gcd k N = 1%nat -> ds <> [] ->
  m_plotphase_fft (map (fun d => rotated d r) ds) H (Some v) fs osr cut MRect = m_plotphase_fft [r] H (Some v) fs osr cut MRect.
Proof. exact c191_delays. Qed.
Print Assumptions C191_delays.

(** A pure tone of k periods in 2M samples, rectangular window: only its own bin is drawn, at angle 0 and at its level, on an axis from
    -100 dB; but as soon as one of the harmonics to be marked falls on bin M (half the sampling rate) the call fails, for that bin is not among the bins
    shown. *)
Theorem C191_tone :
  forall M k H v fs A c ph,
  (0 < k)%nat -> (k + 2 <= M)%nat -> 0 < v -> 0 < fs -> 0 < A -> let N := (2 * M)%nat in let level := level_db (2 * A / v) in -100 < level ->
  let run := m_plotphase_fft [map (fun n => c + A * cos (2 * PI * INR k * INR n / INR N + ph)) (seq 0 N)] H (Some v) fs 1 0 MRect in
  ((forall h, (2 <= h <= H)%nat -> ((h * k) mod N <> M)%nat) -> exists g, run = Ok g /\ px_limit g = 100 /\ px_tone g = Some (0, level + 100) /\ length (px_points g) = M /\
     (forall b, (b < M)%nat -> nth b (px_points g) None = if (b =? k)%nat then Some (0, level + 100) else None) /\
     map snd (px_harmonics g) = map (fun h => nth (Nat.min ((h * k) mod N) (N - (h * k) mod N)) (px_points g) None) (seq 2 (H - 1))) /\
  ((exists h, (2 <= h <= H)%nat /\ ((h * k) mod N = M)%nat) -> run = Err RuntimeError).
Proof. exact c191_tone. Qed.
Print Assumptions C191_tone.

(** One would like a clean tone to be drawn whatever the number of harmonics to be marked; with the default of five this one is an error. *)
Theorem C191_tone_refuted :
  m_plotphase_fft [tone8] 5 (Some 2) 1 1 0 MRect = Err RuntimeError.
Proof. exact c191_tone_refuted. Qed.
Print Assumptions C191_tone_refuted.

(** Between bins the tone is placed at the top of the parabola through the logarithms of its bin and both neighbours; with an empty neighbour
    it stays on its bin. *)
Theorem C191_position :
  forall X nb k a b c,
  let mag j := Cmod (X j) in (0 < mag (k - 1)%nat)  -> (0 < mag (Nat.min (k + 1) (nb - 1))) -> a <> 0 ->
  (forall s v, In (s, v) [(-1, mag (k - 1)%nat); (0, mag k); (1, mag (Nat.min (k + 1) (nb - 1)))] -> a * s ^ 2 + b * s + c = ln v / ln 10) ->
  exists s, p_position X nb k = INR k + s /\ 2 * a * s + b = 0.
Proof. exact c191_position. Qed.
Print Assumptions C191_position.

Theorem C191_position_edge :
  forall X nb k,
  Cmod (X (k - 1)%nat) = 0 \/ Cmod (X (Nat.min (k + 1) (nb - 1))) = 0 -> p_position X nb k = INR k.
Proof. exact c191_position_edge. Qed.
Print Assumptions C191_position_edge.

(** The least-squares mode fits the frequency from scratch, to 10^-12 in at most 100 steps, and then reads the plot at that frequency. *)
Theorem C190_frequency :
  forall lin sig nh ms fs osr cut w g,
  m_plotphase_lms lin sig nh ms fs osr cut w = Ok g ->
  exists r, m_sinfit lin [p_record (p_scale ms sig) (m_orient sig)] 0 (1 / 10 ^ 12) (1 / 2) false 100 = Ok (Some r) /\ p_lms_at lin (p_record (p_scale ms sig) (m_orient sig)) (mf_freq r) nh osr w = Ok g.
Proof. exact c190_frequency. Qed.
Print Assumptions C190_frequency.

(** With oversampling and no window the noise is what the ideal filter keeps between 0 and fs / (2 osr); without oversampling all of it. *)
Theorem C190_inband :
  forall osr res,
  (1 < osr -> res <> [] -> p_inband osr MRect res = bind (m_ifilter (map (fun x => [x]) res) [[0; 1 / (2 * osr)]]) (fun c => Ok (map (fun r => nth 0 r 0) c))) /\ (osr <= 1 -> forall w, p_inband osr w res = Ok res).
Proof. exact c190_inband. Qed.
Print Assumptions C190_inband.
