(** * Property theorems of Merr: statements only, proofs in MerrProofs.v.
    Generated by tools/mkprops.py from the final lemmas. *)
From Coq Require Import Psatz.
From Verif Require Import Base BaseLemmas Cplx SpecModel SpecLemmas TiModel TiToneProofs CalModel CalSpec CalProofs CalExLemmas FitModel FitSpec FitProofs BandModel RearModel RearSpec RearProofs MatModel MatSpec MatProofs MsinModel MsinProofs MerrModel MerrSpec.
Local Open Scope R_scope.
From Verif Require Import MerrProofs.

(** Phase mode: every sample goes to the bin whose centre is nearest to its phase, the bins hold mean and standard deviation. *)
Theorem C170_bins :
  forall lin sig bin fin osr hann r,
  m_errsin lin sig bin fin false None osr hann = Ok (Some r) ->
  (0 < bin)%Z /\ length (me_bins r) = length sig /\ length (me_err r) = length sig /\ length (me_errxx r) = length sig /\ length (me_mean r) = Z.to_nat bin /\ length (me_rms r) = Z.to_nat bin /\ length (me_xx r) = Z.to_nat bin /\
  (exists q, run_fit lin sig fin = Ok (Some q) /\ forall t, (t < length sig)%nat -> 0 <= nth t (me_errxx r) 0 < 360 /\
     exists turns : Z, nth t (me_errxx r) 0 = mf_phi q * (180 / PI) + 360 * (match fin with Some f => f | None => mf_freq q end) * INR t - 360 * IZR turns) /\
  (forall t, (t < length sig)%nat -> let b := nth t (me_bins r) 0%nat in (b < Z.to_nat bin)%nat /\ exists turns : Z, Rabs (nth t (me_errxx r) 0 - 360 * IZR turns - nth b (me_xx r) 0) <= 180 / IZR bin) /\
  (forall b, (b < Z.to_nat bin)%nat -> nth b (me_xx r) 0 = 360 * INR b / IZR bin /\
     bin_spread (length sig) (fun i => (nth i (me_bins r) 0 =? b)%nat) (fun i => nth i (me_err r) 0) (nth b (me_mean r) PInf) (nth b (me_rms r) PInf)).
Proof. exact c170_bins. Qed.
Print Assumptions C170_bins.

(** The errors are fit minus signal, filtered when osr > 1: by ifilter alone with the rectangular window; with the Hann window
    between weighting and its undoing. *)
Theorem C170_error :
  forall lin sig bin fin value osr hann r,
  m_errsin lin sig bin fin value None osr hann = Ok (Some r) ->
  exists q, run_fit lin sig fin = Ok (Some q) /\ let d := map2 Rminus (mf_fitout q) sig in
  (osr = 1 -> me_err r = d) /\
  (1 < osr -> hann = false -> me_err r = m_filter_col [(0, 0.5 / osr)] d) /\
  (1 < osr -> hann = true -> (2 <= length sig)%nat -> let w t := (1 - cos (2 * PI * INR t / INR (length sig))) / 2 in
     forall t, (t < length sig)%nat -> nth t (me_err r) 0 * Rmax (w t) (1 / 100) = nth t (m_filter_col [(0, 0.5 / osr)] (map (fun i => nth i d 0 * w i) (seq 0 (length sig)))) 0).
Proof. exact c170_error. Qed.
Print Assumptions C170_error.

(** erange only shortens the lists of errors and their positions to the positions in the range. *)
Theorem C170_range :
  forall lin sig bin fin value a b osr hann r',
  m_errsin lin sig bin fin value (Some (a, b)) osr hann = Ok (Some r') ->
  exists r, m_errsin lin sig bin fin value None osr hann = Ok (Some r) /\ me_mean r' = me_mean r /\ me_rms r' = me_rms r /\ me_xx r' = me_xx r /\ me_noise r' = me_noise r /\ me_bins r' = me_bins r /\ me_first r' = me_first r /\ me_second r' = me_second r /\
  length (me_err r') = length (me_errxx r') /\ combine (me_errxx r') (me_err r') = filter (fun p => Rleb a (fst p) && Rleb (fst p) b) (combine (me_errxx r) (me_err r)).
Proof. exact c170_range. Qed.
Print Assumptions C170_range.

(** What is refused: a bin count that is not positive, a frequency not in (0, 1/2] (up to 1 by errsin's own check, above 1/2 by
    sinfit's), osr below 1, no samples. *)
Theorem C170_refuses :
  forall lin sig bin f value er osr hann,
  let good := (0 < bin)%Z /\ 0 < f <= 1 / 2 /\ 1 <= osr /\ (0 < length sig)%nat in
  (good -> exists r, m_errsin lin sig bin (Some f) value er osr hann = Ok (Some r)) /\ (~ good -> m_errsin lin sig bin (Some f) value er osr hann = Err RuntimeError).
Proof. exact c170_refuses. Qed.
Print Assumptions C170_refuses.

(** When the squared deviations follow A cos^2 + P sin^2 over at least three bins, sqrt A and sqrt P are reported. *)
Theorem C170_noise :
  forall lin sig bin fin er osr hann r A P,
  least_squares lin -> m_errsin lin sig bin fin false er osr hann = Ok (Some r) -> (3 <= bin)%Z -> 0 <= A -> 0 <= P ->
  (forall b, (b < Z.to_nat bin)%nat -> exists d, nth b (me_rms r) PInf = Fin d /\ d ^ 2 = A * cos (2 * PI * INR b / IZR bin) ^ 2 + P * sin (2 * PI * INR b / IZR bin) ^ 2) ->
  me_noise r = Some (sqrt A, sqrt P).
Proof. exact c170_noise. Qed.
Print Assumptions C170_noise.

(** One empty bin makes both noises zero, whatever the errors: its NaN becomes max(NaN, 0) = 0. *)
Theorem C170_empty_bin :
  forall lin sig bin fin er osr hann r b,
  m_errsin lin sig bin fin false er osr hann = Ok (Some r) -> (b < Z.to_nat bin)%nat -> (forall t, (t < length sig)%nat -> nth t (me_bins r) 0%nat <> b) -> me_noise r = Some (0, 0).
Proof. exact c170_empty_bin. Qed.
Print Assumptions C170_empty_bin.

(** In particular with fewer samples than bins (the default is 100 bins). *)
Theorem C170_few_samples :
  forall lin sig bin fin er osr hann r,
  m_errsin lin sig bin fin false er osr hann = Ok (Some r) -> (length sig < Z.to_nat bin)%nat -> me_noise r = Some (0, 0).
Proof. exact c170_few_samples. Qed.
Print Assumptions C170_few_samples.

(** At the same given frequency, against rearrange_error_by_phase without refinement and twice as many bins: the errors are
    opposite, the phases the same in degrees, and MATLAB's bin k holds the samples of Python's bins 2k-1 and 2k. *)
Theorem C170_agree :
  forall lin lst sig f bin hann base tol,
  least_squares lin -> least_squares lst -> 0 < f < 1 / 2 -> (0 < bin)%Z -> (3 <= length sig)%nat ->
  exists r p, m_errsin lin sig bin (Some f) false None 1 hann = Ok (Some r) /\ rearrange_error_by_phase lst sig (Some f) (2 * bin) base 0 tol = Ok p /\
  forall t, (t < length sig)%nat -> nth t (me_err r) 0 = - nth t (p_error p) 0 /\ nth t (me_errxx r) 0 = 180 / PI * wrap2pi (nth t (p_phase p) 0) /\
    nth t (me_bins r) 0%nat = ((nth t (p_bins p) 0 + 1) / 2 mod Z.to_nat bin)%nat.
Proof. exact c170_agree. Qed.
Print Assumptions C170_agree.

(** Value mode: equal bins between the smallest and the largest sample; every sample is within half a bin of the centre of its
    bin, whose mean and standard deviation are returned; a constant signal goes to the last bin; no noise is reported.  The two
    drawn traces average the samples with phases below 180 degrees and the others. *)
Theorem C171_bins :
  forall lin sig bin fin osr hann r,
  m_errsin lin sig bin fin true None osr hann = Ok (Some r) ->
  exists lo hi, In lo sig /\ In hi sig /\ (forall x, In x sig -> lo <= x <= hi) /\ (0 < bin)%Z /\ me_noise r = None /\ me_errxx r = sig /\ length (me_err r) = length sig /\ length (me_bins r) = length sig /\
  length (me_mean r) = Z.to_nat bin /\ length (me_rms r) = Z.to_nat bin /\ length (me_xx r) = Z.to_nat bin /\ length (me_first r) = Z.to_nat bin /\ length (me_second r) = Z.to_nat bin /\
  (forall t, (t < length sig)%nat -> let b := nth t (me_bins r) 0%nat in (b < Z.to_nat bin)%nat /\ Rabs (nth t sig 0 - nth b (me_xx r) 0) <= (hi - lo) / IZR bin / 2 /\ (lo = hi -> b = (Z.to_nat bin - 1)%nat)) /\
  exists q, run_fit lin sig fin = Ok (Some q) /\ let phase t := m_phase (mf_phi q) (match fin with Some f => f | None => mf_freq q end) t in
  (forall b, (b < Z.to_nat bin)%nat -> nth b (me_xx r) 0 = lo + (INR b + 1 / 2) * ((hi - lo) / IZR bin) /\
     bin_spread (length sig) (fun i => (nth i (me_bins r) 0 =? b)%nat) (fun i => nth i (me_err r) 0) (nth b (me_mean r) PInf) (nth b (me_rms r) PInf) /\
     bin_average (length sig) (fun i => Rltb (phase i) 180 && (nth i (me_bins r) 0 =? b)%nat) (fun i => nth i (me_err r) 0) (nth b (me_first r) PInf) /\
     bin_average (length sig) (fun i => Rleb 180 (phase i) && (nth i (me_bins r) 0 =? b)%nat) (fun i => nth i (me_err r) 0) (nth b (me_second r) PInf)).
Proof. exact c171_bins. Qed.
Print Assumptions C171_bins.

(** At the same given frequency against rearrange_error_by_value (the range given as the smallest and largest sample, nothing
    clipped, no refinement): with 2(n-1) MATLAB bins, Python's n bins are pairs of them, the outer ones alone, except at the
    ties that numpy rounds to even. *)
Theorem C171_agree :
  forall lin lst sig f n lo hi hann tol,
  least_squares lin -> least_squares lst -> 0 < f < 1 / 2 -> (2 <= n)%Z -> (3 <= length sig)%nat ->
  In lo sig -> In hi sig -> (forall x, In x sig -> lo <= x <= hi) -> lo < hi ->
  exists r v, m_errsin lin sig (2 * (n - 1)) (Some f) true None 1 hann = Ok (Some r) /\ rearrange_error_by_value lst sig (Some f) (Some n) 0 (Some (lo, hi)) 0 tol = Ok v /\
  forall t, (t < length sig)%nat -> nth t (me_err r) 0 = - nth t (v_error v) 0 /\
    (~ tie ((nth t sig 0 - lo) * (IZR (n - 1) / (hi - lo))) -> nth t (v_bins v) 0%nat = ((nth t (me_bins r) 0 + 1) / 2)%nat).
Proof. exact c171_agree. Qed.
Print Assumptions C171_agree.

(** The trace drawn as rising averages samples where the fitted sine falls: for phases strictly between 0 and 180 degrees the
    slope of mag cos(2 pi freq t + phi) + dc is negative. *)
Theorem C171_rising :
  forall mag f phi dc t,
  0 < mag -> 0 < f -> 0 < m_phase phi f t < 180 -> exists s, derivable_pt_lim (fun x => mag * cos (2 * PI * f * x + phi) + dc) (INR t) s /\ s < 0.
Proof. exact c171_rising. Qed.
Print Assumptions C171_rising.

Theorem C171_rising_refuted :
  exists mag f phi dc t, 0 < mag /\ 0 < f /\ m_phase phi f t < 180 /\ exists s, derivable_pt_lim (fun x => mag * cos (2 * PI * f * x + phi) + dc) (INR t) s /\ s < 0.
Proof. exact c171_rising_refuted. Qed.
Print Assumptions C171_rising_refuted.

Example C170_noise_ex :
  exists r, m_errsin gs_lstsq flat_record 4 (Some (1 / 4)) false None 1 true = Ok (Some r) /\ me_noise r = Some (1, 1).
Proof. exact c170_noise_ex. Qed.

(** Errors of constant size: MATLAB reads them as amplitude and as phase noise, Python (with a noise floor) as neither. *)
Theorem C170_flat_refuted :
  exists sig f bin r p, m_errsin gs_lstsq sig bin (Some f) false None 1 true = Ok (Some r) /\ rearrange_error_by_phase gs_lstsq sig (Some f) bin true 0 (1 / 10 ^ 9) = Ok p /\ me_noise r = Some (1, 1) /\ p_am_v p = 0 /\ p_pm_v p = 0.
Proof. exact c170_flat_refuted. Qed.
Print Assumptions C170_flat_refuted.

Example C170_bins_ex :
  exists r, m_errsin gs_lstsq flat_record 4 (Some (1 / 4)) false None 1 true = Ok (Some r) /\ me_bins r = [0; 1; 2; 3; 0; 1; 2; 3]%nat /\ nth 1 (me_xx r) 0 = 90 /\ nth 5 (me_err r) 0 = 1.
Proof. exact c170_bins_ex. Qed.

Example C170_error_ex :
  exists r, m_errsin gs_lstsq flat_record 4 (Some (1 / 4)) true None 1 true = Ok (Some r) /\ nth 0 (me_err r) 0 = -1.
Proof. exact c170_error_ex. Qed.

Example C170_range_ex :
  exists r, m_errsin gs_lstsq flat_record 4 (Some (1 / 4)) true (Some (0, 2)) 1 true = Ok (Some r) /\ me_errxx r = [1; 1; 1; 1].
Proof. exact c170_range_ex. Qed.

Example C170_refuses_ex :
  m_errsin gs_lstsq flat_record 100 (Some (3 / 5)) false None 1 true = Err RuntimeError.
Proof. exact c170_refuses_ex. Qed.

Example C170_agree_ex :
  exists r p, m_errsin gs_lstsq flat_record 4 (Some (1 / 4)) false None 1 true = Ok (Some r) /\ rearrange_error_by_phase gs_lstsq flat_record (Some (1 / 4)) (2 * 4) true 0 1 = Ok p /\ nth 6 (me_bins r) 0%nat = 2%nat /\ ((nth 6 (p_bins p) 0 + 1) / 2 mod 4 = 2)%nat.
Proof. exact c170_agree_ex. Qed.

(** Eight samples in eight bins, every other bin empty. *)
Example C170_empty_bin_ex :
  exists r, m_errsin gs_lstsq flat_record 8 (Some (1 / 4)) false None 1 true = Ok (Some r) /\ (forall t, (t < 8)%nat -> nth t (me_bins r) 0%nat <> 1%nat) /\ me_noise r = Some (0, 0).
Proof. exact c170_empty_bin_ex. Qed.

Example C170_few_samples_ex :
  exists r, m_errsin gs_lstsq flat_record 100 (Some (1 / 4)) false None 1 true = Ok (Some r) /\ me_noise r = Some (0, 0) /\ nth 0 (me_err r) 0 = -1.
Proof. exact c170_few_samples_ex. Qed.

Example C171_bins_ex :
  exists r, m_errsin gs_lstsq flat_record 4 (Some (1 / 4)) true None 1 true = Ok (Some r) /\ nth 0 (me_bins r) 0%nat = 3%nat /\ nth 4 (me_bins r) 0%nat = 0%nat /\ nth 3 (me_xx r) 0 = 3 / 4.
Proof. exact c171_bins_ex. Qed.

Example C171_agree_ex :
  exists r v, m_errsin gs_lstsq flat_record (2 * (3 - 1)) (Some (1 / 4)) true None 1 true = Ok (Some r) /\ rearrange_error_by_value gs_lstsq flat_record (Some (1 / 4)) (Some 3%Z) 0 (Some (-1, 1)) 0 1 = Ok v /\ nth 0 (v_bins v) 0%nat = 2%nat.
Proof. exact c171_agree_ex. Qed.

Example C171_rising_ex :
  exists s, derivable_pt_lim (fun x => 2 * cos (2 * PI * (1 / 8) * x + 0) + 1) (INR 1) s /\ s < 0.
Proof. exact c171_rising_ex. Qed.
