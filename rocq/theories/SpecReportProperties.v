(** * Property theorems of SpecReport: statements only, proofs in SpecReportProofs.v.
    Generated by tools/mkprops.py from the final lemmas. *)
From Verif Require Import Base BaseLemmas Cplx FreqModel UnitsModel UnitsSpec UnitsProofs TiModel TiSpec TiProofs TiToneSpec TiToneProofs SpecModel SpecSpec SpecLemmas SpecProofs SpecMetricProofs SpecPrepProofs SpecToneSpec SpecToneProofs SpecReportSpec.
From Coq Require Import Psatz Permutation Sorted String List.
Local Open Scope string_scope.
Local Open Scope list_scope.
Local Open Scope R_scope.
From Verif Require Import SpecReportProofs.

(** Signal power: without an assumed value it is the power of the window around the fundamental and its dBFS
    figure 10 lg of it (floored at 1e-30); an assumed level replaces both consistently. *)
Theorem C100_signal :
  forall kz cz data fs sc wt side osr mh nf assumed cutoff r,
  compute_spectrum kz cz data fs sc wt side osr mh nf assumed cutoff = Ok r ->
  match assumed with
  | None => sp_sig r = selected_power (sp_inband r) (near (sp_fund r) (sp_side r)) (sp_power r) /\ sp_sig_dbfs r = 10 * lg (Rmax (sp_sig r) (/ 10 ^ 30))
  | Some a => sp_sig_dbfs r = a /\ 0 < sp_sig r /\ 10 * lg (sp_sig r) = a
  end.
Proof. exact c100_signal. Qed.
Print Assumptions C100_signal.

(** ENOB is (SNDR - 1.76) / 6.02; without signal power SNDR is -inf and SFDR and THD are nan; with signal
    power THD and every harmonic level are 10 lg of the power ratio. *)
Theorem C100_ratios :
  forall kz cz data fs sc wt side osr mh nf assumed cutoff r,
  compute_spectrum kz cz data fs sc wt side osr mh nf assumed cutoff = Ok r ->
  length (sp_harm_bins r) = (Z.to_nat mh - 1)%nat /\ length (sp_harm_powers r) = length (sp_harm_bins r) /\ length (sp_harm_dbc r) = length (sp_harm_bins r) /\ 0 <= sp_sig r /\
  (0 < sp_sig r ->
     (exists d, sp_sndr r = Fin d /\ sp_enob r = Fin ((d - 1.76) / 6.02)) /\
     sp_thd r = Fin (10 * lg (sp_thd_power r / sp_sig r)) /\
     forall i, (i < length (sp_harm_bins r))%nat -> nth i (sp_harm_dbc r) NaN = Fin (10 * lg (nth i (sp_harm_powers r) 0 / sp_sig r))) /\
  (sp_sig r = 0 -> sp_sndr r = NInf /\ sp_enob r = NInf /\ sp_sfdr r = NaN /\ sp_thd r = NaN /\ forall i, nth i (sp_harm_dbc r) NaN = NaN).
Proof. exact c100_ratios. Qed.
Print Assumptions C100_ratios.

(** SNR, noise floor and noise density: with a noise power v, SNR = 10 lg (sig / v), noise floor = dBFS - SNR
    and NSD = noise floor - 10 lg (fs / (2 osr)); so without an assumed level the floor is 10 lg v.  Without a
    noise power all three are nan. *)
Theorem C100_noise :
  forall kz cz data fs sc wt side osr mh nf assumed cutoff r,
  compute_spectrum kz cz data fs sc wt side osr mh nf assumed cutoff = Ok r -> 0 < fs ->
  match sp_noise r with
  | None => sp_snr r = NaN /\ sp_floor r = NaN /\ sp_nsd r = NaN
  | Some v => 0 < v /\ (0 < sp_sig r -> sp_snr r = Fin (10 * lg (sp_sig r / v)) /\ sp_floor r = Fin (sp_sig_dbfs r - 10 * lg (sp_sig r / v)) /\
                sp_nsd r = Fin (sp_sig_dbfs r - 10 * lg (sp_sig r / v) - 10 * lg (fs / (2 * osr))) /\
                (assumed = None -> / 10 ^ 30 <= sp_sig r -> sp_floor r = Fin (10 * lg v)))
  end.
Proof. exact c100_noise. Qed.
Print Assumptions C100_noise.

(** A harmonic number is listed as collided exactly when its bin is within two half-widths of the fundamental. *)
Theorem C100_collided :
  forall kz cz data fs sc wt side osr mh nf assumed cutoff r k,
  compute_spectrum kz cz data fs sc wt side osr mh nf assumed cutoff = Ok r ->
  In k (sp_collided r) <-> (2 <= k < 2 + length (sp_harm_bins r))%nat /\ (Z.abs (nth (k - 2) (sp_harm_bins r) 0%Z - Z.of_nat (sp_fund r)) <= 2 * Z.of_nat (sp_side r))%Z.
Proof. exact c100_collided. Qed.
Print Assumptions C100_collided.

Example C100_three_tones_ex :
  forall kz cz,
  exists r d,
  compute_spectrum kz cz [map (multitone 64 3 7 (fun i => nth i [2; 0.02; 0.002] 0) (fun i => INR i) (fun i => nth i [5; 10; 15] 0)%nat) (seq 0 64)]
    1 (ScalePeak 2) Hann (Some 1%nat) 1 5 3 None 0 = Ok r /\
  sp_sig_dbfs r = 0 /\ sp_sndr r = Fin d /\ sp_enob r = Fin ((d - 1.76) / 6.02) /\ length (sp_harm_dbc r) = 4%nat.
Proof. exact c100_three_tones_ex. Qed.

(** The cutoff replaces exactly the bins below the cutoff frequency by 1e-20 and leaves the rest of the
    spectrum alone. *)
Theorem C101_cutoff_bins :
  forall kz cz l fs sc wt side osr mh nf assumed cutoff r r0 i,
  0 < fs -> 0 < cutoff ->
  compute_spectrum kz cz [l] fs sc wt side osr mh nf assumed cutoff = Ok r -> compute_spectrum kz cz [l] fs sc wt side osr mh nf assumed 0 = Ok r0 ->
  length (sp_power r) = length (sp_power r0) /\
  ((i < length (sp_power r0))%nat -> nth i (sp_power r) 0 = if Rltb (INR i * fs / INR (length l)) cutoff then / 10 ^ 20 else nth i (sp_power r0) 0).
Proof. exact c101_cutoff_bins. Qed.
Print Assumptions C101_cutoff_bins.

(** A cutoff of zero or below does nothing; a positive one with fs = 0 raises ZeroDivisionError. *)
Theorem C101_no_cutoff :
  forall kz cz data fs sc wt side osr mh nf assumed cutoff,
  cutoff <= 0 ->
  compute_spectrum kz cz data fs sc wt side osr mh nf assumed cutoff = compute_spectrum kz cz data fs sc wt side osr mh nf assumed 0.
Proof. exact c101_no_cutoff. Qed.
Print Assumptions C101_no_cutoff.

Theorem C101_zero_fs :
  forall kz cz l wt side osr mh nf assumed cutoff p,
  0 < cutoff -> 0 < osr -> l <> [] ->
  compute_spectrum kz cz [l] 0 (ScalePeak p) wt side osr mh nf assumed cutoff = Err ZeroDivisionError.
Proof. exact c101_zero_fs. Qed.
Print Assumptions C101_zero_fs.

Example C101_cutoff_ex :
  apply_cutoff [5; 6; 7; 8; 9] 2.5 8 8 = Ok [/ 10 ^ 20; / 10 ^ 20; / 10 ^ 20; 8; 9].
Proof. exact c101_cutoff_ex. Qed.

(** Parabolic interpolation on the log spectrum is exact for a log-parabolic peak: it returns the true centre. *)
Theorem C102_parabola_exact :
  forall P nb f c a x,
  f = fundamental_bin P nb -> (0 < f)%nat -> (f + 1 < Nat.min nb (length P))%nat -> 0 < a ->
  (forall k, (f - 1 <= k <= f + 1)%nat -> nth k P 0 = Rpower 10 (c - a * (INR k - x) ^ 2) /\ -20 <= c - a * (INR k - x) ^ 2 /\ c - a * (INR f - x) ^ 2 - 4 <= c - a * (INR k - x) ^ 2) ->
  fundamental_frac P nb = x.
Proof. exact c102_parabola_exact. Qed.
Print Assumptions C102_parabola_exact.

(** No interpolation at the last in-band bin, or when a neighbour is more than four decades below. *)
Theorem C102_no_interpolation :
  forall P nb f,
  f = fundamental_bin P nb ->
  ((f + 1 >= Nat.min nb (length P))%nat \/
   (0 < f)%nat /\ exists k, (k = f - 1 \/ k = f + 1)%nat /\ lg (Rmax (nth k P 0) (/ 10 ^ 20)) < lg (Rmax (nth f P 0) (/ 10 ^ 20)) - 4) ->
  fundamental_frac P nb = INR f.
Proof. exact c102_no_interpolation. Qed.
Print Assumptions C102_no_interpolation.

Example C102_peak_ex :
  fundamental_bin [1; 10; 100; 100; 10] 5 = 2%nat /\ fundamental_frac [1; 10; 100; 100; 10] 5 = 5 / 2.
Proof. exact c102_peak_ex. Qed.

(** Every sample of the five cosine windows, and of the rectangular one. *)
Theorem C103_samples :
  forall kz cz N n,
  (2 <= N)%nat -> (n < N)%nat -> let t := 2 * PI * INR n / INR N in let w k := nth n (create_window kz cz k N) 0 in
  w Boxcar = 1 /\ w Hann = hann_at t /\ w Hamming = hamming_at t /\ w Blackman = blackman_at t /\ w BlackmanHarris = blackmanharris_at t /\ w Flattop = flattop_at t.
Proof. exact c103_samples. Qed.
Print Assumptions C103_samples.

(** Kaiser and Chebyshev windows are the supplied ones; every other window has N samples. *)
Theorem C103_length :
  forall kz cz k N,
  create_window kz cz Kaiser N = kz N /\ create_window kz cz Chebwin N = cz N /\ (k <> Kaiser -> k <> Chebwin -> length (create_window kz cz k N) = N).
Proof. exact c103_length. Qed.
Print Assumptions C103_length.

(** Coherent gain and equivalent noise bandwidth, exactly, at every length above twice the lobe width. *)
Theorem C103_gain :
  forall kz cz N,
  (2 <= N)%nat -> let g k := window_gain (create_window kz cz k N) in let e k := enbw_factor (create_window kz cz k N) in
  g Boxcar = 1 /\ e Boxcar = 1 /\
  ((2 < N)%nat -> g Hann = 0.5 /\ e Hann = 1.5 /\ g Hamming = 0.54 /\ e Hamming = 0.3974 / 0.2916) /\
  ((4 < N)%nat -> g Blackman = 0.42 /\ e Blackman = 0.3046 / 0.1764) /\
  ((6 < N)%nat -> g BlackmanHarris = 0.35875 /\ Rabs (e BlackmanHarris - 2.0043529) < 0.0000001) /\
  ((8 < N)%nat -> g Flattop = 0.21557895 /\ Rabs (e Flattop - 3.7702464) < 0.0000001).
Proof. exact c103_gain. Qed.
Print Assumptions C103_gain.

(** The default half-width is exact: a coherent tone through a cosine window puts power into the bins within
    default_side_bin of its own and into no other. *)
Theorem C103_leakage :
  forall kz cz wt N J A ph b,
  wt <> Kaiser -> wt <> Chebwin -> A <> 0 -> let K := default_side_bin wt in (K < J)%nat -> (2 * (J + K) < N)%nat -> (b <= N / 2)%nat ->
  Cmod (rdft N (fun n => A * cos (2 * PI * INR J * INR n / INR N + ph) * nth n (create_window kz cz wt N) 0) b) <> 0 <-> (bin_dist b J <= K)%nat.
Proof. exact c103_leakage. Qed.
Print Assumptions C103_leakage.

(** The name table: unknown names mean Hann; automatic fallback half-widths. *)
Theorem C103_names :
  forall s,
  (win_of_name s = Boxcar <-> s = "boxcar" \/ s = "rectangular") /\ (win_of_name s = Hamming <-> s = "hamming") /\ (win_of_name s = Blackman <-> s = "blackman") /\
  (win_of_name s = BlackmanHarris <-> s = "blackmanharris") /\ (win_of_name s = Flattop <-> s = "flattop") /\ (win_of_name s = Kaiser <-> s = "kaiser") /\ (win_of_name s = Chebwin <-> s = "chebwin").
Proof. exact c103_names. Qed.
Print Assumptions C103_names.

Theorem C103_half_widths :
  map default_side_bin [Boxcar; Hann; Hamming; Blackman; BlackmanHarris; Flattop; Kaiser; Chebwin] = [0; 1; 1; 2; 3; 4; 8; 4]%nat /\
  forall w, auto_fallback w = (default_side_bin w + (match w with Boxcar => 1 | _ => 2 end))%nat.
Proof. exact c103_half_widths. Qed.
Print Assumptions C103_half_widths.

Example C103_hann_ex :
  forall kz cz,
  create_window kz cz Hann 4 = [0; 1 / 2; 1; 1 / 2].
Proof. exact c103_hann_ex. Qed.

(** A tall capture is read column by column: record i of the result is column i with its mean removed, divided
    by the peak; any other capture is read row by row. *)
Theorem C51_orientation :
  forall M K data p rows,
  rect M K data -> (0 < M)%nat -> (0 < K)%nat -> p <> 0 -> prepare_fft_input data (ScalePeak p) = Ok rows ->
  let x i j := nth j (nth i data []) 0 in
  (tall M K -> rect K M rows /\ forall i j, (i < K)%nat -> (j < M)%nat -> nth j (nth i rows []) 0 = (x j i - rsum M (fun m => x m i) / INR M) / p) /\
  (~ tall M K -> rect M K rows /\ forall i j, (i < M)%nat -> (j < K)%nat -> nth j (nth i rows []) 0 = (x i j - rsum K (fun m => x i m) / INR K) / p).
Proof. exact c51_orientation. Qed.
Print Assumptions C51_orientation.

Example C51_tall_ex :
  prepare_fft_input [[1; 2]; [3; 2]; [1; 2]; [3; 2]; [2; 7]] (ScalePeak 1) = Ok [[-1; 1; -1; 1; 0]; [-1; -1; -1; -1; 4]].
Proof. exact c51_tall_ex. Qed.

(** Which floor and scale the automatic half-width uses: the floor is the middle of the in-band bins above
    1e-20 if there are at least three of those, else of all in-band bins, but at least 1e-24 of the peak; the
    ideal leakage is scaled to the peak of the measured spectrum. *)
Theorem C28_auto_reference :
  forall P f frac nb N w corr fallback minimum med,
  (f < nb)%nat -> (0 < Nat.min nb (length P))%nat ->
  let big := filter (fun p => Rltb (/ 10 ^ 20) p) (firstn nb P) in
  middle_of (if (3 <=? length big)%nat then big else firstn nb P) med ->
  let sp := map (fun p => p * corr) (power_average N [map2 Rmult (map (fun n => sin (2 * PI * frac * INR n / INR N)) (seq 0 N)) w]) in
  let peak := Rmax (nth f P 0) (/ 10 ^ 30) in
  let fl := Rmax med (peak * / 10 ^ 24) in
  let ideal k := nth k sp 0 * (peak / Rmax (nth f sp 0) (/ 10 ^ 30)) in
  let sb := side_bin_auto P f frac nb N w corr fallback minimum in
  let mx := Nat.min f (nb - 1 - f) in let mn := Nat.min minimum mx in
  (exists s, (1 <= s <= mx)%nat /\ ideal (f - s)%nat <= fl /\ ideal (f + s)%nat <= fl /\
     (forall s', (1 <= s' < s)%nat -> fl < ideal (f - s')%nat \/ fl < ideal (f + s')%nat) /\ sb = Nat.max (s - 1) mn) \/
  ((forall s, (1 <= s <= mx)%nat -> fl < ideal (f - s)%nat \/ fl < ideal (f + s)%nat) /\ sb = Nat.min (Nat.max fallback mn) mx).
Proof. exact c28_auto_reference. Qed.
Print Assumptions C28_auto_reference.
