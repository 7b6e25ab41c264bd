(** * Property theorems of Mspec: statements only, proofs in MspecProofs.v.
    Generated by tools/mkprops.py from the final lemmas. *)
From Coq Require Import Lia Lra Psatz Permutation.
From Verif Require Import Base BaseLemmas Cplx FreqModel FreqSpec FreqProofs UnitsModel UnitsSpec UnitsProofs TiModel TiSpec TiProofs TiToneProofs SpecModel SpecSpec SpecLemmas SpecProofs SpecMetricProofs SpecPrepProofs SpecToneSpec SpecToneProofs CohModel CohSpec CohLemmas MatModel MatProofs MspecModel MspecSpec.
Local Open Scope R_scope.
From Verif Require Import MspecProofs.

(** The two built-in windows are the Python ones. *)
Theorem C180_windows :
  forall kz cz N,
  (1 <= N)%nat -> m_window MHann N = create_window kz cz Hann N /\ m_window MRect N = create_window kz cz Boxcar N.
Proof. exact c180_windows. Qed.
Print Assumptions C180_windows.

(** The signal band has the same number of bins whenever the band edge does not fall within the Python code's rounding tolerance of a bin. *)
Theorem C180_band :
  forall N osr c,
  (0 < N)%nat -> inband_count (Z.of_nat N) osr = Ok c ->
  (forall k : Z, IZR k = INR N / (2 * osr) \/ / 10 ^ 12 * (1 + Rabs (IZR k)) < Rabs (INR N / (2 * osr) - IZR k)) ->
  m_inband N osr = Z.to_nat c.
Proof. exact c180_band. Qed.
Print Assumptions C180_band.

(** Inside the tolerance the Python band can have one bin more. *)
Theorem C180_band_refuted :
  exists N osr, 0 < osr /\ inband_count (Z.of_nat N) osr = Ok 3%Z /\ m_inband N osr = 2%nat.
Proof. exact c180_band_refuted. Qed.
Print Assumptions C180_band_refuted.

(** For a capture without an all-zero run, every bin of the averaged spectrum except DC is exactly the corrected power of the Python
    analysis with the same full-scale range; the DC bin is zero. *)
Theorem C180_spectrum :
  forall fsc w N nb d,
  fsc <> 0 -> (0 < N)%nat -> length w = N -> lsum w <> 0 -> runs_of N d ->
  exists P, m_spectrum false fsc w N nb d = Some P /\ length P = (N / 2 + 1)%nat /\ nth 0 P 0 = 0 /\
    (forall b, (1 <= b <= N / 2)%nat -> nth b P 0 = nth b (corrected_power (centred fsc d) w N) 0).
Proof. exact c180_spectrum. Qed.
Print Assumptions C180_spectrum.

(** The runs of the Python analysis are those runs when the range is given, and the two defaults for the range agree. *)
Theorem C180_prepared :
  forall d fsc,
  orient d = d -> fsc <> 0 -> prepare_fft_input d (ScalePeak (fsc / 2)) = Ok (centred fsc d).
Proof. exact c180_prepared. Qed.
Print Assumptions C180_prepared.

Theorem C180_auto :
  forall d,
  orient d = d -> concat d <> [] -> m_full_scale d <> 0 -> prepare_fft_input d ScaleAuto = Ok (centred (m_full_scale d) d).
Proof. exact c180_auto. Qed.
Print Assumptions C180_auto.

(** The matrix is oriented alike unless it has more than one column and more than twice as many rows as columns. *)
Theorem C180_orientation :
  forall d,
  (ncols d <= 1 \/ length d <= 2 * ncols d)%nat -> m_orient d = orient d.
Proof. exact c180_orientation. Qed.
Print Assumptions C180_orientation.

(** Five runs of two samples: the Python code turns them into two runs of five samples, the MATLAB code does not. *)
Theorem C180_orientation_refuted :
  exists d, length (m_orient d) = 5%nat /\ length (orient d) = 2%nat.
Proof. exact c180_orientation_refuted. Qed.
Print Assumptions C180_orientation_refuted.

(** Runs that are zero throughout are ignored by the MATLAB code and averaged in by the Python code: with them, the MATLAB spectrum is
    the Python one times all runs over the runs that are not zero. *)
Theorem C180_silent_runs :
  forall fsc w N nb d,
  fsc <> 0 -> (0 < N)%nat -> length w = N -> lsum w <> 0 -> (forall r, In r d -> length r = N) ->
  let kept := filter (fun r => negb (m_silent r)) d in
  kept <> [] ->
  exists P, m_spectrum false fsc w N nb d = Some P /\
    (forall b, (1 <= b <= N / 2)%nat -> nth b P 0 * INR (length kept) = nth b (corrected_power (centred fsc d) w N) 0 * INR (length d)).
Proof. exact c180_silent_runs. Qed.
Print Assumptions C180_silent_runs.

(** With no harmonics removed, the in-band power of the measured spectrum is the tone's window, the first sideBin bins outside that window,
    and the noise-and-distortion power, each bin counted once. *)
Theorem C181_partition :
  forall data fs fsc coh wt side osr harmonic nthd nf cutoff r,
  (0 < ncols (m_orient data))%nat -> 0 < osr -> (-1 <= harmonic)%Z ->
  m_plotspec data fs fsc coh wt side osr harmonic nthd nf None cutoff = Ok (Some r) ->
  let f := ms_bin r in let sb := ms_side r in let n := ms_inband r in let P := ms_power r in
  ms_sig r = selected_power n (near f sb) P /\
  ms_noi r = selected_power n (fun i => (sb <=? i)%nat && negb (near f sb i)) P /\
  selected_power n (fun _ => true) P = ms_sig r + selected_power n (fun i => (i <? sb)%nat && negb (near f sb i)) P + ms_noi r.
Proof. exact c181_partition. Qed.
Print Assumptions C181_partition.

(** In every case the spur and the harmonics are part of the noise-and-distortion power, so SFDR is at least SNDR. *)
Theorem C181_order :
  forall data fs fsc coh wt side osr harmonic nthd nf assumed cutoff r,
  (0 < ncols (m_orient data))%nat -> 0 < osr ->
  m_plotspec data fs fsc coh wt side osr harmonic nthd nf assumed cutoff = Ok (Some r) ->
  0 <= ms_spur r <= ms_noi r /\ 0 <= ms_thd_power r <= ms_noi r /\ 0 <= ms_sig r /\
  (0 < ms_sig r -> xle (ms_sndr r) (ms_sfdr r) \/ (ms_sndr r = PInf /\ ms_sfdr r = PInf)).
Proof. exact c181_order. Qed.
Print Assumptions C181_order.

(** The same half-width given to both: same tone bin, and the same signal power unless the tone's window reaches DC; the MATLAB code counts one
    bin more as noise and distortion than the Python code, bin number sideBin, when it lies in the band and outside the tone's window. *)
Theorem C182_tone_and_noise :
  forall P Q M N nb fs osr wt w w' sb mh harmonic nthd nf nf' s r,
  without_dc P Q -> (forall x, In x P -> 0 <= x) ->
  (1 <= nb <= N / 2 + 1)%nat -> length P = (N / 2 + 1)%nat -> (exists i, (1 <= i < nb)%nat /\ 0 < nth i P 0) -> (-1 <= harmonic)%Z ->
  analyse_power P M N nb fs osr wt w (Some sb) mh nf None = Ok s ->
  m_measure Q w' N nb M fs osr (Some sb) harmonic nthd nf' None 0 = Ok r ->
  ms_bin r = sp_fund s /\
  ((sb < sp_fund s)%nat -> ms_sig r = sp_sig s) /\
  ms_noi r = sp_noise_dist s + (if (1 <=? sb)%nat && (sb <? nb)%nat && negb (near (sp_fund s) sb sb) then nth sb P 0 else 0).
Proof. exact c182_tone_and_noise. Qed.
Print Assumptions C182_tone_and_noise.

(** When that bin makes no difference, everything else agrees too: the spur and, for the same harmonic bins, the noise power of each of the four
    methods (up to the Python code's 1e-15 floor). *)
Theorem C182_spur_and_noise :
  forall P Q M N nb fs osr wt w w' sb mh harmonic nthd nf s r,
  without_dc P Q -> (forall x, In x P -> 0 <= x) ->
  (1 <= nb <= N / 2 + 1)%nat -> length P = (N / 2 + 1)%nat -> (exists i, (1 <= i < nb)%nat /\ 0 < nth i P 0) -> (-1 <= harmonic)%Z ->
  analyse_power P M N nb fs osr wt w (Some sb) mh nf None = Ok s ->
  m_measure Q w' N nb M fs osr (Some sb) harmonic nthd nf None 0 = Ok r ->
  no_extra P nb (sp_fund s) sb ->
  ms_noi r = sp_noise_dist s /\ ms_spur_bin r = sp_spur_bin s /\ ms_spur r = sp_spur_power s /\
  ((0 <= nf <= 3)%Z -> (forall h, In h (sp_harm_bins s) -> (0 <= h)%Z) -> ms_harmonics r = map Z.to_nat (sp_harm_bins s) ->
   sp_noise s = Some (Rmax (ms_noise_power r) (/ 10 ^ 15))).
Proof. exact c182_spur_and_noise. Qed.
Print Assumptions C182_spur_and_noise.

(** THD: for the same harmonic bins, each clear of the tone's window and of the DC region and wholly in the band, the two distortion powers agree
    (up to the Python code's 1e-15 floor). *)
Theorem C182_thd :
  forall P Q M N nb fs osr wt w w' sb mh harmonic nthd nf nf' s r,
  without_dc P Q -> (forall x, In x P -> 0 <= x) ->
  (1 <= nb <= N / 2 + 1)%nat -> length P = (N / 2 + 1)%nat -> (exists i, (1 <= i < nb)%nat /\ 0 < nth i P 0) -> (-1 <= harmonic)%Z ->
  analyse_power P M N nb fs osr wt w (Some sb) mh nf None = Ok s ->
  m_measure Q w' N nb M fs osr (Some sb) harmonic nthd nf' None 0 = Ok r ->
  ms_harmonics r = map Z.to_nat (sp_harm_bins s) ->
  (forall h, In h (sp_harm_bins s) -> (2 * Z.of_nat sb < h)%Z /\ (2 * Z.of_nat sb < Z.abs (h - Z.of_nat (sp_fund s)))%Z /\ (h + Z.of_nat sb < Z.of_nat nb)%Z) ->
  sp_thd_power s = Rmax (ms_thd_power r) (/ 10 ^ 15).
Proof. exact c182_thd. Qed.
Print Assumptions C182_thd.

(** A second harmonic landing on the tone's own window: the MATLAB code counts what is left of its window, the Python code does not count it. *)
Theorem C182_thd_refuted :
  exists P Q, without_dc P Q /\ thd_power P 4 1 [6%Z] = / 10 ^ 15 /\ m_thd_power 9 1 [6%nat] (residue 9 1 4 [] Q) = 7.
Proof. exact c182_thd_refuted. Qed.
Print Assumptions C182_thd_refuted.

(** The harmonics are looked for in the same bins when the record length is even and no multiple of the tone's position is half way between
    two bins, and for every record length when the tone sits exactly on a bin. *)
Theorem C182_harmonics :
  forall x m N,
  (0 < N)%nat -> (exists k : nat, x = INR k) \/ (Nat.Even N /\ forall i, (2 <= i <= m)%nat -> off_half (x * INR i)) ->
  m_harmonics (Some x) m N = Ok (map Z.to_nat (harmonic_bins x m N)) /\ (forall h, In h (harmonic_bins x m N) -> (0 <= h <= Z.of_nat (N / 2))%Z).
Proof. exact c182_harmonics. Qed.
Print Assumptions C182_harmonics.

(** A record of five samples, the tone at position 1.2: the MATLAB code looks for the second harmonic in bin 2, the Python code in bin 3, past
    the end of the spectrum. *)
Theorem C182_harmonics_refuted :
  m_harmonics (Some 1.2) 2 5 = Ok [2%nat] /\ harmonic_bins 1.2 2 5 = [3%Z].
Proof. exact c182_harmonics_refuted. Qed.
Print Assumptions C182_harmonics_refuted.

(** Where the tone lies between the bins: the same position when both neighbours are inside the band, away from DC and within the factor 10^4 the
    Python code insists on, or when a neighbour is exactly empty and the tone is above 1e-16. *)
Theorem C182_position :
  forall P Q N nb,
  without_dc P Q -> length P = (N / 2 + 1)%nat -> (nb <= N / 2 + 1)%nat ->
  let f := fundamental_bin P nb in (2 <= f)%nat -> (f + 1 < nb)%nat ->
  let e := nth f P 0 in let l := nth (f - 1) P 0 in let r := nth (f + 1) P 0 in
  (/ 10 ^ 20 <= l /\ / 10 ^ 20 <= r /\ e / 10 ^ 4 <= l /\ e / 10 ^ 4 <= r) \/ (/ 10 ^ 16 < e /\ 0 <= l /\ 0 <= r /\ (l = 0 \/ r = 0)) ->
  m_position Q N f = Some (fundamental_frac P nb).
Proof. exact c182_position. Qed.
Print Assumptions C182_position.

(** A tone in the last bin of an even record: its right neighbour is taken to be itself, and the position comes out half a bin past the end. *)
Theorem C182_position_refuted :
  m_position [0; 1; 100] 4 2 = Some 2.5 /\ fundamental_bin [0; 1; 100] 3 = 2%nat /\ fundamental_frac [0; 1; 100] 3 = 2.
Proof. exact c182_position_refuted. Qed.
Print Assumptions C182_position_refuted.
