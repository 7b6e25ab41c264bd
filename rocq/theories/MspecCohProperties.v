(** * Property theorems of MspecCoh: statements only, proofs in MspecCohProofs.v.
    Generated by tools/mkprops.py from the final lemmas. *)
From Coq Require Import Lia Lra Psatz Permutation.
From Verif Require Import Base BaseLemmas Cplx FreqModel FreqSpec FreqProofs UnitsModel UnitsSpec UnitsProofs TiModel TiSpec TiProofs TiToneProofs SpecModel SpecSpec SpecLemmas SpecProofs SpecMetricProofs SpecPrepProofs SpecToneSpec SpecToneProofs SpecReportSpec SpecReportProofs CohModel CohSpec CohLemmas CohProofs MatModel MatProofs MspecModel MspecSpec MspecProofs.
Local Open Scope R_scope.
From Verif Require Import MspecCohProofs.

(** Aligning a run changes the phases only, clears bin 0, and leaves the strongest bin real and positive. *)
Theorem C184_turned :
  forall N nb t a,
  length t = N -> (1 <= nb <= N / 2 + 1)%nat -> m_aligned N nb t = Some a ->
  a O = C0 /\ (forall b, (1 <= b)%nat -> Cmod (a b) = Cmod (rfft t b)) /\
  exists k, strongest_bin N nb t k /\ ((2 * k < N)%nat -> a k = RtoC (Cmod (rfft t k))).
Proof. exact c184_turned. Qed.
Print Assumptions C184_turned.

(** Coherent averaging never shows more power in a bin than power averaging does, when every run has some power in the band. *)
Theorem C184_below :
  forall fsc w N nb d P Q,
  length w = N -> (1 <= nb <= N / 2 + 1)%nat -> runs_of N d ->
  (forall r, In r d -> exists b, (1 <= b < nb)%nat /\ rfft (m_run fsc w r) b <> C0) ->
  m_spectrum true fsc w N nb d = Some P -> m_spectrum false fsc w N nb d = Some Q ->
  forall b, (2 * b <= N)%nat -> 0 <= nth b P 0 <= nth b Q 0.
Proof. exact c184_below. Qed.
Print Assumptions C184_below.

(** For one run coherent averaging changes nothing (the Python code attenuates harmonic h by (1 + 1e-20/|X|)^(-2h), C106). *)
Theorem C184_single :
  forall fsc w N nb r,
  length w = N -> length r = N -> (1 <= nb <= N / 2 + 1)%nat -> ~ Forall (fun x => x = 0) r ->
  (exists b, (1 <= b < nb)%nat /\ rfft (m_run fsc w r) b <> C0) ->
  m_spectrum true fsc w N nb [r] = m_spectrum false fsc w N nb [r].
Proof. exact c184_single. Qed.
Print Assumptions C184_single.

(** In a bin that carries a harmonic the Python alignment is this one, reduced by the guard it adds to the magnitude, once per order. *)
Theorem C184_python :
  forall N nb t a x,
  length t = N -> (1 <= nb <= N / 2 + 1)%nat -> m_aligned N nb t = Some a ->
  exists k, strongest_bin N nb t k /\ forall b, (1 <= b)%nat -> harmonic_bin N k b ->
    exists h, (1 <= h <= N)%nat /\ appears N k h b /\
      align_spectrum (rfft t) k x N b = Cscale ((Cmod (rfft t k) / (Cmod (rfft t k) + / 10 ^ 20)) ^ h) (a b).
Proof. exact c184_python. Qed.
Print Assumptions C184_python.

(** Records that differ only in where they start (rectangular window, tone with a number of periods coprime to the record length) average
    coherently to the spectrum of one of them. *)
Theorem C184_delays :
  forall fsc N nb r k ds,
  length r = N -> (1 <= nb <= N / 2 + 1)%nat -> ~ Forall (fun x => x = 0) r ->
  let t := m_run fsc (m_window MRect N) r in strongest_bin N nb t k -> rfft t k <> C0 -> Nat.gcd k N = 1%nat -> ds <> [] ->
  m_spectrum true fsc (m_window MRect N) N nb (map (fun d => rotated d r) ds) = m_spectrum true fsc (m_window MRect N) N nb [r].
Proof. exact c184_delays. Qed.
Print Assumptions C184_delays.

(** The tone is looked for in the whole band, whatever the cutoff; the powers are measured in the spectrum after the cutoff. *)
Theorem C185_cutoff :
  forall P0 w N nb runs fs osr side harmonic nthd nf assumed cutoff r,
  (1 <= nb <= N / 2 + 1)%nat -> length P0 = (N / 2 + 1)%nat ->
  m_measure P0 w N nb runs fs osr side harmonic nthd nf assumed cutoff = Ok r ->
  ms_bin r = argmax (firstn nb P0) /\ length (ms_power r) = length P0 /\
  forall i, (i < length P0)%nat -> nth i (ms_power r) 0 = if Rltb (INR i) (cutoff / fs * INR N) && Rltb 0 cutoff then 0 else nth i P0 0.
Proof. exact c185_cutoff. Qed.
Print Assumptions C185_cutoff.

(** So with strong low-frequency noise the reported tone is a bin the cutoff has emptied, and its power is zero; the Python analysis of
    the same spectrum finds the tone above the cutoff. *)
Theorem C185_cutoff_refuted :
  exists P0 r Q, m_measure P0 [1] 8 5 1 8 1 (Some 0%nat) 1 1 1 None 2 = Ok r /\ ms_bin r = 1%nat /\ ms_sig r = 0 /\
  apply_cutoff P0 2 8 8 = Ok Q /\ fundamental_bin Q 5 = 3%nat /\ nth 3 Q 0 = 5.
Proof. exact c185_cutoff_refuted. Qed.
Print Assumptions C185_cutoff_refuted.

(** Nothing else than the label: a frequency below 1 is printed one bin too high. *)
Theorem C185_printed :
  forall fs frac N,
  (0 < N)%nat -> 0 < fs ->
  (1 <= frac / INR N * fs -> m_printed_fin fs frac N = frac / INR N * fs) /\
  (frac / INR N * fs < 1 -> m_printed_fin fs frac N = frac / INR N * fs + fs / INR N).
Proof. exact c185_printed. Qed.
Print Assumptions C185_printed.

(** A tone at a quarter of the default rate 1 in a record of 8 is printed as 0.375. *)
Theorem C185_printed_refuted :
  m_printed_fin 1 2 8 = 0.375 /\ 2 / INR 8 * 1 = 0.25.
Proof. exact c185_printed_refuted. Qed.
Print Assumptions C185_printed_refuted.

(** The leakage spectrum of the automatic half-width is, up to the common factor 4 that the scaling to the measured tone removes, the
    Python one outside bin 0 (which Python halves). *)
Theorem C185_ideal :
  forall w N x b,
  (0 < N)%nat -> length w = N -> lsum w <> 0 -> (1 <= b)%nat -> (2 * b <= N)%nat ->
  nth b (m_ideal w N x) 0 =
  nth b (map (fun p => p * power_correction w) (power_average N [map2 Rmult (map (fun n => sin (2 * PI * x * INR n / INR N)) (seq 0 N)) w])) 0 * 4.
Proof. exact c185_ideal. Qed.
Print Assumptions C185_ideal.

(** The automatic half-width: with the leakage of an ideal tone scaled to the measured one and the median of the band as floor, the largest
    half-width before both edges are at or below the floor; the largest the band allows if they never are, or if the ideal tone has
    nothing in the tone's bin. *)
Theorem C185_auto :
  forall P w N nb f x med,
  (f < nb)%nat -> (0 < Nat.min nb (length P))%nat ->
  let big := filter (fun p => Rltb (/ 10 ^ 20) p) (firstn nb P) in
  middle_of (if (3 <=? length big)%nat then big else firstn nb P) med ->
  let e k := nth k (m_ideal w N x) 0 in
  let ideal k := e k * (nth f P 0 / e f) in
  let sb := m_side_auto P w N nb f (Some x) in let mx := Nat.min f (nb - 1 - f) in
  (e f = 0 -> sb = mx) /\
  (e f <> 0 ->
   (exists s, (1 <= s <= mx)%nat /\ ideal (f - s)%nat <= med /\ ideal (f + s)%nat <= med /\
      (forall s', (1 <= s' < s)%nat -> med < ideal (f - s')%nat \/ med < ideal (f + s')%nat) /\ sb = (s - 1)%nat) \/
   ((forall s, (1 <= s <= mx)%nat -> med < ideal (f - s)%nat \/ med < ideal (f + s)%nat) /\ sb = mx)).
Proof. exact c185_auto. Qed.
Print Assumptions C185_auto.
