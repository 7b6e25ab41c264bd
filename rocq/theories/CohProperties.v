(** * Property theorems of Coh: statements only, proofs in CohProofs.v.
    Generated by tools/mkprops.py from the final lemmas. *)
From Coq Require Import Lia Lra Psatz Permutation.
From Verif Require Import Base BaseLemmas Cplx FreqModel UnitsModel TiModel TiToneProofs SpecModel SpecProofs SpecMetricProofs SpecLemmas CohModel CohSpec CohLemmas.
Local Open Scope R_scope.
From Verif Require Import CohProofs.

(** Averaging records that differ only in where they start leaves the fundamental and every bin
    that carries one of its harmonics exactly as in a single record. *)
Theorem C105_harmonics_kept :
  forall N nb r k ds b,
  length r = N -> heard r -> strongest_bin N nb r k -> ds <> [] ->
  harmonic_bin N k b -> (2 * b <= N)%nat ->
  let many := coherent_average N nb (map (fun d => rotated d r) ds) in
  let one := coherent_average N nb [r] in
  nth b (fst many) 0 = nth b (fst one) 0 /\ nth b (snd many) C0 = nth b (snd one) C0.
Proof. exact c105_harmonics_kept. Qed.
Print Assumptions C105_harmonics_kept.

(** When the tone completes a number of periods coprime to the record length (the usual coherent
    setting), every bin carries a harmonic, so the whole averaged spectrum, power and complex,
    equals that of a single record. *)
Theorem C105_coprime :
  forall N nb r k ds,
  length r = N -> heard r -> strongest_bin N nb r k -> ds <> [] ->
  Nat.gcd k N = 1%nat ->
  coherent_average N nb (map (fun d => rotated d r) ds) = coherent_average N nb [r].
Proof. exact c105_coprime. Qed.
Print Assumptions C105_coprime.

(** Coherent averaging never shows more power in a bin than power averaging does. *)
Theorem C106_below_power_average :
  forall N nb rows b,
  (2 <= N)%nat -> (2 <= nb)%nat -> Forall heard rows -> rows <> [] ->
  (2 * b <= N)%nat ->
  0 <= nth b (fst (coherent_average N nb rows)) 0 <= nth b (power_average N rows) 0.
Proof. exact c106_below_power_average. Qed.
Print Assumptions C106_below_power_average.

(** The fundamental of the averaged spectrum has phase zero and the mean of the runs' amplitudes
    (up to the 1e-20 guard), whatever their phases. *)
Theorem C106_fundamental :
  forall N nb rows k,
  rows <> [] -> (2 * k < N)%nat ->
  Forall (fun r => length r = N /\ heard r /\ strongest_bin N nb r k) rows ->
  nth k (snd (coherent_average N nb rows)) C0 =
  RtoC (lmean (map (fun r => let X := rdft N (fun i => nth i r 0) k in
                             Cmod2 X / (Cmod X + / 10 ^ 20)) rows) / INR N).
Proof. exact c106_fundamental. Qed.
Print Assumptions C106_fundamental.

(** For a single record, a bin carrying harmonic h (the lowest one there) keeps its power up to
    the factor (|X|/(|X|+1e-20))^(2h), X being the fundamental's bin. *)
Theorem C106_single :
  forall N nb r k b,
  length r = N -> heard r -> strongest_bin N nb r k ->
  (1 <= b)%nat -> (2 * b <= N)%nat -> harmonic_bin N k b ->
  let X := Cmod (rdft N (fun i => nth i r 0) k) in
  exists h, (1 <= h <= N)%nat /\ appears N k h b /\ (forall h', (1 <= h' < h)%nat -> ~ appears N k h' b) /\
    nth b (fst (coherent_average N nb [r])) 0 = (X / (X + / 10 ^ 20)) ^ (2 * h) * nth b (power_average N [r]) 0.
Proof. exact c106_single. Qed.
Print Assumptions C106_single.

(** The power spectrum is the squared magnitude of the complex one, and its DC bin is zero. *)
Theorem C106_square :
  forall N nb rows b,
  (2 * b <= N)%nat ->
  nth b (fst (coherent_average N nb rows)) 0 = Cmod (nth b (snd (coherent_average N nb rows)) C0) ^ 2 /\
  nth 0 (snd (coherent_average N nb rows)) C0 = C0.
Proof. exact c106_square. Qed.
Print Assumptions C106_square.

(** A run without any sample of 1e-10 or more has no influence, not even on the divisor. *)
Theorem C108_silent :
  forall N nb pre r post,
  ~ heard r ->
  coherent_average N nb (pre ++ r :: post) = coherent_average N nb (pre ++ post).
Proof. exact c108_silent. Qed.
Print Assumptions C108_silent.

(** The result does not depend on the order of the runs. *)
Theorem C108_order :
  forall N nb rows rows',
  Permutation rows rows' -> coherent_average N nb rows = coherent_average N nb rows'.
Proof. exact c108_order. Qed.
Print Assumptions C108_order.

(** With no run above 1e-10 the spectrum is identically zero. *)
Theorem C108_all_silent :
  forall N nb rows,
  Forall (fun r => ~ heard r) rows ->
  coherent_average N nb rows = (repeat 0 (N / 2 + 1), repeat C0 (N / 2 + 1)).
Proof. exact c108_all_silent. Qed.
Print Assumptions C108_all_silent.

(** Runs that contain the same harmonics with arbitrary (also fractional) time offsets tau
    average to one spectrum: harmonic h appears with half its amplitude (up to the guard) and with
    its phase relative to the fundamental, phi_h - h*phi_1, when it is not folded. *)
Theorem C107_phases :
  forall N nb k H dc a ph taus h b,
  taus <> [] -> (2 * k < N)%nat -> 0 < a 1%nat -> separate N k H ->
  let rows := map (fun tau => harmonic_record N k H dc a (fun j => ph j + INR j * tau)) taus in
  Forall (fun r => heard r /\ strongest_bin N nb r k) rows ->
  (1 <= h <= H)%nat -> (1 <= b)%nat -> (2 * b < N)%nat ->
  let rho := (a 1%nat * INR N / 2) / (a 1%nat * INR N / 2 + / 10 ^ 20) in
  (appears_direct N k h b ->
   nth b (snd (coherent_average N nb rows)) C0 = Cscale (a h / 2 * rho ^ h) (cis (ph h - INR h * ph 1%nat))) /\
  (appears_mirrored N k h b ->
   nth b (snd (coherent_average N nb rows)) C0 = Cscale (a h / 2 * rho ^ h) (cis (- (ph h - INR h * ph 1%nat)))).
Proof. exact c107_phases. Qed.
Print Assumptions C107_phases.

(** A tone distorted by any memoryless polynomial whose harmonics fall on different bins: after
    alignment every harmonic is real, that is at 0 or 180 degrees, folded or not. *)
Theorem C107_memoryless :
  forall N nb k c A ph h b,
  let r := memoryless_record N k c A ph in
  heard r -> strongest_bin N nb r k -> (2 * k < N)%nat -> separate N k (length c - 1) ->
  (1 <= h <= length c - 1)%nat -> (1 <= b)%nat -> (2 * b < N)%nat -> appears N k h b ->
  Im (nth b (snd (coherent_average N nb [r])) C0) = 0.
Proof. exact c107_memoryless. Qed.
Print Assumptions C107_memoryless.

(** Three copies of a tone with a folded second harmonic, starting 0, 3 and 4 samples in. *)
Example C105_coprime_ex :
  coherent_average 8 5 [rotated 0 fold_record; rotated 3 fold_record; rotated 4 fold_record] = coherent_average 8 5 [fold_record] /\
  rotated 4 fold_record <> fold_record.
Proof. exact c105_coprime_ex. Qed.

(** Runs delayed by 0 and by 1/10 radian of the fundamental: bin 2 holds the folded second
    harmonic with the sign of its phase reversed. *)
Example C107_phases_ex :
  
  let rho := (1 * INR 8 / 2) / (1 * INR 8 / 2 + / 10 ^ 20) in
  nth 2 (snd (coherent_average 8 5 [fold_record])) C0 = Cscale (1 / 2 / 2 * rho ^ 2) (cis (- (PI / 2 - INR 2 * 0))).
Proof. exact c107_phases_ex. Qed.

(** The documented reading (the aligned spectrum shows phi_h - h*phi_1) fails for a harmonic
    that folds an odd number of times. *)
Theorem C111_folded_phase_refuted :
  exists N nb k H dc a ph h b,
  (2 * k < N)%nat /\ 0 < a 1%nat /\ separate N k H /\ (1 <= h <= H)%nat /\ (1 <= b)%nat /\ (2 * b < N)%nat /\ appears N k h b /\
  heard (harmonic_record N k H dc a ph) /\ strongest_bin N nb (harmonic_record N k H dc a ph) k /\
  forall m, 0 <= m -> nth b (snd (coherent_average N nb [harmonic_record N k H dc a ph])) C0 <> Cscale m (cis (ph h - INR h * ph 1%nat)).
Proof. exact c111_folded_phase_refuted. Qed.
Print Assumptions C111_folded_phase_refuted.

(** A tone that is not a harmonic of the fundamental is not aligned by it: averaging a record
    with its own copy half a record later removes it although the record shows it. *)
Theorem C110_unrelated_tone_refuted :
  exists N nb r k d b, length r = N /\ heard r /\ strongest_bin N nb r k /\ (1 <= b)%nat /\ (2 * b <= N)%nat /\
  nth b (fst (coherent_average N nb [r; rotated d r])) 0 = 0 /\
  0 < nth b (fst (coherent_average N nb [r])) 0 /\
  0 < nth b (power_average N [r; rotated d r]) 0.
Proof. exact c110_unrelated_tone_refuted. Qed.
Print Assumptions C110_unrelated_tone_refuted.

(** The two records of the previous example: strictly less power than power averaging. *)
Example C106_below_power_average_ex :
  0 <= nth 2 (fst (coherent_average 8 5 [two_tones; rotated 4 two_tones])) 0 <= nth 2 (power_average 8 [two_tones; rotated 4 two_tones]) 0 /\
  nth 2 (power_average 8 [two_tones; rotated 4 two_tones]) 0 = 1 / 4.
Proof. exact c106_below_power_average_ex. Qed.

(** The averaged fundamental of the two records is real and 1/2 up to the guard. *)
Example C106_fundamental_ex :
  nth 2 (snd (coherent_average 8 5 [two_tones; rotated 4 two_tones])) C0 = RtoC ((16 / (4 + / 10 ^ 20)) / 8).
Proof. exact c106_fundamental_ex. Qed.

(** The folded second harmonic keeps its power up to rho^4. *)
Example C106_single_ex :
  exists h, h = 2%nat /\
  let X := Cmod (rdft 8 (fun i => nth i fold_record 0) 3) in
  nth 2 (fst (coherent_average 8 5 [fold_record])) 0 = (X / (X + / 10 ^ 20)) ^ (2 * h) * nth 2 (power_average 8 [fold_record]) 0.
Proof. exact c106_single_ex. Qed.

(** A silent run between two others. *)
Example C108_silent_ex :
  coherent_average 8 5 [two_tones; repeat 0 8; fold_record] = coherent_average 8 5 [two_tones; fold_record].
Proof. exact c108_silent_ex. Qed.

Example C107_memoryless_ex :
  Im (nth 2 (snd (coherent_average 8 5 [quad_record])) C0) = 0.
Proof. exact c107_memoryless_ex. Qed.

(** compute_spectrum with coherent averaging and no window: feeding it copies of one record that
    start at different samples gives the spectrum, complex spectrum, SNDR, ENOB, SFDR and THD of
    the single record. *)
Theorem C105_compute :
  forall kaiser38 cheb100 r fs sc side osr mh nf assumed cutoff ds s nb k one z many z',
  (2 <= length r)%nat -> ds <> [] -> (length ds <= 2 * length r)%nat ->
  prepare_fft_input [r] sc = Ok [s] -> inband_count (Z.of_nat (length r)) osr = Ok nb ->
  heard s -> strongest_bin (length r) (Z.to_nat nb) s k -> Nat.gcd k (length r) = 1%nat ->
  compute_spectrum_coherent kaiser38 cheb100 [r] fs sc Boxcar side osr mh nf assumed cutoff = Ok (one, z) ->
  compute_spectrum_coherent kaiser38 cheb100 (map (fun d => rotated d r) ds) fs sc Boxcar side osr mh nf assumed cutoff = Ok (many, z') ->
  sp_power many = sp_power one /\ z' = z /\ sp_sndr many = sp_sndr one /\ sp_enob many = sp_enob one /\
  sp_sfdr many = sp_sfdr one /\ sp_thd many = sp_thd one.
Proof. exact c105_compute. Qed.
Print Assumptions C105_compute.

(** HD2 of a memoryless polynomial distortion is reported at 0 or 180 degrees, and so is HD3. *)
Theorem C107_degrees :
  forall N nb k c A ph hs h b,
  let r := memoryless_record N k c A ph in
  heard r -> strongest_bin N nb r k -> (2 * k < N)%nat -> separate N k (length c - 1) ->
  (h = 2 \/ h = 3)%nat -> (h <= length c - 1)%nat -> (1 <= b)%nat -> (2 * b < N)%nat -> appears N k h b ->
  nth_error hs (h - 2) = Some (Z.of_nat b) ->
  let d := harmonic_phases (snd (coherent_average N nb [r])) hs in
  let deg := if (h =? 2)%nat then fst d else snd d in deg = 0 \/ deg = 180.
Proof. exact c107_degrees. Qed.
Print Assumptions C107_degrees.

(** The single-bin THD helper: one bin per harmonic that is clear of the fundamental and of DC,
    summed for the total (with the 1e-15 floor); the others are reported at the floor, and those
    near the fundamental listed; a bin past the spectrum raises IndexError. *)
Theorem C109_single_bin :
  forall P f sb hs,
  let clear h := (2 * Z.of_nat sb < Z.abs (h - Z.of_nat f) /\ Z.of_nat sb < h)%Z in
  ((forall h, In h hs -> clear h -> (h < Z.of_nat (length P))%Z) ->
   exists hp col, harmonic_power_plotspec P f sb hs =
     Ok (Rmax (lsum (map (fun h => if counted f sb h then nth (Z.to_nat h) P 0 else 0) hs)) (/ 10 ^ 15), hp, col) /\
   length hp = length hs /\
   (forall i h, nth_error hs i = Some h ->
      (clear h -> nth_error hp i = Some (Rmax (nth (Z.to_nat h) P 0) (/ 10 ^ 15))) /\
      (~ clear h -> nth_error hp i = Some (/ 10 ^ 15)) /\
      (In (i + 2)%nat col <-> (Z.abs (h - Z.of_nat f) <= 2 * Z.of_nat sb)%Z))) /\
  ((exists h, In h hs /\ clear h /\ (Z.of_nat (length P) <= h)%Z) -> harmonic_power_plotspec P f sb hs = Err IndexError) /\
  (forall h, counted f sb h = true <-> clear h).
Proof. exact c109_single_bin. Qed.
Print Assumptions C109_single_bin.

(** H2 at bin 4 counts, H3 sits on the fundamental, H4 on DC. *)
Example C109_single_bin_ex :
  exists hp, harmonic_power_plotspec [0; 5; 0; 0; 2] 1 0 [4; 1; 0]%Z = Ok (2, hp, [3%nat]) /\ length hp = 3%nat.
Proof. exact c109_single_bin_ex. Qed.

(** The polar front end always locates at least the second and third harmonics: for every requested number of
    harmonics (also zero or negative) it answers, and harmonic number i + 2 is reported at the rounded folded bin. *)
Theorem C121_orders :
  forall kz cz l sc harmonic osr fs wt,
  l <> [] -> 0 < osr -> (exists p, peak_of [l] sc = Ok p) ->
  exists sp z, analyze_spectrum_polar kz cz [l] sc harmonic osr 0 fs wt = Ok (sp, z) /\ length z = (length l / 2 + 1)%nat /\ length (sp_power sp) = (length l / 2 + 1)%nat /\
    length (sp_harm_bins sp) = (Nat.max 3 (Z.to_nat harmonic) - 1)%nat /\
    (forall i, (i < Nat.max 3 (Z.to_nat harmonic) - 1)%nat -> nth i (sp_harm_bins sp) 0%Z = round_he (fold_bin (sp_frac sp * INR (i + 2)) (Z.of_nat (length l)))).
Proof. exact c121_orders. Qed.
Print Assumptions C121_orders.

(** Asking for up to three harmonics makes no difference. *)
Theorem C121_floor :
  forall kz cz data sc h h' osr cutoff fs wt,
  (h <= 3)%Z -> (h' <= 3)%Z ->
  analyze_spectrum_polar kz cz data sc h osr cutoff fs wt = analyze_spectrum_polar kz cz data sc h' osr cutoff fs wt.
Proof. exact c121_floor. Qed.
Print Assumptions C121_floor.

Example C121_orders_ex :
  forall kz cz,
  exists sp z, analyze_spectrum_polar kz cz [[1; 0; -1; 0; 1; 0; -1; 0]] (ScalePeak 1) (-7) 1 0 1 Hann = Ok (sp, z) /\ length (sp_harm_bins sp) = 2%nat /\ length z = 5%nat.
Proof. exact c121_orders_ex. Qed.
