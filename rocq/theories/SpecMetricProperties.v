(** * Property theorems of SpecMetric: statements only, proofs in SpecMetricProofs.v.
    Generated by tools/mkprops.py from the final lemmas. *)
From Verif Require Import Base BaseLemmas Cplx FreqModel UnitsModel UnitsSpec UnitsProofs TiModel TiProofs SpecModel SpecSpec SpecLemmas SpecProofs.
From Coq Require Import Psatz Permutation Sorted.
Local Open Scope R_scope.
From Verif Require Import SpecMetricProofs.

(** In-band power = signal window + DC window (outside the signal window) + noise and
    distortion, and the SNDR is their ratio. *)
Theorem C26_partition :
  forall kz cz data fs sc wt side osr mh nf cutoff r,
  compute_spectrum kz cz data fs sc wt side osr mh nf None cutoff = Ok r ->
  let f := sp_fund r in let sb := sp_side r in let n := sp_inband r in let P := sp_power r in
  sp_sig r = selected_power n (near f sb) P /\
  sp_noise_dist r = selected_power n (outside f sb) P /\
  selected_power n (fun _ => true) P =
    sp_sig r + selected_power n (fun i => near_dc sb i && negb (near f sb i)) P + sp_noise_dist r /\
  (0 < sp_sig r -> sp_sndr r = Fin (10 * lg (sp_sig r / (sp_noise_dist r + / 10 ^ 20)))).
Proof. exact c26_partition. Qed.
Print Assumptions C26_partition.

(** The reported spur: in band; whenever some bin outside both windows has power, the spur bin
    is such a bin, none of them has more power, and the spur power is that of the bins around
    it outside both windows. *)
Theorem C26_spur_is_maximal :
  forall kz cz data fs sc wt side osr mh nf assumed cutoff r,
  compute_spectrum kz cz data fs sc wt side osr mh nf assumed cutoff = Ok r ->
  let f := sp_fund r in let sb := sp_side r in let n := sp_inband r in let P := sp_power r in
  (sp_spur_bin r < n)%nat /\
  (forall i, (i < n)%nat -> outside f sb i = true -> 0 < nth i P 0 ->
     outside f sb (sp_spur_bin r) = true /\ nth i P 0 <= nth (sp_spur_bin r) P 0) /\
  sp_spur_power r = selected_power n (fun i => near (sp_spur_bin r) sb i && outside f sb i) P /\
  sp_spur_power r <= sp_noise_dist r.
Proof. exact c26_spur_is_maximal. Qed.
Print Assumptions C26_spur_is_maximal.

(** SFDR is never below SNDR. *)
Theorem C26_sfdr_ge_sndr :
  forall kz cz data fs sc wt side osr mh nf assumed cutoff r,
  compute_spectrum kz cz data fs sc wt side osr mh nf assumed cutoff = Ok r ->
  0 < sp_sig r -> xle (sp_sndr r) (sp_sfdr r).
Proof. exact c26_sfdr_ge_sndr. Qed.
Print Assumptions C26_sfdr_ge_sndr.

Example C26_windows_ex :
  let P := [9; 1; 2; 50; 100; 40; 3; 1; 8; 2; 5] in
  fundamental_bin P 11 = 4%nat /\ noise_distortion P 11 4 1 = 2 + 3 + 1 + 8 + 2 + 5 /\
  lsum (slice 3 6 P) = 190 /\ highest_spur P 1 11 3 6 = (8%nat, 11).
Proof. exact c26_windows_ex. Qed.

(** Full band, no harmonic window reaching into the DC window: the distortion counted in THD
    is part of the noise-and-distortion power, so |THD| is at least SNDR up to the floors. *)
Theorem C25_thd_within_noise :
  forall P f sb hs,
  (forall x, In x P -> 0 <= x) ->
  (forall h, In h hs -> clear_of f sb h = true -> (2 * Z.of_nat sb < h)%Z) ->
  thd_power P f sb hs <= Rmax (noise_distortion P (length P) f sb) (/ 10 ^ 15).
Proof. exact c25_thd_within_noise. Qed.
Print Assumptions C25_thd_within_noise.

(** With oversampling (fewer in-band bins than the spectrum has) the THD also counts
    harmonics beyond the band, which the noise-and-distortion power leaves out. *)
Theorem C25_out_of_band_refuted :
  exists P f sb hs nb,
  (nb < length P)%nat /\ (f < nb)%nat /\ thd_power P f sb hs = 7 /\ noise_distortion P nb f sb = 0.
Proof. exact c25_out_of_band_refuted. Qed.
Print Assumptions C25_out_of_band_refuted.

(** quick_sndr returns the SNDR and ENOB of compute_spectrum at osr=1 without cutoff and
    assumed power, for every capture and explicit side_bin. *)
Theorem C27_same_sndr :
  forall kz cz data fs sc wt (sb : nat) mh nf r,
  compute_spectrum kz cz data fs sc wt (Some sb) 1 mh nf None 0 = Ok r ->
  quick_sndr kz cz data wt (Some (Z.of_nat sb)) sc = Ok (sp_sndr r, sp_enob r).
Proof. exact c27_same_sndr. Qed.
Print Assumptions C27_same_sndr.

(** Conversely, whenever quick_sndr answers, compute_spectrum with valid options answers too,
    and both reject the same captures. *)
Theorem C27_same_domain :
  forall kz cz data fs sc wt (sb : nat) mh nf,
  (1 <= mh)%Z -> (0 <= nf <= 4)%Z ->
  ((exists r, compute_spectrum kz cz data fs sc wt (Some sb) 1 mh nf None 0 = Ok r) <->
   (exists q, quick_sndr kz cz data wt (Some (Z.of_nat sb)) sc = Ok q)) /\
  (forall e, compute_spectrum kz cz data fs sc wt (Some sb) 1 mh nf None 0 = Err e <->
             quick_sndr kz cz data wt (Some (Z.of_nat sb)) sc = Err e).
Proof. exact c27_same_domain. Qed.
Print Assumptions C27_same_domain.

(** The chosen half-width keeps the window [f-sb, f+sb] inside the band. *)
Theorem C28_inside_band :
  forall P f frac nb N w corr fallback minimum,
  (f < nb)%nat -> let sb := side_bin_auto P f frac nb N w corr fallback minimum in
  (sb <= f)%nat /\ (f + sb < nb)%nat /\ (Nat.min minimum (Nat.min f (nb - 1 - f)) <= sb)%nat.
Proof. exact c28_inside_band. Qed.
Print Assumptions C28_inside_band.

(** What the choice means: with ideal leakage spectrum [ideal] (a unit sine at the interpolated
    position, windowed and scaled to the measured peak) and floor [fl], the answer is the
    largest half-width before both edges drop to the floor, at least the window's minimum;
    the fallback is used when they never do. *)
Theorem C28_first_crossing :
  forall P f frac nb N w corr fallback minimum,
  (f < nb)%nat ->
  exists ideal fl,
    let sb := side_bin_auto P f frac nb N w corr fallback minimum in
    let mx := Nat.min f (nb - 1 - f) in let mn := Nat.min minimum mx in
    (exists scale, 0 < scale /\ ideal = map (fun p => p * scale)
       (map (fun p => p * corr) (power_average N [map2 Rmult (map (fun n => sin (2 * PI * frac * INR n / INR N)) (seq 0 N)) w]))) /\
    Rmax (nth f P 0) (/ 10 ^ 30) * / 10 ^ 24 <= fl /\
    ((exists s, (1 <= s <= mx)%nat /\ nth (f - s) ideal 0 <= fl /\ nth (f + s) ideal 0 <= fl /\
        (forall s', (1 <= s' < s)%nat -> fl < nth (f - s') ideal 0 \/ fl < nth (f + s') ideal 0) /\ sb = Nat.max (s - 1) mn) \/
     ((forall s, (1 <= s <= mx)%nat -> fl < nth (f - s) ideal 0 \/ fl < nth (f + s) ideal 0) /\ sb = Nat.min (Nat.max fallback mn) mx)).
Proof. exact c28_first_crossing. Qed.
Print Assumptions C28_first_crossing.

(** So with automatic side_bin the signal window is complete: no bin is clipped away. *)
Theorem C28_window_complete :
  forall kz cz data fs sc wt osr mh nf assumed cutoff r,
  compute_spectrum kz cz data fs sc wt None osr mh nf assumed cutoff = Ok r ->
  (sp_side r <= sp_fund r)%nat /\ (sp_fund r + sp_side r < sp_inband r)%nat /\
  (sp_start r + sp_side r)%nat = sp_fund r /\ sp_end r = (sp_fund r + sp_side r + 1)%nat.
Proof. exact c28_window_complete. Qed.
Print Assumptions C28_window_complete.

Example C28_auto_ex :
  first_below [9; 1; 5; 20; 100; 20; 5; 1; 9] 2 9 4 0 1 4 = Some 2%nat /\
  first_below [9; 1; 5; 20; 100; 20; 5; 3; 9] 2 9 4 0 1 4 = None.
Proof. exact c28_auto_ex. Qed.

(** Methods 0-3 always return a value of at least 1e-15; method 4 also, except that it returns
    nan exactly when no bin is left over; every other method number raises ValueError. *)
Theorem C29_positive :
  forall P nf nb M f hs sb r,
  estimate_noise P nf nb M f hs sb = Ok (Some r) -> / 10 ^ 15 <= r.
Proof. exact c29_positive. Qed.
Print Assumptions C29_positive.

Theorem C29_domain :
  forall P nf nb M f hs sb,
  (f < nb)%nat ->
  (estimate_noise P nf nb M f hs sb = Err ValueError <-> ~ (0 <= nf <= 4)%Z) /\
  (estimate_noise P nf nb M f hs sb = Ok None <-> nf = 4%Z /\ forall i, (i < nb)%nat -> left_over f sb nb hs i = false).
Proof. exact c29_domain. Qed.
Print Assumptions C29_domain.

(** The two exclusion methods: method 3 sums the bins outside both windows other than the
    harmonic bins themselves, method 4 the left-over bins. *)
Theorem C29_exclusion_sums :
  forall P nb M f hs sb,
  (nb <= length P)%nat -> (f < nb)%nat ->
  estimate_noise P 3 nb M f hs sb =
    Ok (Some (Rmax (selected_power nb (fun i => outside f sb i && negb (existsb (Z.eqb (Z.of_nat i)) hs)) P) (/ 10 ^ 15))) /\
  ((exists i, (i < nb)%nat /\ left_over f sb nb hs i = true) ->
   estimate_noise P 4 nb M f hs sb = Ok (Some (Rmax (selected_power nb (left_over f sb nb hs) P) (/ 10 ^ 15)))).
Proof. exact c29_exclusion_sums. Qed.
Print Assumptions C29_exclusion_sums.

(** The estimate does not depend on the power inside the DC and fundamental windows. *)
Theorem C29_ignores_windows :
  forall P Q nf nb M f hs sb,
  (nb <= length P)%nat -> (nb <= length Q)%nat -> (f < nb)%nat ->
  (forall i, (i < nb)%nat -> outside f sb i = true -> nth i P 0 = nth i Q 0) ->
  estimate_noise P nf nb M f hs sb = estimate_noise Q nf nb M f hs sb.
Proof. exact c29_ignores_windows. Qed.
Print Assumptions C29_ignores_windows.

(** Method 0 is the middle one of methods 1-3. *)
Theorem C29_auto_is_middle :
  forall P nb M f hs sb n1 n2 n3,
  estimate_noise P 1 nb M f hs sb = Ok (Some n1) -> estimate_noise P 2 nb M f hs sb = Ok (Some n2) ->
  estimate_noise P 3 nb M f hs sb = Ok (Some n3) ->
  estimate_noise P 0 nb M f hs sb = Ok (Some (Rmax (Rmin n1 n2) (Rmin (Rmax n1 n2) n3))).
Proof. exact c29_auto_is_middle. Qed.
Print Assumptions C29_auto_is_middle.

(** Method 1: the middle of the sorted used bins (mean of the two middle ones for an even
    count), divided by the bias factor of an M-average, times the number of bins. *)
Theorem C29_median_method :
  forall P nb M f hs sb u,
  (nb <= length P)%nat ->
  used_bins P nb f sb u -> StronglySorted Rle u ->
  let n := length u in
  let mid := if Nat.even n then (nth (n / 2 - 1) u 0 + nth (n / 2) u 0) / 2 else nth (n / 2) u 0 in
  let bias := if (M =? 1)%nat then 0.72 else (1 - 2 / (9 * INR M)) ^ 3 in
  estimate_noise P 1 nb M f hs sb = Ok (Some (Rmax (mid / bias * INR nb) (/ 10 ^ 15))).
Proof. exact c29_median_method. Qed.
Print Assumptions C29_median_method.

(** The 5%-95% trim keeps a non-empty part. *)
Theorem C29_trim_nonempty :
  forall n,
  (0 < n)%nat -> (fst (trimmed_indices n) < snd (trimmed_indices n) <= n)%nat.
Proof. exact c29_trim_nonempty. Qed.
Print Assumptions C29_trim_nonempty.

(** Method 2: the mean of the sorted used bins between the 5% and 95% positions, times the
    number of bins. *)
Theorem C29_trimmed_method :
  forall P nb M f hs sb u,
  (nb <= length P)%nat ->
  used_bins P nb f sb u -> StronglySorted Rle u ->
  let n := length u in
  let a := (Z.to_nat (Z.max 1 (Zfloor (INR n * 0.05)) - 1))%nat in
  let b := Nat.min n (Z.to_nat (Z.max (Z.max 1 (Zfloor (INR n * 0.05))) (Z.max 1 (Zfloor (INR n * 0.95))))) in
  estimate_noise P 2 nb M f hs sb =
  Ok (Some (Rmax (rsum (b - a) (fun i => nth (a + i) u 0) / INR (b - a) * INR nb) (/ 10 ^ 15))).
Proof. exact c29_trimmed_method. Qed.
Print Assumptions C29_trimmed_method.

Example C29_noise_ex :
  let P := [9; 1; 2; 50; 100; 40; 3; 1; 8; 2; 5] in
  estimate_noise P 3 11 1 4 [8%Z; 1%Z] 1 = Ok (Some 13) /\
  estimate_noise P 4 11 1 4 [8%Z; 1%Z] 1 = Ok (Some 8) /\
  estimate_noise P 1 11 1 4 [8%Z; 1%Z] 1 = Ok (Some (2.5 / 0.72 * 11)) /\
  estimate_noise P 4 11 1 4 [8%Z] 4 = Ok None.
Proof. exact c29_noise_ex. Qed.
