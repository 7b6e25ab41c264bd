(** * Property theorems of Mat: statements only, proofs in MatProofs.v.
    Generated by tools/mkprops.py from the final lemmas. *)
From Coq Require Import Znumtheory Zpow_facts.
From Verif Require Import Base BaseLemmas FreqModel FreqSpec FreqProofs CapModel TiModel Cplx SiggenModel RampModel SineHistModel BandModel BandSpec BandProofs DoutModel MatModel MatSpec.
Local Open Scope R_scope.
From Verif Require Import MatProofs.

(** The two alias functions agree for every frequency; the MATLAB one refuses a sampling rate that is not positive. *)
Theorem C163_alias :
  forall fin fs,
  (0 < fs -> m_alias fin fs = Ok (fold_frequency fin fs)) /\ (fs <= 0 -> m_alias fin fs = Err RuntimeError).
Proof. exact c163_alias. Qed.
Print Assumptions C163_alias.

(** findbin stops after at most n distances with a bin prime to n; for a frequency that is not negative it is positive (unless
    n = 1) and no positive bin prime to n is nearer to the rounded-down target, the upper of two. *)
Theorem C163_findbin :
  forall fs fin n fuel,
  0 < fs -> (0 < n)%Z -> (Z.to_nat n <= fuel)%nat -> let start := Zfloor (fin / fs * IZR n) in
  exists b, m_findbin fuel fs fin n = Ok (Some b) /\ Z.gcd b n = 1%Z /\ (0 <= fin -> (0 <= b)%Z /\ (n <> 1%Z -> (0 < b)%Z)) /\
  (forall c, (0 < c)%Z -> Z.gcd c n = 1%Z -> (Z.abs (b - start) < Z.abs (c - start) \/ b = c \/ (Z.abs (b - start) = Z.abs (c - start) /\ c < b))%Z).
Proof. exact c163_findbin. Qed.
Print Assumptions C163_findbin.

(** A negative frequency gives a negative bin. *)
Theorem C163_positive_refuted :
  m_findbin 8 1 (-3 / 8) 8 = Ok (Some (-3)%Z).
Proof. exact c163_positive_refuted. Qed.
Print Assumptions C163_positive_refuted.

(** For record lengths that are powers of two the two searches agree unless the target is exactly an even bin, where the MATLAB
    one goes up and the Python one down. *)
Theorem C163_power_of_two :
  forall fs fin m fo r f b b',
  0 < fs -> 0 <= fin -> (0 < m)%Z -> (1 <= r)%Z -> let n := (2 ^ m)%Z in let t := fin / fs * IZR n in
  m_findbin (Z.to_nat n) fs fin n = Ok (Some b) -> find_coherent_frequency fs fin n fo r = Ok (f, b') ->
  ((~ exists j, (0 < j)%Z /\ t = IZR (2 * j)) -> b = b') /\ (forall j, (0 < j)%Z -> t = IZR (2 * j) -> b = (2 * j + 1)%Z /\ b' = (2 * j - 1)%Z).
Proof. exact c163_power_of_two. Qed.
Print Assumptions C163_power_of_two.

(** For other lengths the rounding down can lose the nearest bin. *)
Theorem C163_nearest_refuted :
  exists f, m_findbin 5 1 (19 / 50) 5 = Ok (Some 1%Z) /\ find_coherent_frequency 1 (19 / 50) 5 false 10 = Ok (f, 2%Z).
Proof. exact c163_nearest_refuted. Qed.
Print Assumptions C163_nearest_refuted.

(** On everything the MATLAB function accepts (most significant bit first) the Python one (least significant first) gives the same
    weights and the same total capacitance. *)
Theorem C164_agree :
  forall cd cb cp,
  (cap_valid cd cb cp -> exists w c, m_cdacwgt cd cb cp = Ok (w, c) /\ convert_cap_to_weight (rev cd) (rev cb) (rev cp) = Ok (rev w, c)) /\
  (~ cap_valid cd cb cp -> m_cdacwgt cd cb cp = Err RuntimeError).
Proof. exact c164_agree. Qed.
Print Assumptions C164_agree.

(** For an even number of samples and band edges that do not fall halfway above an even bin the two filters agree. *)
Theorem C165_agree :
  forall sigin bands,
  let M0 := length (nth 0 sigin []) in let N := Nat.max (length sigin) M0 in Nat.Even N -> (0 < N)%nat -> (forall b, In b bands -> no_tie N b) ->
  m_ifilter sigin bands = match extract_freq_components sigin bands with Ok y => Ok y | Err _ => Err RuntimeError end.
Proof. exact c165_agree. Qed.
Print Assumptions C165_agree.

(** The MATLAB mask passes exactly the bins of the band and their mirror images, for odd and even numbers of samples. *)
Theorem C165_mask :
  forall N bands k,
  (0 < N)%nat -> (k < N)%nat -> (m_mask_at N bands k = 1 \/ m_mask_at N bands k = 0) /\
  (m_mask_at N bands k = 1 <-> exists b f, In b bands /\ (m_round (Rmin (fst b) (snd b) * INR N) <= f <= m_round (Rmax (fst b) (snd b) * INR N))%Z /\ (Z.of_nat k = f mod Z.of_nat N \/ Z.of_nat k = (- f) mod Z.of_nat N)%Z).
Proof. exact c165_mask. Qed.
Print Assumptions C165_mask.

(** In particular it treats a bin and its mirror image alike, the top bin of an odd-length record included. *)
Theorem C165_symmetric :
  forall N bands k,
  (0 < k < N)%nat -> m_mask_at N bands (N - k) = m_mask_at N bands k.
Proof. exact c165_symmetric. Qed.
Print Assumptions C165_symmetric.

(** An odd number of samples: of the top bin the Python filter keeps half (three samples, the band of bin 1 only). *)
Theorem C165_odd_refuted :
  exists y y', m_ifilter [[1]; [0]; [0]] [[1 / 3; 1 / 3]] = Ok y /\ extract_freq_components [[1]; [0]; [0]] [[1 / 3; 1 / 3]] = Ok y' /\ nth 0 (nth 0 y []) 0 = 2 / 3 /\ nth 0 (nth 0 y' []) 0 = 1 / 3.
Proof. exact c165_odd_refuted. Qed.
Print Assumptions C165_odd_refuted.

(** A band edge halfway between bins: the constant passes the Python filter and not the MATLAB one. *)
Theorem C165_tie_refuted :
  exists y y', m_ifilter [[1]; [1]] [[1 / 4; 1 / 2]] = Ok y /\ extract_freq_components [[1]; [1]] [[1 / 4; 1 / 2]] = Ok y' /\ nth 0 (nth 0 y []) 0 = 0 /\ nth 0 (nth 0 y' []) 0 = 1.
Proof. exact c165_tie_refuted. Qed.
Print Assumptions C165_tie_refuted.

(** On integer data with an exclusion that is not rounded halfway above an even number the two agree, except where no code
    between the extremes is hit: there MATLAB reports -1 for each code and numpy nan. *)
Theorem C166_agree :
  forall (codes : list Z) excl fl,
  codes <> [] -> 0 <= excl < 0.5 -> (fl = false \/ 2 < rmax_list (map IZR codes) - rmin_list (map IZR codes)) -> ~ tie (excl * IZR (zmax_list codes - zmin_list codes)) ->
  exists inl dnl c r, m_inlsin (map IZR codes) excl = Ok (inl, dnl, c) /\ compute_inl_from_sine fl (map IZR codes) None None excl = Ok r /\ s_codes r = c /\
  ((s_dnl r = map Fin dnl /\ s_inl r = map Fin inl) \/ (dnl <> [] /\ dnl = map (fun _ => -1) dnl /\ s_dnl r = map (fun _ => NaN) dnl /\ s_inl r = map (fun _ => NaN) dnl)).
Proof. exact c166_agree. Qed.
Print Assumptions C166_agree.

(** A span of 50 codes with the default exclusion of one percent: MATLAB drops one code at each end, numpy none. *)
Theorem C166_tie_refuted :
  exists inl dnl c r, m_inlsin (map IZR [0; 50]%Z) (1 / 100) = Ok (inl, dnl, c) /\ compute_inl_from_sine false (map IZR [0; 50]%Z) None None (1 / 100) = Ok r /\ length c = 47%nat /\ length (s_codes r) = 49%nat.
Proof. exact c166_tie_refuted. Qed.
Print Assumptions C166_tie_refuted.

Theorem C166_nan_refuted :
  exists inl r, m_inlsin (map IZR [0; 2]%Z) 0 = Ok (inl, [-1], [0%Z]) /\ compute_inl_from_sine false (map IZR [0; 2]%Z) None None 0 = Ok r /\ s_dnl r = [NaN].
Proof. exact c166_nan_refuted. Qed.
Print Assumptions C166_nan_refuted.

(** With at least as many samples as bits the statistics are those of analyze_overflow. *)
Theorem C167_agree :
  forall codes m weight ofb,
  (0 < m <= length codes)%nat -> (forall r, In r codes -> length r = m) -> (forall b, ofb = Some b -> (1 <= b <= Z.of_nat m)%Z) ->
  m_bitchk codes weight ofb = match analyze_overflow codes m weight ofb with Ok y => Ok y | Err _ => Err RuntimeError end.
Proof. exact c167_agree. Qed.
Print Assumptions C167_agree.

(** Check positions above the number of bits are refused by MATLAB and taken modulo by Python; fewer samples than bits are
    transposed by MATLAB. *)
Theorem C167_position :
  forall codes m weight b,
  (0 < m <= length codes)%nat -> (forall r, In r codes -> length r = m) -> length weight = m -> (Z.of_nat m < b <= 2 * Z.of_nat m)%Z ->
  m_bitchk codes weight (Some b) = Err RuntimeError /\ analyze_overflow codes m weight (Some b) = analyze_overflow codes m weight None /\ exists y, analyze_overflow codes m weight None = Ok y.
Proof. exact c167_position. Qed.
Print Assumptions C167_position.

Theorem C167_wide_refuted :
  m_bitchk [[1; 0]] [2; 1] None = Err RuntimeError /\ exists y, analyze_overflow [[1; 0]] 2 [2; 1] None = Ok y /\ length y = 2%nat.
Proof. exact c167_wide_refuted. Qed.
Print Assumptions C167_wide_refuted.
