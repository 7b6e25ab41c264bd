(** * Property theorems of Mcal: statements only, proofs in McalProofs.v.
    Generated by tools/mkprops.py from the final lemmas. *)
From Coq Require Import Psatz.
From Verif Require Import Base BaseLemmas Cplx FreqModel SpecModel SpecLemmas DoutProofs FitSpec FitProofs MatModel MatProofs MsinModel MsinProofs CalModel CalSpec CalProofs CalExLemmas CalExProofs CalMoreProofs McalModel McalSpec.
Local Open Scope R_scope.
From Verif Require Import McalProofs.

(** At a known frequency: weights, offset and tone are recovered, all divided by the amplitude of the fundamental, with the sign
    that makes the sum of the weights non-negative; the residual is zero. *)
Theorem C174_recovers :
  forall lin rank bits f rate reltol niter order at_ ap nom w off a b,
  let H := m_order order in
  least_squares lin -> rank_correct rank -> 0 < f -> 0 < rate < 1 -> 0 < reltol -> (0 < niter)%nat -> 0 < order -> (0 < m_m bits <= m_n bits)%nat ->
  true_weights bits H f w off a b -> identifiable bits H f w off a b -> a 0%nat <> 0 \/ b 0%nat <> 0 ->
  exists c d s, m_wcalsin lin rank bits f rate reltol niter order false at_ ap nom = Ok (Some c) /\ mc_sets c = [d] /\ mc_freq c = [f] /\
    (s = 1 \/ s = -1) /\ (0 < rsum (m_m bits) w -> s = 1) /\ (rsum (m_m bits) w < 0 -> s = -1) /\
    (forall j, (j < m_m bits)%nat -> mc_weight c j = s * w j / amplitude (a 0%nat) (b 0%nat)) /\ mc_offset c = s * off / amplitude (a 0%nat) (b 0%nat) /\
    (forall t, (t < m_n bits)%nat -> ms_postcal d t = s * tone H off a b f t / amplitude (a 0%nat) (b 0%nat) /\ ms_ideal d t = s * tone H 0 a b f t / amplitude (a 0%nat) (b 0%nat) /\ ms_err d t = 0).
Proof. exact c174_recovers. Qed.
Print Assumptions C174_recovers.

(** The fine search, started at the exact frequency, finds no correction, stops at its first pass and returns the same; the Python
    search leaves the exact frequency (C80). *)
Theorem C174_search_exact :
  forall lin rank bits f rate reltol niter order at_ ap nom w off a b,
  let H := m_order order in
  least_squares lin -> rank_correct rank -> 0 < f -> 0 < rate < 1 -> 0 < reltol -> (0 < niter)%nat -> 0 < order -> (0 < m_m bits <= m_n bits)%nat ->
  true_weights bits H f w off a b -> drift_free bits H f w off a b -> a 0%nat <> 0 \/ b 0%nat <> 0 ->
  exists c d s, m_wcalsin lin rank bits f rate reltol niter order true at_ ap nom = Ok (Some c) /\ mc_sets c = [d] /\ mc_freq c = [f] /\
    (s = 1 \/ s = -1) /\ (0 < rsum (m_m bits) w -> s = 1) /\ (rsum (m_m bits) w < 0 -> s = -1) /\
    (forall j, (j < m_m bits)%nat -> mc_weight c j = s * w j / amplitude (a 0%nat) (b 0%nat)) /\ mc_offset c = s * off / amplitude (a 0%nat) (b 0%nat) /\
    (forall t, (t < m_n bits)%nat -> ms_postcal d t = s * tone H off a b f t / amplitude (a 0%nat) (b 0%nat) /\ ms_ideal d t = s * tone H 0 a b f t / amplitude (a 0%nat) (b 0%nat) /\ ms_err d t = 0).
Proof. exact c174_search_exact. Qed.
Print Assumptions C174_search_exact.

(** At a known frequency both programs return the same weights, offset, signals and errors, for every record from which neither
    solve is ambiguous, whatever the two least-squares and rank routines are. *)
Theorem C174_agrees :
  forall lin lst rank rank' est bits freq f fs rate reltol niter order at_ ap nom nominal lr reltol' max_iter,
  let H := m_order order in
  least_squares lin -> least_squares lst -> rank_correct rank -> rank_correct rank' -> freq_is freq f -> 0 < f <= 1 / 2 -> fs = None \/ fs = Some false ->
  0 < rate < 1 -> 0 < reltol -> (0 < niter)%nat -> 0 < order -> (0 < m_m bits <= m_n bits)%nat -> nominal_ok (m_m bits) nominal -> separable bits H f ->
  exists c d r d', m_wcalsin lin rank bits f rate reltol niter order false at_ ap nom = Ok (Some c) /\ mc_sets c = [d] /\ mc_freq c = [f] /\
    calibrate_weight_sine lst rank' est [bits] freq fs nominal H lr reltol' max_iter = Ok r /\ r_sets r = [d'] /\ r_freqs r 0%nat = f /\
    (forall j, (j < m_m bits)%nat -> mc_weight c j = r_weight r j) /\ mc_offset c = r_offset r /\
    (forall t, (t < m_n bits)%nat -> ms_postcal d t = r_calibrated d' t /\ ms_ideal d t = r_ideal d' t /\ ms_err d t = r_error d' t).
Proof. exact c174_agrees. Qed.
Print Assumptions C174_agrees.

(** A wide matrix is transposed unless autotrans is off. *)
Theorem C174_orientation :
  forall lin rank bits f rate reltol niter order fs ap nom,
  (m_m bits < m_n bits)%nat ->
  m_wcalsin lin rank (transpose bits) f rate reltol niter order fs true ap nom = m_wcalsin lin rank bits f rate reltol niter order fs true ap nom.
Proof. exact c174_orientation. Qed.
Print Assumptions C174_orientation.

(** What is refused. *)
Theorem C174_refuses :
  forall lin rank bits f rate reltol niter order fs at_ ap nom,
  f < 0 \/ ~ 0 < rate < 1 \/ reltol <= 0 \/ niter = 0%nat \/ order <= 0 \/ m_n bits = 0%nat \/ m_m bits = 0%nat -> m_wcalsin lin rank bits f rate reltol niter order fs at_ ap nom = Err RuntimeError.
Proof. exact c174_refuses. Qed.
Print Assumptions C174_refuses.

(** After patching: the weights mapped back reproduce the output of the merged columns; a bit is dropped, has a column of its own or
    shares one in the nominal ratio; and with autopatch the merged columns and the constant are independent. *)
Theorem C174_patch :
  forall rank ap bits nom p we,
  rank_correct rank -> (0 < m_m bits)%nat -> m_patch rank ap bits nom = Ok p ->
  let w := rec_weight we p in
  (forall i, output bits w i = output (of_cols (m_n bits) (p_eff p)) we i) /\ (0 < length (p_eff p))%nat /\
  (forall j, (j < m_m bits)%nat -> w j = 0 \/ exists c founder, (c < length (p_eff p))%nat /\ (founder < m_m bits)%nat /\ w founder = we c /\ (j = founder \/ w j = w founder * (nth j nom 0 / nth founder nom 0))) /\
  (ap = true -> independent (hcat (of_cols (m_n bits) (p_eff p)) (ones (m_n bits)))).
Proof. exact c174_patch. Qed.
Print Assumptions C174_patch.

(** One column is treated as in Python unless it, or the product of two deviations, is below Python's thresholds of 10^-15. *)
Theorem C174_patch_step :
  forall rank n nom st j col,
  let dev v := vrms n (fun i => v i - vmean n v) in
  vptp n col = 0 \/ 1 / 10 ^ 15 <= vptp n col -> (forall e, In e (p_eff st) -> dev col * dev e = 0 \/ 1 / 10 ^ 15 <= dev col * dev e) -> m_patch_step rank n nom st j col = patch_step rank n nom st j col.
Proof. exact c174_patch_step. Qed.
Print Assumptions C174_patch_step.

(** Every result for one record: weights with non-negative sum, output and error from them, a tone of amplitude one, and a given
    frequency kept without a search. *)
Theorem C174_invariants :
  forall lin rank bits0 freq rate reltol niter order fsearch at_ ap nom c,
  m_wcalsin lin rank bits0 freq rate reltol niter order fsearch at_ ap nom = Ok (Some c) ->
  let bits := m_orient at_ bits0 in let H := Z.to_nat (Z.max (m_round order) 1) in
  exists d f ca sb, mc_sets c = [d] /\ mc_freq c = [f] /\ 0 <= rsum (m_m bits) (mc_weight c) /\ (forall t, ms_postcal d t = output bits (mc_weight c) t) /\
    (forall t, ms_ideal d t = tone H 0 ca sb f t) /\ amplitude (ca 0%nat) (sb 0%nat) = 1 /\ (forall t, ms_err d t = ms_postcal d t - mc_offset c - ms_ideal d t) /\ (freq <> 0 -> fsearch = false -> f = freq).
Proof. exact c174_invariants. Qed.
Print Assumptions C174_invariants.

(** A record in which no bit ever changes is refused when patching (Python fails with an index error, C37). *)
Theorem C174_constant_bits :
  forall lin rank bits freq rate reltol niter order fsearch at_ nom,
  rank_correct rank -> (forall i j, (i < m_n (m_orient at_ bits))%nat -> (j < m_m (m_orient at_ bits))%nat -> m_at (m_orient at_ bits) i j = m_at (m_orient at_ bits) 0 j) ->
  m_wcalsin lin rank bits freq rate reltol niter order fsearch at_ true nom = Err RuntimeError.
Proof. exact c174_constant_bits. Qed.
Print Assumptions C174_constant_bits.

(** Frequency 0: the search starts from the median of the estimates from the first 1, 2, … 5 columns weighted by the nominal weights. *)
Theorem C174_automatic :
  forall lin rank bits rate reltol niter order fsearch at_ ap nom e,
  rank_correct rank -> independent (hcat bits (ones (m_n bits))) -> 0 < rate < 1 -> 0 < reltol -> (0 < niter)%nat -> 0 < order -> (0 < m_m bits <= m_n bits)%nat -> nom <> [] ->
  let x k i := rsum k (fun j => m_at bits i j * powerRZ 10 (- m_mag (m_n bits) (colm bits j)) * nth j nom 0) in
  (forall k, (1 <= k <= Nat.min (m_m bits) 5)%nat -> m_findfreq lin (map (fun i => [x k i]) (seq 0 (m_n bits))) 1 = Ok (Fin (e k))) ->
  let f := median (map e (seq 1 (Nat.min (m_m bits) 5))) in 0 < f ->
  m_wcalsin lin rank bits 0 rate reltol niter order fsearch at_ ap nom = m_wcalsin lin rank bits f rate reltol niter order true at_ ap nom.
Proof. exact c174_automatic. Qed.
Print Assumptions C174_automatic.

(** Several records of one converter at known frequencies: the true weights and offset, all signals in units of the amplitude of the first
    record, no error. Python's scale is wrong here already for two equal records (C79). *)
Theorem C175_recovers :
  forall lin rank l freq0 f m rate reltol niter order at_ ap nom w off a b,
  let H := m_order order in
  least_squares lin -> rank_correct rank -> l <> [] -> each_given l freq0 f -> (forall g, In g f -> 0 < g) -> 0 < rate < 1 -> 0 < reltol -> (0 < niter)%nat -> 0 < order -> (0 < m)%nat -> (forall s, In s l -> m_m s = m /\ (m <= m_n s)%nat) ->
  true_weights_all l H f w off a b -> identifiable_all l m H f w off a b -> a 0%nat 0%nat <> 0 \/ b 0%nat 0%nat <> 0 ->
  let A := amplitude (a 0%nat 0%nat) (b 0%nat 0%nat) in
  exists c s, m_wcalsin_cell lin rank l freq0 rate reltol niter order false at_ ap nom = Ok (Some c) /\ length (mc_sets c) = length l /\ mc_freq c = f /\
    (s = 1 \/ s = -1) /\ (0 < rsum m w -> s = 1) /\ (rsum m w < 0 -> s = -1) /\
    (forall j, (j < m)%nat -> mc_weight c j = s * w j / A) /\ mc_offset c = s * off / A /\
    forall k t d, (k < length l)%nat -> (t < m_n (nth k l (ones 0)))%nat -> let d := nth k (mc_sets c) d in
      ms_postcal d t = s * tone H off (a k) (b k) (nth k f 0) t / A /\ ms_ideal d t = s * tone H 0 (a k) (b k) (nth k f 0) t / A /\ ms_err d t = 0.
Proof. exact c175_recovers. Qed.
Print Assumptions C175_recovers.

Theorem C175_searches :
  forall lin rank l freq0 f g m rate reltol niter order fs at_ ap nom,
  l <> [] -> each_given l freq0 f -> (forall x, In x f -> 0 <= x) -> length g = length l -> (forall x, In x g -> 0 < x) ->
  0 < rate < 1 -> 0 < reltol -> (0 < niter)%nat -> 0 < order -> (0 < m)%nat -> (forall s, In s l -> m_m s = m /\ (m <= m_n s)%nat) -> length nom = m ->
  (forall k, (k < length l)%nat -> (nth k f 0 = 0 \/ fs = true -> exists c, m_wcalsin lin rank (nth k l (ones 0)) (nth k f 0) rate reltol niter order true false ap nom = Ok (Some c) /\ mc_freq c = [nth k g 0]) /\ (nth k f 0 <> 0 -> fs = false -> nth k g 0 = nth k f 0)) ->
  m_wcalsin_cell lin rank l freq0 rate reltol niter order fs at_ ap nom = m_wcalsin_cell lin rank l g rate reltol niter order false at_ ap nom.
Proof. exact c175_searches. Qed.
Print Assumptions C175_searches.

Theorem C175_invariants :
  forall lin rank l freq0 f m rate reltol niter order fs at_ ap nom c,
  let H := Z.to_nat (Z.max (m_round order) 1) in l <> [] -> each_given l freq0 f -> (forall g, In g f -> 0 <= g) -> 0 < rate < 1 -> 0 < reltol -> (0 < niter)%nat -> 0 < order -> (0 < m)%nat -> (forall s, In s l -> m_m s = m /\ (m <= m_n s)%nat) ->
  m_wcalsin_cell lin rank l freq0 rate reltol niter order fs at_ ap nom = Ok (Some c) -> length (mc_sets c) = length l /\ 0 <= rsum m (mc_weight c) /\ (fs = false -> (forall g, In g f -> 0 < g) -> mc_freq c = f) /\
  exists ca sb, amplitude (ca 0%nat 0%nat) (sb 0%nat 0%nat) = 1 /\ forall k t d, (k < length l)%nat -> (t < m_n (nth k l (ones 0)))%nat -> let d := nth k (mc_sets c) d in
    ms_postcal d t = output (nth k l (ones 0)) (mc_weight c) t /\ ms_ideal d t = tone H 0 (ca k) (sb k) (nth k (mc_freq c) 0) t /\ ms_err d t = ms_postcal d t - mc_offset c - ms_ideal d t.
Proof. exact c175_invariants. Qed.
Print Assumptions C175_invariants.

(** What is refused for several records. *)
Theorem C175_refuses :
  forall lin rank l freq rate reltol niter order fs at_ ap nom,
  l = [] \/ freq = [] \/ (exists f, In f freq /\ f < 0) \/ ~ 0 < rate < 1 \/ reltol <= 0 \/ niter = 0%nat \/ order <= 0 \/ (exists s, In s l /\ (m_n s = 0%nat \/ m_m s = 0%nat)) \/ (2 <= length freq /\ length freq <> length l)%nat \/
  (at_ = false /\ exists s s', In s l /\ In s' l /\ m_m s <> m_m s') -> m_wcalsin_cell lin rank l freq rate reltol niter order fs at_ ap nom = Err RuntimeError.
Proof. exact c175_refuses. Qed.
Print Assumptions C175_refuses.

Example C174_recovers_ex :
  exists c, m_wcalsin gs_lstsq gs_rank ex_bits (1 / 4) (1 / 2) (1 / 10 ^ 12) 100 1 false true true [2; 1; 1] = Ok (Some c) /\
  mc_weight c 0%nat = 2 / sqrt (5 / 2) /\ mc_weight c 1%nat = 1 / sqrt (5 / 2) /\ mc_weight c 2%nat = 1 / sqrt (5 / 2) /\ mc_offset c = (3 / 2) / sqrt (5 / 2).
Proof. exact c174_recovers_ex. Qed.

Example C174_search_exact_ex :
  exists c s, m_wcalsin gs_lstsq gs_rank drift_bits (1 / 4) (1 / 2) (1 / 10 ^ 12) 100 1 true true true [1] = Ok (Some c) /\ s = 1 /\ mc_freq c = [1 / 4] /\ mc_weight c 0%nat = 2 / sqrt 2 /\ mc_offset c = 1 / sqrt 2.
Proof. exact c174_search_exact_ex. Qed.

(** The two programs on the same record, with different nominal weights. *)
Example C174_agrees_ex :
  exists c d r d', m_wcalsin gs_lstsq gs_rank ex_bits (1 / 4) (1 / 2) (1 / 10 ^ 12) 100 1 false true false [] = Ok (Some c) /\ mc_sets c = [d] /\
  calibrate_weight_sine gs_lstsq gs_rank (fun _ => 0) [ex_bits] (FScalar (1 / 4)) None (Some [2; 1; 1]) 1 (1 / 2) (1 / 10 ^ 12) 100 = Ok r /\ r_sets r = [d'] /\
  mc_weight c 0%nat = r_weight r 0%nat /\ mc_offset c = r_offset r /\ ms_err d 5%nat = r_error d' 5%nat.
Proof. exact c174_agrees_ex. Qed.

Example C174_patch_ex :
  exists p, m_patch gs_rank true dup_bits [2; 1] = Ok p /\ rec_weight (fun _ => 4) p 0%nat = 4 /\ rec_weight (fun _ => 4) p 1%nat = 2 /\ output dup_bits (rec_weight (fun _ => 4) p) 0 = 6.
Proof. exact c174_patch_ex. Qed.

Example C174_constant_bits_ex :
  m_wcalsin gs_lstsq gs_rank (of_rows [[1; 0]; [1; 0]; [1; 0]]) (1 / 4) (1 / 2) (1 / 10 ^ 12) 100 1 false true true [2; 1] = Err RuntimeError.
Proof. exact c174_constant_bits_ex. Qed.

(** The record [ex_bits] twice, at one frequency given once. *)
Example C175_recovers_ex :
  exists c, m_wcalsin_cell gs_lstsq gs_rank [ex_bits; ex_bits] [1 / 4] (1 / 2) (1 / 10 ^ 12) 100 1 false true true [] = Ok (Some c) /\
  mc_weight c 0%nat = 2 / sqrt (5 / 2) /\ mc_offset c = (3 / 2) / sqrt (5 / 2) /\ mc_freq c = [1 / 4; 1 / 4] /\ ms_err (nth 1 (mc_sets c) (mkMset zvec zvec zvec)) 7%nat = 0.
Proof. exact c175_recovers_ex. Qed.

(** The two equal records on which Python's weights are too small by the square root of 2 (C79). *)
Theorem C175_two_equal_records :
  forall lin rank,
  least_squares lin -> rank_correct rank -> exists c, m_wcalsin_cell lin rank [cos_bits; cos_bits] [1 / 4] (1 / 2) (1 / 10 ^ 12) 100 1 false true true [] = Ok (Some c) /\ Rabs (mc_weight c 0%nat) = sine_w 0%nat.
Proof. exact c175_two_equal_records. Qed.
Print Assumptions C175_two_equal_records.

Example C175_refuses_ex :
  forall lin rank,
  m_wcalsin_cell lin rank [ex_bits; cos_bits] [1 / 4] (1 / 2) (1 / 10 ^ 12) 100 1 false false true [] = Err RuntimeError.
Proof. exact c175_refuses_ex. Qed.
