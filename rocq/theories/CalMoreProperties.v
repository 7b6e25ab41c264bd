(** * Property theorems of CalMore: statements only, proofs in CalMoreProofs.v.
    Generated by tools/mkprops.py from the final lemmas. *)
From Verif Require Import Base BaseLemmas CalModel CalSpec SpecLemmas DoutProofs CalProofs CalExLemmas CalExProofs.
From Coq Require Import Psatz.
Local Open Scope R_scope.
From Verif Require Import CalMoreProofs.

(** For any record of full rank at a known frequency: the reference is a tone whose fundamental has
    amplitude 1, and no weights and tone with the same cosine (or sine) part of the fundamental come
    closer to each other than the returned ones. *)
Theorem C104_least_squares :
  forall lstsq rank est bits freq f fs nominal H lr reltol max_iter,
  least_squares lstsq -> rank_correct rank -> freq_is freq f -> f <> 0 -> f <= 1 / 2 -> fs = None \/ fs = Some false ->
  (0 < m_m bits <= m_n bits)%nat -> nominal_ok (m_m bits) nominal -> (1 <= H)%nat -> no_redundancy bits ->
  exists r d a b x, calibrate_weight_sine lstsq rank est [bits] freq fs nominal H lr reltol max_iter = Ok r /\ r_sets r = [d] /\ r_freqs r 0%nat = f /\
    0 <= rsum (m_m bits) (r_weight r) /\
    (forall t, (t < m_n bits)%nat -> r_calibrated d t = output bits (r_weight r) t /\ r_ideal d t = tone H 0 a b f t /\ r_error d t = r_calibrated d t - tone H (r_offset r) a b f t) /\
    amplitude (a 0%nat) (b 0%nat) = 1 /\ (x = a 0%nat \/ x = b 0%nat) /\ x <> 0 /\
    forall w o c s, c 0%nat = x \/ s 0%nat = x -> rsum (m_n bits) (fun t => r_error d t ^ 2) <= rsum (m_n bits) (fun t => (output bits w t - tone H o c s f t) ^ 2).
Proof. exact c104_least_squares. Qed.
Print Assumptions C104_least_squares.

(** The signal-to-noise figure of a data set is the ratio of the power of the ideal signal to the
    power of the error, 200 when the error is zero; ENOB is (that - 1.76) / 6.02. *)
Theorem C40_figures :
  forall bw weights sol nf choice segs bw_eff H cosb sinb freqs d,
  (d < length segs)%nat ->
  let r := post_process bw weights sol nf choice segs bw_eff H cosb sinb freqs in
  let s := nth d (r_sets r) (mkDs zvec zvec zvec (Fin 0)) in let n := m_n (nth d segs (mkMat 0 0 (fun _ _ => 0))) in
  let P := rsum n (fun i => r_ideal s i ^ 2) in let N := rsum n (fun i => r_error s i ^ 2) in
  (N = 0 -> r_sndr s = Fin 200) /\ (0 < N -> 0 < P -> r_sndr s = Fin (10 * (ln (P / N) / ln 10))) /\ (0 < N -> P = 0 -> r_sndr s = NInf) /\
  (forall x, r_sndr s = Fin x -> r_enob s = Fin ((x - 1.76) / 6.02)).
Proof. exact c40_figures. Qed.
Print Assumptions C40_figures.

(** Frequencies that are all given, non-zero and not to be searched come back unchanged, one per data
    set; an array of the wrong length is refused. *)
Theorem C81_known_frequencies :
  forall lstsq rank est l freq fs nominal H lr reltol mi,
  fs = None \/ fs = Some false -> (forall x, In x (freq_list freq) -> x <> 0) ->
  (forall x r, freq = FScalar x -> calibrate_weight_sine lstsq rank est l freq fs nominal H lr reltol mi = Ok r -> forall k, (k < length l)%nat -> r_freqs r k = x) /\
  (forall xs, freq = FArray xs -> xs <> [] ->
     (length xs <> length l -> calibrate_weight_sine lstsq rank est l freq fs nominal H lr reltol mi = Err ValueError) /\
     forall r, calibrate_weight_sine lstsq rank est l freq fs nominal H lr reltol mi = Ok r -> forall k, (k < length l)%nat -> r_freqs r k = nth k xs 0).
Proof. exact c81_known_frequencies. Qed.
Print Assumptions C81_known_frequencies.

(** Every bit gets a column, and a weight, of its own unless it is (almost) constant or a combination of
    a constant and earlier bits. *)
Theorem C37_own_column :
  forall rank bits nominal j,
  rank_correct rank -> (j < m_m bits)%nat ->
  let p := patch_rank_deficiency rank bits nominal in
  (exists c, (c < length (p_eff p))%nat /\ forall w_eff w, recover_rank_deficiency w_eff p = Ok w -> w j = w_eff c) \/
  (forall i k, (i < m_n bits)%nat -> (k < m_n bits)%nat -> Rabs (m_at bits i j - m_at bits k j) < 1 / 10 ^ 15) \/
  (exists o u, forall i, (i < m_n bits)%nat -> m_at bits i j = o + rsum j (fun k => m_at bits i k * u k)).
Proof. exact c37_own_column. Qed.
Print Assumptions C37_own_column.

(** One bit that is a single pulse is no tone of any weight; the error power is then between 0 and 2/3. *)
Example C104_least_squares_ex :
  exists r d, calibrate_weight_sine gs_lstsq gs_rank (fun _ => 0) [pulse_bits] (FScalar (1 / 4)) None None 1 (1 / 2) (1 / 10 ^ 12) 100 = Ok r /\ r_sets r = [d] /\
  0 < rsum 4 (fun t => r_error d t ^ 2) <= 2 / 3.
Proof. exact c104_least_squares_ex. Qed.

(** A power ratio of 100 is 20 dB. *)
Example C40_figures_ex :
  let r := post_process 1 (fun _ => 1) (fun j => nth j [1; 0; 0] 0) 1 0 [of_rows [[9 / 10]; [11 / 10]]] 1 1 (mkMat 2 1 (fun _ _ => -1)) (mkMat 2 1 (fun _ _ => 0)) (fun _ => 1 / 4) in
  exists d, r_sets r = [d] /\ r_ideal d 1%nat = 1 /\ r_error d 1%nat = 1 / 10 /\ r_sndr d = Fin 20.
Proof. exact c40_figures_ex. Qed.
