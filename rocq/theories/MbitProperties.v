(** * Property theorems of Mbit: statements only, proofs in MbitProofs.v.
    Generated by tools/mkprops.py from the final lemmas. *)
From Coq Require Import Lia Lra Psatz FunctionalExtensionality.
From Verif Require Import Base BaseLemmas Cplx SpecModel SpecLemmas DoutModel DoutSpec DoutProofs PlotModel PlotProofs SineHistModel SineHistProofs CalModel CalSpec CalProofs CalExLemmas CalExProofs SweepModel DplotModel DplotProofs EplotModel EplotProofs MatModel McalModel McalSpec McalProofs MspecModel MspecSpec MspecProofs MbitModel MbitSpec.
Local Open Scope R_scope.
From Verif Require Import MbitProofs.

(** The figure: one panel for each pair, with the residual of the second stage over that of the first, and the two labels. *)
Theorem C186_drawn :
  forall sig s bits m w xy ps alpha,
  matrix_of m bits -> (0 < length bits)%nat -> samples sig s -> length s = length bits ->
  (match xy with XGiven rows => pairs_given rows ps | _ => m_pairs m xy = Ok ps end) -> alpha_valid alpha ->
  (forall x y, In (x, y) ps -> (x <= Z.of_nat (Nat.min m (length w)))%Z /\ (y <= Z.of_nat (Nat.min m (length w)))%Z) ->
  m_plotres sig bits m (Some (w, true)) xy alpha = Ok (scatter_alpha alpha (length bits), map (panel_of s bits w) ps).
Proof. exact c186_drawn. Qed.
Print Assumptions C186_drawn.

(** The presets: the signal against every stage, every stage against the last, every stage against the next. *)
Theorem C186_presets :
  forall m,
  exists a b c, m_pairs m XSig = Ok a /\ m_pairs m XRes = Ok b /\ m_pairs m XBit = Ok c /\ length a = m /\ length b = m /\ length c = m /\
  forall k, (k < m)%nat -> nth k a (0, 0)%Z = (0, Z.of_nat k + 1)%Z /\ nth k b (0, 0)%Z = (Z.of_nat k, Z.of_nat m) /\ nth k c (0, 0)%Z = (Z.of_nat k, Z.of_nat k + 1)%Z.
Proof. exact c186_presets. Qed.
Print Assumptions C186_presets.

(** Nothing is drawn, and the call fails, exactly when the lengths differ, a stage does not exist or the transparency is out of range. *)
Theorem C186_refuses :
  forall sig s bits m w rows ps alpha,
  matrix_of m bits -> (0 < length bits)%nat -> samples sig s -> pairs_given rows ps ->
  (m_plotres sig bits m (Some (w, true)) (XGiven rows) alpha = Err RuntimeError <->
   length s <> length bits \/ (exists x y, In (x, y) ps /\ (Z.of_nat (Nat.min m (length w)) < Z.max x y)%Z) \/ ~ alpha_valid alpha).
Proof. exact c186_refuses. Qed.
Print Assumptions C186_refuses.

(** Weights given as a column of two or more numbers work for the first stage only. *)
Theorem C186_column_weights :
  forall sig s bits m w x y t alpha,
  (0 < length bits)%nat -> samples sig s -> (Z.to_nat x <> 1%nat \/ Z.to_nat y <> 1%nat) ->
  m_plotres sig bits m (Some (w, false)) (XGiven ([x; y] :: t)) alpha = Err RuntimeError.
Proof. exact c186_column_weights. Qed.
Print Assumptions C186_column_weights.

(** For stages from 0 to the number of bits the Python figure has the same points, labels and transparency. *)
Theorem C186_agrees :
  forall sig s bits m w rows ps alpha,
  matrix_of m bits -> (0 < length bits)%nat -> samples sig s -> length s = length bits -> length w = m -> ps <> [] -> pairs_given rows ps -> alpha_valid alpha ->
  (forall x y, In (x, y) ps -> (0 <= x <= Z.of_nat m)%Z /\ (0 <= y <= Z.of_nat m)%Z) ->
  exists rx ry g l, residual_scatter s bits m (Some w) (Some ps) alpha true = Ok (ps, rx, ry, Some g) /\
    m_plotres sig bits m (Some (w, true)) (XGiven rows) alpha = Ok (sc_alpha g, l) /\
    map (fun p => (pn_points p, pn_xlabel p, pn_ylabel p)) l = map (fun p => (sp_points p, sp_xlabel p, sp_ylabel p)) (sc_panels g).
Proof. exact c186_agrees. Qed.
Print Assumptions C186_agrees.

(** A negative index takes nothing off in MATLAB and is counted from the end in Python; an index beyond the last bit is refused in MATLAB
    and cut to the last bit in Python. *)
Theorem C186_negative_refuted :
  exists s bits w, m_plotres [s] bits 2 (Some (w, true)) (XGiven [[-1; 2]]%Z) (Some (1 / 2)) = Ok (1 / 2, [mkPanel [(7, 1)] (LResidual (-1)) (LResidual 2)]) /\
  residual_scatter s bits 2 (Some w) (Some [(-1, 2)]%Z) None false = Ok ([(-1, 2)]%Z, [[3]], [[1]], None).
Proof. exact c186_negative_refuted. Qed.
Print Assumptions C186_negative_refuted.

Theorem C186_beyond_refuted :
  exists s bits w, m_plotres [s] bits 2 (Some (w, true)) (XGiven [[0; 3]]%Z) None = Err RuntimeError /\
  residual_scatter s bits 2 (Some w) (Some [(0, 3)]%Z) None false = Ok ([(0, 3)]%Z, [[7]], [[1]], None).
Proof. exact c186_beyond_refuted. Qed.
Print Assumptions C186_beyond_refuted.

(** The signal plotted is the fitted tone with its offset, and the weights are the calibrated ones. *)
Theorem C187_drawn :
  forall lin rank bits0 xy freq order alpha a l,
  m_plotressin lin rank bits0 xy freq order alpha = Ok (Some (a, l)) ->
  let bits := McalModel.m_orient true bits0 in let n := m_n bits in let m := m_m bits in
  exists c d ps, m_wcalsin lin rank bits freq (1 / 2) (1 / 10 ^ 12) 100 order false true true [] = Ok (Some c) /\ mc_sets c = [d] /\ m_pairs m xy = Ok ps /\ a = scatter_alpha alpha n /\ length l = length ps /\
  forall k x y e, (k < length ps)%nat -> nth k ps (0, 0)%Z = (x, y) ->
    pn_points (nth k l e) = map (fun t => (ms_ideal d t + mc_offset c - rsum (Z.to_nat x) (fun j => m_at bits t j * mc_weight c j), ms_ideal d t + mc_offset c - rsum (Z.to_nat y) (fun j => m_at bits t j * mc_weight c j))) (seq 0 n) /\
    (x = Z.of_nat m -> forall t, (t < n)%nat -> fst (nth t (pn_points (nth k l e)) (0, 0)) = - ms_err d t) /\
    (y = Z.of_nat m -> forall t, (t < n)%nat -> snd (nth t (pn_points (nth k l e)) (0, 0)) = - ms_err d t).
Proof. exact c187_drawn. Qed.
Print Assumptions C187_drawn.

(** A capture whose bits, with some weights, add up to a tone: after all bits nothing is left, and before that the residual is the part of
    the tone the bits have not covered yet, in units of the tone's amplitude. *)
Theorem C187_true :
  forall lin rank bits f order alpha w off a b,
  let H := m_order order in let m := m_m bits in let n := m_n bits in
  least_squares lin -> rank_correct rank -> 0 < f -> 0 < order -> (0 < m <= n)%nat -> alpha_valid alpha ->
  true_weights bits H f w off a b -> identifiable bits H f w off a b -> a 0%nat <> 0 \/ b 0%nat <> 0 ->
  exists l s, m_plotressin lin rank bits XRes f order alpha = Ok (Some (scatter_alpha alpha n, l)) /\ (s = 1 \/ s = -1) /\ length l = m /\
  forall k e, (k < m)%nat -> pn_points (nth k l e) = map (fun t => (s * (tone H off a b f t - rsum k (fun j => m_at bits t j * w j)) / amplitude (a 0%nat) (b 0%nat), 0)) (seq 0 n).
Proof. exact c187_true. Qed.
Print Assumptions C187_true.

(** The bars are the Python function's: the share of ones of every bit in percent. *)
Theorem C188_usage :
  forall bits B an,
  let g := m_bitact bits B an in ma_usage g = bit_activity bits B /\ ma_bars g = map (fun j => (S j, nth j (bit_activity bits B) 0)) (seq 0 B) /\ ma_ideal g = 50 /\
  (forall j, (j < B)%nat -> fst (ma_xlim g) <= INR (S j) - 1 / 2 /\ INR (S j) + 1 / 2 <= snd (ma_xlim g)) /\
  (bits <> [] -> binary_of B bits -> forall j, (j < B)%nat -> nth j (ma_usage g) 0 = percent_of (fun row => Reqb (nth j row 0) 1) bits /\ fst (ma_ylim g) <= nth j (ma_usage g) 0 <= snd (ma_ylim g)).
Proof. exact c188_usage. Qed.
Print Assumptions C188_usage.

(** With annotations every bit above 95 or below 5 percent carries its number, three above the bar's top, and no other bit does. *)
Theorem C188_marks :
  forall bits B mk,
  In mk (ma_marks (m_bitact bits B true)) <-> exists j, (j < B)%nat /\ let v := nth j (bit_activity bits B) 0 in
  (95 < v \/ v < 5) /\ mk = mkMark (S j) (v + 3) (fixed 1 v).
Proof. exact c188_marks. Qed.
Print Assumptions C188_marks.

Theorem C188_silent :
  forall bits B,
  ma_marks (m_bitact bits B false) = [].
Proof. exact c188_silent. Qed.
Print Assumptions C188_silent.

(** The text of a bit above 97 percent starts above the axis, which ends at 100. *)
Theorem C188_marks_inside :
  forall bits B mk,
  bits <> [] -> binary_of B bits -> In mk (ma_marks (m_bitact bits B true)) -> (mk_at mk <= snd (ma_ylim (m_bitact bits B true)) <-> nth (mk_bit mk - 1) (bit_activity bits B) 0 <= 97).
Proof. exact c188_marks_inside. Qed.
Print Assumptions C188_marks_inside.

Theorem C188_marks_refuted :
  exists bits mk, In mk (ma_marks (m_bitact bits 2 true)) /\ mk = mkMark 1 103 (Num 1 1000) /\ snd (ma_ylim (m_bitact bits 2 true)) < mk_at mk.
Proof. exact c188_marks_refuted. Qed.
Print Assumptions C188_marks_refuted.

(** With automatic full scale, multiplying a record by a factor other than 0 changes nothing. *)
Theorem C181_scale :
  forall c r fs wt side osr harmonic nthd nf assumed cutoff,
  c <> 0 -> m_full_scale [r] <> 0 ->
  m_plotspec [map (fun v => c * v) r] fs None false wt side osr harmonic nthd nf assumed cutoff = m_plotspec [r] fs None false wt side osr harmonic nthd nf assumed cutoff.
Proof. exact c181_scale. Qed.
Print Assumptions C181_scale.

(** One value per bit count, in order; with a given frequency each is made from that many leading columns only. *)
Theorem C189_entries :
  forall lin rank bits0 f order harmonic osr window,
  let bits := McalModel.m_orient true bits0 in 0 < f -> 0 < order -> (0 < harmonic)%Z -> 0 < osr ->
  exists e, m_bitsweep lin rank bits0 f order harmonic osr window = Ok e /\ length e = m_m bits /\
  forall k d, (1 <= k <= m_m bits)%nat -> nth (k - 1) e d = m_sweep_entry lin rank (m_prefix bits k) f order harmonic osr (window (m_n bits)).
Proof. exact c189_entries. Qed.
Print Assumptions C189_entries.

Theorem C189_prefix :
  forall lin rank A B f order harmonic osr window k eA eB d,
  McalModel.m_orient true A = A -> McalModel.m_orient true B = B -> 0 < f -> 0 < order -> (0 < harmonic)%Z -> 0 < osr ->
  m_n A = m_n B -> (1 <= k <= Nat.min (m_m A) (m_m B))%nat -> (forall i j, (i < m_n A)%nat -> (j < k)%nat -> m_at A i j = m_at B i j) ->
  m_bitsweep lin rank A f order harmonic osr window = Ok eA -> m_bitsweep lin rank B f order harmonic osr window = Ok eB -> nth (k - 1) eA d = nth (k - 1) eB d.
Proof. exact c189_prefix. Qed.
Print Assumptions C189_prefix.

Theorem C189_refuses :
  forall lin rank bits f order harmonic osr window,
  f < 0 \/ order <= 0 \/ (harmonic <= 0)%Z \/ osr <= 0 -> m_bitsweep lin rank bits f order harmonic osr window = Err RuntimeError.
Proof. exact c189_refuses. Qed.
Print Assumptions C189_refuses.

(** As long as the leading columns do not change the value is NaN: there is nothing to calibrate. *)
Theorem C189_constant :
  forall lin rank bits f order harmonic osr window e k d,
  rank_correct rank -> McalModel.m_orient true bits = bits -> 0 < f -> 0 < order -> (0 < harmonic)%Z -> 0 < osr -> (1 <= k <= m_m bits)%nat -> (m_m bits <= m_n bits)%nat ->
  (forall i j, (i < m_n bits)%nat -> (j < k)%nat -> m_at bits i j = m_at bits 0 j) -> m_bitsweep lin rank bits f order harmonic osr window = Ok e -> nth (k - 1) e d = NaN.
Proof. exact c189_constant. Qed.
Print Assumptions C189_constant.

(** If the leading columns add up to a tone, the value is the ENOB of that tone's own spectrum. *)
Theorem C189_exact :
  forall lin rank bits f order harmonic osr window e k d w off a b,
  let H := m_order order in let sub := m_prefix bits k in
  least_squares lin -> rank_correct rank -> McalModel.m_orient true bits = bits -> 0 < f -> 0 < order -> (0 < harmonic)%Z -> 0 < osr -> (1 <= k <= m_m bits)%nat -> (m_m bits <= m_n bits)%nat ->
  true_weights sub H f w off a b -> identifiable sub H f w off a b -> a 0%nat <> 0 \/ b 0%nat <> 0 ->
  m_bitsweep lin rank bits f order harmonic osr window = Ok e -> let x := map (tone H off a b f) (seq 0 (m_n bits)) in m_full_scale [x] <> 0 ->
  nth (k - 1) e d = match m_plotspec [x] 1 None false (MGiven (window (m_n bits))) None osr harmonic 5 0 None 0 with Ok (Some r) => ms_enob r | _ => NaN end.
Proof. exact c189_exact. Qed.
Print Assumptions C189_exact.

(** The figure is the Python one with the line of the largest value added. *)
Theorem C189_figure :
  forall e g,
  plot_enob_sweep e = Ok g -> fst (m_sweep_figure e) = g /\
  (forall y t, snd (m_sweep_figure e) = Some (y, t) -> In (Fin y) e /\ (forall v, In (Fin v) e -> v <= y) /\ t = fixed 2 y) /\
  (snd (m_sweep_figure e) = None <-> forall v, ~ In (Fin v) e).
Proof. exact c189_figure. Qed.
Print Assumptions C189_figure.
