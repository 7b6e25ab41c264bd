(** * Property theorems of Sweep: statements only, proofs in SweepProofs.v.
    Generated by tools/mkprops.py from the final lemmas. *)
From Verif Require Import Base BaseLemmas Cplx SpecModel SpecLemmas SpecProofs SpecMetricProofs TiSpec TiModel CalModel CalSpec CalProofs CalExLemmas CalExProofs SpecPrepProofs CohProofs EnvProofs SweepModel SweepSpec.
Local Open Scope R_scope.
From Verif Require Import SweepProofs.

(** One ENOB per bit count 1, ..., M: entry n - 1 is the ENOB of what the first n bits contribute with the weights of
    the one calibration of the whole matrix. *)
Theorem C122_entries :
  forall kz cz lstsq rank est bits freq H osr wt e ns,
  enob_sweep kz cz lstsq rank est bits freq H osr wt = Ok (e, ns) ->
  (0 < m_m bits <= m_n bits)%nat /\ length e = m_m bits /\ ns = seq 1 (m_m bits) /\ 0 < osr /\
  exists r, calibrate_weight_sine lstsq rank est [bits] freq None None H 0.5 (1 / 10 ^ 12) 100 = Ok r /\
  forall n, (1 <= n <= m_m bits)%nat -> exists sp, sweep_spectrum kz cz (contribution (m_n bits) (m_at bits) (r_weight r) n) osr wt = Ok sp /\ nth (n - 1) e NaN = sp_enob sp.
Proof. exact c122_entries. Qed.
Print Assumptions C122_entries.

(** It answers exactly when the calibration does, the OSR is positive and the matrix is not wider than tall; a wide matrix
    (which the calibration accepts, turned round) raises ValueError. *)
Theorem C122_errors :
  forall kz cz lstsq rank est bits freq H osr wt,
  match calibrate_weight_sine lstsq rank est [bits] freq None None H 0.5 (1 / 10 ^ 12) 100 with
  | Err x => enob_sweep kz cz lstsq rank est bits freq H osr wt = Err x
  | Ok _ => if Rlt_dec 0 osr then (if (m_m bits <=? m_n bits)%nat then exists e, enob_sweep kz cz lstsq rank est bits freq H osr wt = Ok (e, seq 1 (m_m bits))
            else enob_sweep kz cz lstsq rank est bits freq H osr wt = Err ValueError)
            else enob_sweep kz cz lstsq rank est bits freq H osr wt = Err ValueError
  end.
Proof. exact c122_errors. Qed.
Print Assumptions C122_errors.

(** With the weights recovered exactly (see C55), entry n - 1 is the ENOB of what the first n bits of the converter
    contribute with its true weights -- the calibration's unknown gain and sign do not matter. *)
Theorem C122_true_weights :
  forall kz cz lstsq rank est bits freq f H osr wt w off a b e ns,
  least_squares lstsq -> rank_correct rank -> freq_is freq f -> f <> 0 -> f <= 1 / 2 -> (0 < m_m bits <= m_n bits)%nat -> (1 <= H)%nat ->
  true_weights bits H f w off a b -> identifiable bits H f w off a b -> a 0%nat <> 0 \/ b 0%nat <> 0 ->
  enob_sweep kz cz lstsq rank est bits freq H osr wt = Ok (e, ns) ->
  forall n, (1 <= n <= m_m bits)%nat -> exists sp, sweep_spectrum kz cz (contribution (m_n bits) (m_at bits) w n) osr wt = Ok sp /\ nth (n - 1) e NaN = sp_enob sp.
Proof. exact c122_true_weights. Qed.
Print Assumptions C122_true_weights.

(** The first entry is the ENOB of the most significant bit alone, whatever nonzero weight it got. *)
Theorem C122_first :
  forall kz cz lstsq rank est bits freq H osr wt e ns r,
  enob_sweep kz cz lstsq rank est bits freq H osr wt = Ok (e, ns) ->
  calibrate_weight_sine lstsq rank est [bits] freq None None H 0.5 (1 / 10 ^ 12) 100 = Ok r -> r_weight r 0%nat <> 0 ->
  exists sp, sweep_spectrum kz cz (map (fun t => m_at bits t 0) (seq 0 (m_n bits))) osr wt = Ok sp /\ nth 0 e NaN = sp_enob sp.
Proof. exact c122_first. Qed.
Print Assumptions C122_first.

(** The last entry is the ENOB of the calibrated record the calibration itself returns. *)
Theorem C122_last :
  forall kz cz lstsq rank est bits freq H osr wt e ns r,
  enob_sweep kz cz lstsq rank est bits freq H osr wt = Ok (e, ns) ->
  calibrate_weight_sine lstsq rank est [bits] freq None None H 0.5 (1 / 10 ^ 12) 100 = Ok r ->
  exists d sp, r_sets r = [d] /\ sweep_spectrum kz cz (map (r_calibrated d) (seq 0 (m_n bits))) osr wt = Ok sp /\ nth (m_m bits - 1) e NaN = sp_enob sp.
Proof. exact c122_last. Qed.
Print Assumptions C122_last.

(** It should answer whenever the calibration does.  Two samples of three bits: the calibration answers (it reads
    them as three samples of two bits), the sweep does not. *)
Theorem C123_wide_refuted :
  exists kz cz lstsq rank est bits freq H osr wt r, 0 < osr /\
  calibrate_weight_sine lstsq rank est [bits] freq None None H 0.5 (1 / 10 ^ 12) 100 = Ok r /\ enob_sweep kz cz lstsq rank est bits freq H osr wt = Err ValueError.
Proof. exact c123_wide_refuted. Qed.
Print Assumptions C123_wide_refuted.

(** Eight samples of a three-bit converter with weights 2, 1, 1 (see C55): the sweep's three entries are the ENOBs of the
    contributions of one, two and three bits with these weights. *)
Example C122_true_weights_ex :
  forall kz cz,
  exists e, enob_sweep kz cz gs_lstsq gs_rank (fun _ => 0) ex_bits (FScalar (1 / 4)) 1 1 Hamming = Ok (e, [1; 2; 3]%nat) /\ length e = 3%nat /\
  exists sp, sweep_spectrum kz cz [3; 2; 0; 1; 2; 1; 0; 0] 1 Hamming = Ok sp /\ nth 1 e NaN = sp_enob sp.
Proof. exact c122_true_weights_ex. Qed.
