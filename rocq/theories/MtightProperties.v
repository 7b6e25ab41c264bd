(** * Property theorems of Mtight: statements only, proofs in MtightProofs.v.
    Generated by tools/mkprops.py from the final lemmas. *)
From Coq Require Import Psatz.
From Verif Require Import Base BaseLemmas Cplx FreqModel SpecModel SpecLemmas FitSpec FitProofs MatModel MsinModel MsinProofs MerrModel MerrProofs CalModel CalSpec CalProofs CalExLemmas McalModel McalProofs SineHistModel SineHistProofs DrawProofs MgenModel MgenProofs MbitModel MbitProofs.
Local Open Scope R_scope.
From Verif Require Import MtightProofs.

(** The frequency found is that of the fit, in units of the sampling rate: it scales with the rate. *)
Theorem C168_findfreq_scales :
  forall lin rows fs,
  0 < fs ->
  (forall v, m_findfreq lin rows 1 = Ok (Fin v) -> m_findfreq lin rows fs = Ok (Fin (v * fs))) /\
  (forall r, m_sinfit lin rows 0 (1 / 10 ^ 12) (1 / 2) false 100 = Ok (Some r) -> m_findfreq lin rows fs = Ok (Fin (mf_freq r * fs))) /\
  (m_sinfit lin rows 0 (1 / 10 ^ 12) (1 / 2) false 100 = Ok None -> m_findfreq lin rows fs = Ok NaN).
Proof. exact c168_findfreq_scales. Qed.
Print Assumptions C168_findfreq_scales.

(** A constant record: sorting its errors by phase stops with an error, sorting them by value returns NaN throughout. *)
Theorem C170_constant :
  forall lin sig v bin er osr hann,
  (0 < bin)%Z -> 1 <= osr -> (2 <= length sig)%nat -> is_record sig (fun _ => v) ->
  m_errsin lin sig bin None false er osr hann = Err RuntimeError /\ m_errsin lin sig bin None true er osr hann = Ok None.
Proof. exact c170_constant. Qed.
Print Assumptions C170_constant.

(** The extra column of the fine search is, over n, the derivative of the fitted harmonics by the frequency. *)
Theorem C174_derivative :
  forall x sel M H n f t,
  (0 < n)%nat ->
  derivable_pt_lim (fun g => rsum H (fun h => m_cosc x sel M H h * cos (g * (2 * PI * (INR t * INR (S h)))) + m_sinc x sel M H h * sin (g * (2 * PI * (INR t * INR (S h)))))) f
    (INR n * m_dcol x sel M H n f t).
Proof. exact c174_derivative. Qed.
Print Assumptions C174_derivative.

(** One pass of the fine search: the bits, the offset and the harmonics are fitted together with that column; the fitted change of
    frequency is the column's coefficient over n, and unless it is negligible the search goes on from the frequency moved by [rate] times
    this change. *)
Theorem C174_step :
  forall lin sc H rate reltol l freq x sel x' sel',
  let n := m_n sc in let M := m_m sc in
  let d := m_dcol x sel M H n freq in
  m_two lin sc (cos_block n freq H) (sin_block n freq H) (of_cols n [d]) = (x', sel') ->
  let change := x' (M + 2 * H)%nat / INR n in (1 <= H)%nat ->
  let size := vrms n (fun t => change * d t) / sqrt (1 + x' (M + H)%nat ^ 2) in
  (size < reltol -> m_fine lin sc H rate reltol (S l) freq x sel = (freq, x', sel')) /\
  (reltol <= size -> m_fine lin sc H rate reltol (S l) freq x sel = m_fine lin sc H rate reltol l (freq + rate * change) x' sel').
Proof. exact c174_step. Qed.
Print Assumptions C174_step.

(** Weights not given are taken to be binary: the last is 1 and each is twice the next. *)
Theorem C174_default_weights :
  forall lin rank bits freq rate reltol niter order fsearch at_ ap nom,
  let m := m_m (m_orient at_ bits) in
  length nom = m -> (0 < m)%nat -> nth (m - 1) nom 0 = 1 -> (forall j, (S j < m)%nat -> nth j nom 0 = 2 * nth (S j) nom 0) ->
  m_wcalsin lin rank bits freq rate reltol niter order fsearch at_ ap [] = m_wcalsin lin rank bits freq rate reltol niter order fsearch at_ ap nom.
Proof. exact c174_default_weights. Qed.
Print Assumptions C174_default_weights.

(** The axis leaves a factor of four below the smallest and above the largest magnitude; the bits are numbered from the number of
    weights down to 1. *)
Theorem C177_room :
  forall w radix er,
  w <> [] -> (forall x, In x w -> x <> 0) -> let g := m_plotwgt_figure w radix er in
  (exists i j, (i < length w)%nat /\ (j < length w)%nat /\ mw_ylim g = (Rabs (nth i w 0) / 4, Rabs (nth j w 0) * 4) /\ forall k, (k < length w)%nat -> Rabs (nth i w 0) <= Rabs (nth k w 0) <= Rabs (nth j w 0)) /\
  length (mw_index g) = length w /\ forall i, (i < length w)%nat -> nth i (mw_index g) (0, 0%Z) = (INR (i + 1), Z.of_nat (length w - i)).
Proof. exact c177_room. Qed.
Print Assumptions C177_room.

(** Without weights the stages count as powers of two, the last one as 1. *)
Theorem C186_default_weights :
  forall sig bits m xy alpha w,
  length w = m -> (forall i, (i < m)%nat -> nth i w 0 = 2 ^ (m - 1 - i)) ->
  m_plotres sig bits m None xy alpha = m_plotres sig bits m (Some (w, true)) xy alpha.
Proof. exact c186_default_weights. Qed.
Print Assumptions C186_default_weights.
