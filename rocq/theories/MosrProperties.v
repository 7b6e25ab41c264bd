(** * Property theorems of Mosr: statements only, proofs in MosrProofs.v.
    Generated by tools/mkprops.py from the final lemmas. *)
From Coq Require Import Psatz Permutation Sorted.
From Verif Require Import Base BaseLemmas Cplx FreqModel UnitsModel UnitsSpec UnitsProofs TiModel TiProofs TiToneProofs SpecModel SpecSpec SpecLemmas SpecProofs SpecToneSpec SpecToneProofs CalModel CalSpec CalExLemmas FitModel FitSpec FitProofs OsrModel OsrSpec OsrProofs OverModel OverSpec OverProofs MatModel MatSpec MatProofs MsinModel MsinProofs MerrModel MerrProofs MosrModel MosrSpec.
Local Open Scope R_scope.
From Verif Require Import MosrProofs.

(** Bin k is counted when it is the first, or when the whole of it, up to k+1, is below the band edge N/(2 osr). *)
Theorem C172_bins :
  forall N o k,
  0 < o -> (k < m_band_bins N o)%nat <-> k = 0%nat \/ (k <= N / 2)%nat /\ 2 * o * (INR k + 1) <= INR N.
Proof. exact c172_bins. Qed.
Print Assumptions C172_bins.

(** What is refused: an OSR that is not positive, a number of harmonics that is not a positive integer, a smoothing below 1, fewer
    than two samples. *)
Theorem C172_refuses :
  forall lin sortd sig osr harmonic smooth,
  let good := (forall x, In x osr -> 0 < x) /\ (exists m : nat, harmonic = INR m /\ (1 <= m)%nat) /\ match smooth with Some s => 1 <= s | None => True end /\ (2 <= length sig)%nat in
  (good -> exists r, m_perfosr lin sortd sig osr harmonic smooth = Ok r) /\ (~ good -> m_perfosr lin sortd sig osr harmonic smooth = Err RuntimeError).
Proof. exact c172_refuses. Qed.
Print Assumptions C172_refuses.

(** Every entry is the power of the fitted sine over the total, and over the largest bin, of the Hann-windowed error in the bins
    wholly below its own band edge; it depends neither on the other OSRs nor on their order.  Without a fit every entry is NaN. *)
Theorem C172_entries :
  forall lin sortd sig osr harmonic smooth o l,
  (forall x, sorts_down x (sortd x)) -> m_perfosr lin sortd sig osr harmonic smooth = Ok (o, l) ->
  length l = length o /\ (osr <> [] -> o = osr) /\ exists fit, m_sinfit lin (map (fun x => [x]) sig) 0 (1 / 10 ^ 12) (1 / 2) false 100 = Ok fit /\
  forall j, (j < length o)%nat -> match fit with
  | None => nth j l (PInf, PInf, PInf) = (NaN, NaN, NaN)
  | Some r => let E := err_spec (map2 Rminus sig (mf_fitout r)) in let power := mf_mag r ^ 2 / 2 in exists c m,
      (forall k, (k < c)%nat <-> k = 0%nat \/ (k <= length sig / 2)%nat /\ 2 * nth j o 0 * (INR k + 1) <= INR (length sig)) /\ band_peak c E m /\
      nth j l (NaN, NaN, NaN) = (db_quot power (band_total c E), db_quot power m, enob_of (db_quot power (band_total c E)))
  end.
Proof. exact c172_entries. Qed.
Print Assumptions C172_entries.

(** Python counts one bin more (between none and two, with its tolerance): at an OSR of at least 1 and away from the tolerance
    exactly one more, except that both keep the first bin. *)
Theorem C172_count :
  forall N o c,
  inband_count (Z.of_nat N) o = Ok c ->
  (Z.of_nat (m_band_bins N o) <= c <= Z.of_nat (m_band_bins N o) + 2)%Z /\
  (1 <= o -> (forall k : Z, IZR k = INR N / (2 * o) \/ / 10 ^ 12 * (1 + Rabs (IZR k)) < Rabs (INR N / (2 * o) - IZR k)) -> Z.of_nat (m_band_bins N o) = Z.max 1 (c - 1)).
Proof. exact c172_count. Qed.
Print Assumptions C172_count.

(** For the same error and amplitude MATLAB never reports the lower SNDR. *)
Theorem C172_never_lower :
  forall err mag osr order order' res j,
  (2 <= length err)%nat -> 0 < mag -> (forall x, In x osr -> 0 < x) -> sorts_down osr order -> sorts osr order' -> osr_sweep err mag osr order' = Ok res -> (j < length osr)%nat ->
  let m := fst (fst (nth j (m_osr_loop (m_err_spec err) (length err) (mag ^ 2 / 2) osr order 0 0 0 (repeat (Fin 0, Fin 0, Fin 0) (length osr))) (NaN, NaN, NaN))) in
  let p := fst (fst (nth j res (NaN, NaN, NaN))) in m = PInf \/ xle p m.
Proof. exact c172_never_lower. Qed.
Print Assumptions C172_never_lower.

(** An error at the band edge is in band for Python and not for MATLAB: one skirt of a tone on bin 4 of 16 at OSR 2. *)
Theorem C172_edge_refuted :
  exists err osr res, osr_sweep err 1 [osr] [0%nat] = Ok res /\ map fst res = [(Fin (10 * lg 3), Fin (10 * lg 3))] /\
  map fst (m_osr_loop (m_err_spec err) (length err) (1 ^ 2 / 2) [osr] [0%nat] 0 0 0 [(Fin 0, Fin 0, Fin 0)]) = [(PInf, PInf)].
Proof. exact c172_edge_refuted. Qed.
Print Assumptions C172_edge_refuted.

(** The default sweep is Python's; its entry for m keeps m bins where Python's keeps m+1. *)
Theorem C172_default :
  forall N,
  (2 <= N)%nat -> default_osr N = Ok (m_default_osr N) /\ length (m_default_osr N) = (N / 2)%nat /\ forall m, (1 <= m <= N / 2)%nat -> m_band_bins N (nth (N / 2 - m) (m_default_osr N) 0%R) = m.
Proof. exact c172_default. Qed.
Print Assumptions C172_default.

(** A coherent sine below the last bin leaves no error: every figure is infinite. *)
Theorem C172_pure_sine :
  forall lin sortd sig k A ph off osr harmonic smooth o l,
  least_squares lin -> (forall x, sorts_down x (sortd x)) -> (0 < k)%nat -> (k < length sig / 2 - 1)%nat -> (5 <= length sig)%nat -> 0 < A ->
  is_record sig (sine A (INR k / INR (length sig)) ph off) -> m_perfosr lin sortd sig osr harmonic smooth = Ok (o, l) -> l = repeat (PInf, PInf, PInf) (length o).
Proof. exact c172_pure_sine. Qed.
Print Assumptions C172_pure_sine.

(** The slope curves: the same where the two OSRs differ, unless a tenth of the number of points is a tie that Python rounds to
    even (and the width matters). *)
Theorem C172_slope :
  forall osr sndr smooth i,
  (i < length osr)%nat -> (smooth = None -> ~ tie (INR (length osr) / 10)) ->
  let w := m_smooth (length osr) smooth in let lo := Z.to_nat (Z.max 0 (Z.of_nat i - w)) in let hi := Z.to_nat (Z.min (Z.of_nat (length osr) - 1) (Z.of_nat i + w)) in
  w = smooth_width (length osr) smooth /\ (1 / 10 ^ 15 < Rabs (lg (nth hi osr 0) - lg (nth lo osr 0)) -> nth i (m_slopes osr sndr smooth) NaN = Fin (nth i (local_slope osr sndr smooth) 0)).
Proof. exact c172_slope. Qed.
Print Assumptions C172_slope.

(** With 65 points MATLAB looks 7 points to each side, Python 6. *)
Theorem C172_smooth_refuted :
  exists n, m_smooth n None = 7%Z /\ smooth_width n None = 6%Z.
Proof. exact c172_smooth_refuted. Qed.
Print Assumptions C172_smooth_refuted.

(** Bands other than 0 <= fl < fh <= 1/2 are refused, which Python does not do. *)
Theorem C173_refuses :
  forall num den fl fh,
  (exists v, m_ntfperf num den fl fh = Ok v) <-> 0 <= fl /\ fl < fh /\ fh <= 1 / 2.
Proof. exact c173_refuses. Qed.
Print Assumptions C173_refuses.

(** The figure is -10 log10 of the response summed over the points strictly inside the band and divided by 10^6. *)
Theorem C173_formula :
  forall num den fl fh,
  0 <= fl -> fl < fh -> fh <= 1 / 2 -> fine_no_pole m_ntf_points den fl fh -> let np := fine_noise m_ntf_points num den fl fh in
  m_ntfperf num den fl fh = Ok (if Rlt_dec 0 np then Fin (- 10 * lg np) else PInf).
Proof. exact c173_formula. Qed.
Print Assumptions C173_formula.

(** The number of points strictly inside the band. *)
Theorem C173_points :
  forall lo hi,
  0 <= lo -> lo < hi -> hi <= 1 / 2 -> let n := fine_count m_ntf_points lo hi in
  n = IZR (Zceil (2000000 * hi) - Zfloor (2000000 * lo) - 1) /\ 2000000 * (hi - lo) - 1 <= n <= 2000000 * (hi - lo) + 1.
Proof. exact c173_points. Qed.
Print Assumptions C173_points.

(** A constant transfer function c reads -20 log10 |c| - 10 log10 of the share of the points inside the band. *)
Theorem C173_flat :
  forall c den fl fh,
  c <> 0 -> 0 <= fl -> fl < fh -> fh <= 1 / 2 -> fine_no_pole m_ntf_points den fl fh -> 0 < fine_count m_ntf_points fl fh ->
  m_ntfperf (map (fun x => c * x) den) den fl fh = Ok (Fin (- 20 * lg (Rabs c) - 10 * lg (fine_count m_ntf_points fl fh / 1000000))).
Proof. exact c173_flat. Qed.
Print Assumptions C173_flat.

(** The improvement is announced as relative to NTF = 1, but NTF = 1 itself reads more than 3 dB in the band up to a quarter of the sampling rate. *)
Theorem C173_flat_refuted :
  exists v, m_ntfperf [1] [1] 0 (1 / 4) = Ok (Fin v) /\ 3 < v.
Proof. exact c173_flat_refuted. Qed.
Print Assumptions C173_flat_refuted.

(** A finite impulse response over the whole band up to one half: the noise is its energy up to the missing end points,
    in ntfperf.m and, with the coarser grid and one point too many in the mean, in Python. *)
Theorem C173_fir :
  forall p d,
  (Z.of_nat (length p) <= 131070)%Z ->
  fine_noise m_ntf_points p (delays d) 0 (1 / 2) = energy p - ends p / 2000000 /\
  noise_in_band ntf_points p (delays d) 0 (1 / 2) = (65535 * energy p - ends p / 2) / 65536.
Proof. exact c173_fir. Qed.
Print Assumptions C173_fir.

(** So over the whole band Python's figure for such a transfer function is at least that of ntfperf.m. *)
Theorem C173_full_band :
  forall p d v v',
  p <> [] -> (Z.of_nat (length p) <= 131070)%Z -> m_ntfperf p (delays d) 0 (1 / 2) = Ok v -> ntf_analyzer p (delays d) 0 (1 / 2) = Ok v' -> at_least v v'.
Proof. exact c173_full_band. Qed.
Print Assumptions C173_full_band.
