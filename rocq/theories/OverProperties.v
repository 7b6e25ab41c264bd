(** * Property theorems of Over: statements only, proofs in OverProofs.v.
    Generated by tools/mkprops.py from the final lemmas. *)
From Verif Require Import Base BaseLemmas Cplx UnitsModel UnitsSpec UnitsProofs TiModel TiProofs SpecModel SpecSpec SpecLemmas SpecProofs CalModel CalSpec FitModel FitSpec FitProofs OsrModel OsrSpec OsrProofs EplaneProofs CalExLemmas CalExProofs OverModel OverSpec.
From Coq Require Import Psatz Permutation Sorted.
Local Open Scope R_scope.
From Verif Require Import OverProofs.

(** The result is -10 log10 of the response summed over the points strictly inside the band and divided by 65536
    (infinite when that is zero), provided no point of the band is a pole. *)
Theorem C124_formula :
  forall num den lo hi,
  num <> [] -> Exists (fun c => c <> 0) den -> no_pole ntf_points den lo hi ->
  exists v, ntf_analyzer num den lo hi = Ok v /\
    (0 < noise_in_band ntf_points num den lo hi -> v = Fin (- 10 * lg (noise_in_band ntf_points num den lo hi))) /\
    (noise_in_band ntf_points num den lo hi = 0 -> v = PInf).
Proof. exact c124_formula. Qed.
Print Assumptions C124_formula.

Theorem C124_errors :
  forall num den lo hi,
  (exists v, ntf_analyzer num den lo hi = Ok v) \/
  (ntf_analyzer num den lo hi = Err ValueError /\ (num = [] \/ Forall (fun c => c = 0) den)).
Proof. exact c124_errors. Qed.
Print Assumptions C124_errors.

(** The number of analysis points strictly inside the band. *)
Theorem C124_points :
  forall lo hi,
  0 <= lo -> lo < hi -> hi <= 1 / 2 ->
  count_inside ntf_points lo hi = IZR (Zceil (131070 * hi) - Zfloor (131070 * lo) - 1) /\
  131070 * (hi - lo) - 1 <= count_inside ntf_points lo hi <= 131070 * (hi - lo) + 1.
Proof. exact c124_points. Qed.
Print Assumptions C124_points.

(** A constant transfer function c (any denominator without poles in the band) gives -20 log10 |c| plus the ratio of
    all points to the points in the band. *)
Theorem C124_flat :
  forall c den lo hi,
  c <> 0 -> no_pole ntf_points den lo hi -> 0 < count_inside ntf_points lo hi ->
  ntf_analyzer (map (fun x => c * x) den) den lo hi = Ok (Fin (- 20 * lg (Rabs c) - 10 * lg (count_inside ntf_points lo hi / 65536))).
Proof. exact c124_flat. Qed.
Print Assumptions C124_flat.

(** Scaling the transfer function by g lowers the result by 20 log10 |g|. *)
Theorem C124_gain :
  forall g num den lo hi v,
  g <> 0 -> no_pole ntf_points den lo hi -> ntf_analyzer num den lo hi = Ok v ->
  ntf_analyzer (map (fun x => g * x) num) den lo hi = Ok (xaxpy (- 20 * lg (Rabs g)) 1 v).
Proof. exact c124_gain. Qed.
Print Assumptions C124_gain.

(** A narrower band never suppresses less. *)
Theorem C124_narrower :
  forall num den lo hi lo' hi' v v',
  lo' <= lo -> hi <= hi' -> no_pole ntf_points den lo' hi' ->
  ntf_analyzer num den lo hi = Ok v -> ntf_analyzer num den lo' hi' = Ok v' -> at_least v' v.
Proof. exact c124_narrower. Qed.
Print Assumptions C124_narrower.

(** A transfer function that is nowhere larger in the band never suppresses less. *)
Theorem C124_better :
  forall num den num' den' lo hi v v',
  no_pole ntf_points den lo hi -> no_pole ntf_points den' lo hi ->
  (forall k, (k < ntf_points)%nat -> inside lo hi (frequency_point k) -> response num den (frequency_point k) <= response num' den' (frequency_point k)) ->
  ntf_analyzer num den lo hi = Ok v -> ntf_analyzer num' den' lo hi = Ok v' -> at_least v' v.
Proof. exact c124_better. Qed.
Print Assumptions C124_better.

(** (z - 1)/z has the squared magnitude 4 sin^2(pi f). *)
Theorem C124_differencer :
  forall f,
  response [1; -1] [1; 0] f = 4 * sin (PI * f) ^ 2.
Proof. exact c124_differencer. Qed.
Print Assumptions C124_differencer.

(** Over the whole band up to half the sampling rate the first-order differencer roughly doubles the noise. *)
Theorem C124_first_order :
  ntf_analyzer [1; -1] [1; 0] 0 (1 / 2) = Ok (Fin (- 10 * lg (131068 / 65536))).
Proof. exact c124_first_order. Qed.
Print Assumptions C124_first_order.

(** The result is the true improvement over NTF = 1 plus 10 log10 (65536 / number of points in the band), which does
    not depend on the transfer function. *)
Theorem C125_offset :
  forall num den lo hi,
  num <> [] -> no_pole ntf_points den lo hi -> 0 < noise_in_band ntf_points num den lo hi ->
  0 < mean_response ntf_points num den lo hi /\
  ntf_analyzer num den lo hi = Ok (Fin (- 10 * lg (mean_response ntf_points num den lo hi) + 10 * lg (65536 / count_inside ntf_points lo hi))) /\
  ntf_analyzer [1] [1] lo hi = Ok (Fin (10 * lg (65536 / count_inside ntf_points lo hi))).
Proof. exact c125_offset. Qed.
Print Assumptions C125_offset.

(** For NTF = 1 itself the result should be 0; in the band up to a quarter of the sampling rate it exceeds 3 dB. *)
Theorem C125_flat_refuted :
  exists lo hi v, 0 <= lo /\ lo < hi /\ hi <= 1 / 2 /\ mean_response ntf_points [1] [1] lo hi = 1 /\ ntf_analyzer [1] [1] lo hi = Ok (Fin v) /\ 3 < v.
Proof. exact c125_flat_refuted. Qed.
Print Assumptions C125_flat_refuted.

(** Examples: the whole band of the differencer is worse than NTF = 1, halving the transfer function gains
    20 log10 2. *)
Example C124_gain_ex :
  ntf_analyzer [1 / 2; - (1 / 2)] [1; 0] 0 (1 / 2) = Ok (Fin (- 20 * lg (Rabs (1 / 2)) + 1 * (- 10 * lg (131068 / 65536)))).
Proof. exact c124_gain_ex. Qed.

Example C124_points_ex :
  count_inside ntf_points 0 (1 / 4) = 32767.
Proof. exact c124_points_ex. Qed.

Example C124_errors_ex :
  ntf_analyzer [1] [0; 0] 0 (1 / 2) = Err ValueError.
Proof. exact c124_errors_ex. Qed.

(** The sweep raises ValueError exactly for fewer than two samples or an OSR that is not positive. *)
Theorem C126_errors :
  forall lstsq argsort data osr,
  (forall l, Permutation (argsort l) (seq 0 (length l))) ->
  if (length data <? 2)%nat || match osr with Some o => existsb (fun x => Rleb x 0) o | None => false end
  then sweep_performance lstsq argsort data osr = Err ValueError
  else exists r, sweep_performance lstsq argsort data osr = Ok r.
Proof. exact c126_errors. Qed.
Print Assumptions C126_errors.

(** Every entry is the signal power of the fitted sine over the error power inside its own band: the record minus the
    fitted sine, Hann-windowed. *)
Theorem C126_entries :
  forall lstsq argsort data osr o l,
  (forall l, sorts l (argsort l)) -> sweep_performance lstsq argsort data osr = Ok (o, l) -> (forall x, In x o -> 0 < x) ->
  exists fit, fit_core lstsq data None 1 (1 / 10 ^ 9) = Ok fit /\ length l = length o /\ forall j, (j < length o)%nat -> exists c m,
    inband_count (Z.of_nat (length data)) (nth j o 0) = Ok (Z.of_nat c) /\ band_peak c (err_spec (f_residuals fit)) m /\
    nth j l (NaN, NaN, NaN) = (let s := db_quot (f_amplitude fit ^ 2 / 2) (band_total c (err_spec (f_residuals fit))) in (s, db_quot (f_amplitude fit ^ 2 / 2) m, enob_of s)).
Proof. exact c126_entries. Qed.
Print Assumptions C126_entries.

(** A pure coherent sine leaves no error: every figure is infinite. *)
Theorem C126_pure_sine :
  forall lstsq argsort data k A ph off o,
  least_squares lstsq -> (forall l, sorts l (argsort l)) -> (0 < k)%nat -> (k < length data / 2)%nat -> (5 <= length data)%nat -> INR (length data) <= 10 ^ 10 -> 0 < A ->
  is_record data (sine A (INR k / INR (length data)) ph off) -> (forall x, In x o -> 0 < x) ->
  sweep_performance lstsq argsort data (Some o) = Ok (o, repeat (PInf, PInf, PInf) (length o)).
Proof. exact c126_pure_sine. Qed.
Print Assumptions C126_pure_sine.

(** perfosr adds its own checks and otherwise returns the sweep column by column. *)
Theorem C127_checks :
  forall lstsq argsort sig osr harmonic smooth,
  (forall l, Permutation (argsort l) (seq 0 (length l))) ->
  (exists (m : nat), harmonic = INR m /\ (1 <= m)%nat) /\ match smooth with Some s => 1 <= s | None => True end /\
  match osr with Some o => forall x, In x o -> 0 < x | None => True end /\ (2 <= length sig)%nat <->
  exists o l, perfosr lstsq argsort sig osr harmonic smooth = Ok (o, map (fun r => fst (fst r)) l, map (fun r => snd (fst r)) l, map snd l) /\ sweep_performance lstsq argsort sig osr = Ok (o, l).
Proof. exact c127_checks. Qed.
Print Assumptions C127_checks.

(** When the SNDR is a + b log10(OSR) on distinguishable OSRs, the reported slope is b everywhere, whatever the smoothing. *)
Theorem C127_slope :
  forall osr sndr smooth a b,
  (3 <= length osr)%nat -> length sndr = length osr -> match smooth with Some s => (1 <= s)%Z | None => True end ->
  (forall i, (i < length osr)%nat -> nth i sndr 0 = a + b * lg (nth i osr 0)) ->
  (forall i j, (i < j)%nat -> (j < length osr)%nat -> 1 / 10 ^ 15 < Rabs (lg (nth j osr 0) - lg (nth i osr 0))) ->
  local_slope osr sndr smooth = repeat b (length osr).
Proof. exact c127_slope. Qed.
Print Assumptions C127_slope.

Theorem C127_reach :
  forall osr sndr smooth i,
  (i < length osr)%nat -> match smooth with Some s => (1 <= s)%Z | None => True end ->
  exists h, reach (length osr) smooth h /\
    let lo := Z.to_nat (Z.max 0 (Z.of_nat i - h)) in let hi := Z.to_nat (Z.min (Z.of_nat (length osr) - 1) (Z.of_nat i + h)) in
    (1 / 10 ^ 15 < Rabs (lg (nth hi osr 0) - lg (nth lo osr 0)) -> nth i (local_slope osr sndr smooth) 0 = (nth hi sndr 0 - nth lo sndr 0) / (lg (nth hi osr 0) - lg (nth lo osr 0))) /\
    (Rabs (lg (nth hi osr 0) - lg (nth lo osr 0)) <= 1 / 10 ^ 15 -> nth i (local_slope osr sndr smooth) 0 = 0).
Proof. exact c127_reach. Qed.
Print Assumptions C127_reach.

(** A sine of amplitude 2 on bin 2 of 8 samples, at two OSRs. *)
Example C126_pure_sine_ex :
  sweep_performance gs_lstsq ins_argsort quarter_record (Some [1; 2]) = Ok ([1; 2], [(PInf, PInf, PInf); (PInf, PInf, PInf)]).
Proof. exact c126_pure_sine_ex. Qed.

(** An OSR of zero is refused. *)
Example C126_errors_ex :
  sweep_performance gs_lstsq ins_argsort quarter_record (Some [1; 0]) = Err ValueError.
Proof. exact c126_errors_ex. Qed.

(** harmonic = 2.5 is refused, harmonic = 3 accepted. *)
Example C127_checks_ex :
  perfosr gs_lstsq ins_argsort quarter_record (Some [1; 2]) 2.5 None = Err ValueError /\
  perfosr gs_lstsq ins_argsort quarter_record (Some [1; 2]) 3 None = Ok ([1; 2], [PInf; PInf], [PInf; PInf], [PInf; PInf]).
Proof. exact c127_checks_ex. Qed.

(** First-order shaping, 30 dB per decade, at OSRs 1, 10, 100. *)
Example C127_slope_ex :
  local_slope [1; 10; 100] [20; 50; 80] None = [30; 30; 30].
Proof. exact c127_slope_ex. Qed.

(** A jump at the last of five points is seen by the last three slopes only (reach 2, although 100 is requested). *)
Example C127_reach_ex :
  exists h, reach 5 (Some 100%Z) h /\ h = 2%Z.
Proof. exact c127_reach_ex. Qed.
