(** * Property theorems of Dout: statements only, proofs in DoutProofs.v.
    Generated by tools/mkprops.py from the final lemmas. *)
From Verif Require Import Base BaseLemmas FreqProofs UnitsProofs SpecLemmas SpecProofs SiggenModel SiggenProofs DoutModel DoutSpec.
From Coq Require Import Psatz ZifyBool Permutation.
Local Open Scope R_scope.
From Verif Require Import DoutProofs.

(** Any codes, positive remaining weight S: range_min and range_max are the extremes over all rows of
    (value of bits ii..m-1)/S, and the percentages count the rows whose value is <= 0 or >= S. *)
Theorem C41_stats :
  forall codes m w ofb l ii,
  analyze_overflow codes m w ofb = Ok l -> matrix_of m codes -> (ii < m)%nat -> 0 < rest_weight w ii m ->
  exists mn mx pz po, length l = m /\ nth_error l ii = Some (mn, mx, pz, po) /\
    (forall row, In row codes -> mn <= rest_value row w ii m / rest_weight w ii m <= mx) /\
    (exists row, In row codes /\ mn = rest_value row w ii m / rest_weight w ii m) /\ (exists row, In row codes /\ mx = rest_value row w ii m / rest_weight w ii m) /\
    pz = percent_of (fun row => Rleb (rest_value row w ii m) 0) codes /\ po = percent_of (fun row => Rleb (rest_weight w ii m) (rest_value row w ii m)) codes.
Proof. exact c41_stats. Qed.
Print Assumptions C41_stats.

(** Binary codes and positive weights: every reported residue is in [0,1]; underflow at bit ii means
    all bits from ii on are 0, overflow means all are 1; the percentages are in [0,100], add up to
    at most 100, and to exactly 100 at the last bit. *)
Theorem C41_binary :
  forall codes m w ofb l ii,
  analyze_overflow codes m w ofb = Ok l -> binary_of m codes -> (forall j, (j < m)%nat -> 0 < nth j w 0) -> (ii < m)%nat ->
  exists mn mx pz po, nth_error l ii = Some (mn, mx, pz, po) /\ 0 <= mn /\ mn <= mx /\ mx <= 1 /\
    pz = percent_of (rest_all 0 ii m) codes /\ po = percent_of (rest_all 1 ii m) codes /\ 0 <= pz /\ 0 <= po /\ pz + po <= 100 /\ (S ii = m -> pz + po = 100).
Proof. exact c41_binary. Qed.
Print Assumptions C41_binary.

(** Both percentages can only grow from one bit to the next lower one. *)
Theorem C41_grows :
  forall codes m w ofb l i j p q,
  analyze_overflow codes m w ofb = Ok l -> binary_of m codes -> (forall k, (k < m)%nat -> 0 < nth k w 0) -> (i <= j < m)%nat ->
  nth_error l i = Some p -> nth_error l j = Some q -> snd (fst p) <= snd (fst q) /\ snd p <= snd q.
Proof. exact c41_grows. Qed.
Print Assumptions C41_grows.

(** A weight vector of the wrong length is a ValueError; so is an empty record; a check position
    outside 1..2m is an IndexError (positions m+1..2m wrap around silently). *)
Theorem C41_errors :
  forall codes m w ofb,
  (length w <> m -> analyze_overflow codes m w ofb = Err ValueError) /\
  (length w = m -> (0 < m)%nat -> codes = [] -> analyze_overflow codes m w ofb = Err ValueError) /\
  (length w = m -> (0 < m)%nat -> codes <> [] -> match ofb with None => exists l, analyze_overflow codes m w ofb = Ok l | Some b =>
     ((1 <= b <= 2 * Z.of_nat m)%Z -> exists l, analyze_overflow codes m w ofb = Ok l) /\ (~ (1 <= b <= 2 * Z.of_nat m)%Z -> analyze_overflow codes m w ofb = Err IndexError) end).
Proof. exact c41_errors. Qed.
Print Assumptions C41_errors.

(** Weights 2, 1 and codes 11, 00, 01: at the MSB 1/3 overflow and 1/3 underflow; at the LSB 2/3 and 1/3. *)
Example C41_values_ex :
  analyze_overflow [[1;1];[0;0];[0;1]] 2 [2;1] None = Ok [(0, 1, 1/3*100, 1/3*100); (0, 1, 1/3*100, 2/3*100)].
Proof. exact c41_values_ex. Qed.

(** The significant weights: the largest |w|, down to the first neighbouring ratio of 3 or more. *)
Theorem C42_significant :
  forall weights r sca er,
  analyze_weight_radix weights = Ok (r, sca, er) -> exists s sig, 
  Permutation (map Rabs weights) s /\ decreasing s /\ sig = firstn (length sig) s /\ (1 <= length sig <= length s)%nat /\
  (forall i, (S i < length sig)%nat -> nth i s 0 / nth (S i) s 0 < 3) /\ ((length sig < length s)%nat -> 3 <= nth (length sig - 1) s 0 / nth (length sig) s 0) /\
  er = lg2 (lsum sig / nth (length sig - 1) s 0 + 1).
Proof. exact c42_significant. Qed.
Print Assumptions C42_significant.

(** At least lg2 of one more than the number of significant weights, so at least one bit. *)
Theorem C42_lower :
  forall weights r sca er,
  analyze_weight_radix weights = Ok (r, sca, er) -> (forall x, In x weights -> x <> 0) ->
  lg2 (INR (length (significant (map Rabs weights))) + 1) <= er /\ 1 <= er.
Proof. exact c42_lower. Qed.
Print Assumptions C42_lower.

(** Scaling by c, flipping signs and permuting leaves effres unchanged and divides wgtsca by |c|. *)
Theorem C42_invariant :
  forall w w' c r sca er,
  0 < c -> (forall x, In x w -> x <> 0) -> Permutation (map Rabs w') (map (fun x => c * Rabs x) w) ->
  analyze_weight_radix w = Ok (r, sca, er) -> exists r', analyze_weight_radix w' = Ok (r', sca / c, er).
Proof. exact c42_invariant. Qed.
Print Assumptions C42_invariant.

(** wgtsca is positive and no worse than 1/min or than any z/max with z between half and one and a
    half times round(max/min); it is 1/min when that makes every significant weight an integer. *)
Theorem C42_scale :
  forall weights r sca er,
  analyze_weight_radix weights = Ok (r, sca, er) -> (forall x, In x weights -> x <> 0) ->
  let sig := significant (map Rabs weights) in let mn := last sig 0 in let mx := hd 0 sig in let i0 := round_he (mx / mn) in
  0 < sca /\ scale_error sig sca <= scale_error sig (1 / mn) /\
  (forall z, (1 <= z)%Z -> (round_he (IZR i0 * 0.5) <= z <= round_he (IZR i0 * 1.5))%Z -> scale_error sig sca <= scale_error sig (IZR z / mx)) /\
  (scale_error sig (1 / mn) = 0 -> sca = 1 / mn).
Proof. exact c42_scale. Qed.
Print Assumptions C42_scale.

(** radix[0] is nan and radix[i]*|w[i]| = |w[i-1]|. *)
Theorem C42_radix :
  forall weights r sca er i,
  analyze_weight_radix weights = Ok (r, sca, er) -> length r = length weights /\ nth_error r 0 = Some NaN /\
  ((S i < length weights)%nat -> nth (S i) weights 0 <> 0 -> exists q, nth_error r (S i) = Some (Fin q) /\ q * Rabs (nth (S i) weights 0) = Rabs (nth i weights 0)).
Proof. exact c42_radix. Qed.
Print Assumptions C42_radix.

(** The n-bit binary array (n >= 1) has effective resolution n and scale 1. *)
Theorem C42_binary :
  forall n,
  (1 <= n)%nat -> exists r, analyze_weight_radix (map (fun i => 2 ^ (n - 1 - i)) (seq 0 n)) = Ok (r, 1, INR n).
Proof. exact c42_binary. Qed.
Print Assumptions C42_binary.

(** An empty weight list is an IndexError. *)
Theorem C42_empty :
  analyze_weight_radix [] = Err IndexError.
Proof. exact c42_empty. Qed.
Print Assumptions C42_empty.

(** Weights 100, 2, 1: the ratio 50 cuts everything after 100, so effres is exactly 1 bit. *)
Example C42_cut_ex :
  exists r sca, analyze_weight_radix [100; 2; 1] = Ok (r, sca, 1).
Proof. exact c42_cut_ex. Qed.

(** For a pair (x, y) with 0 <= x <= y <= m, at every sample the x-residual minus the y-residual is
    exactly the weighted sum of bits x..y-1, and the x-residual is the signal when x = 0. *)
Theorem C43_telescope :
  forall signal bits m w pairs auto ps rx ry p x y i,
  plot_residual_scatter signal bits m (Some w) pairs auto = Ok (ps, rx, ry) -> length w = m -> matrix_of m bits ->
  nth_error ps p = Some (Z.of_nat x, Z.of_nat y) -> (x <= y <= m)%nat -> (i < length signal)%nat ->
  exists a b, nth_error rx p = Some a /\ nth_error ry p = Some b /\ length a = length signal /\ length b = length signal /\
    nth i a 0 - nth i b 0 = bits_between (nth i bits []) w x y /\ nth i b 0 = nth i signal 0 - bits_between (nth i bits []) w 0 y /\ (x = O -> a = signal).
Proof. exact c43_telescope. Qed.
Print Assumptions C43_telescope.

(** Any integer index is accepted as a Python slice end: beyond m it means all bits, and -k means all but the
    last k bits (none if k >= m). *)
Theorem C43_any_index :
  forall signal bits m w pairs auto ps rx ry p zx zy i,
  plot_residual_scatter signal bits m (Some w) pairs auto = Ok (ps, rx, ry) -> length w = m -> matrix_of m bits ->
  nth_error ps p = Some (zx, zy) -> (i < length signal)%nat ->
  let removed z := if (z <? 0)%Z then Z.to_nat (Z.of_nat m + z) else Nat.min m (Z.to_nat z) in
  exists a b, nth_error rx p = Some a /\ nth_error ry p = Some b /\
    nth i a 0 = nth i signal 0 - bits_between (nth i bits []) w 0 (removed zx) /\ nth i b 0 = nth i signal 0 - bits_between (nth i bits []) w 0 (removed zy).
Proof. exact c43_any_index. Qed.
Print Assumptions C43_any_index.

(** Defaults: pairs (0,m), (1,m), ..., (m-1,m), and if every row is the binary code of its sample the
    residual after all bits is zero everywhere. *)
Theorem C43_exact :
  forall signal bits m auto ps rx ry p i,
  plot_residual_scatter signal bits m None None auto = Ok (ps, rx, ry) -> matrix_of m bits ->
  (forall k, (k < length signal)%nat -> nth k signal 0 = rsum m (fun j => nth j (nth k bits []) 0 * 2 ^ (m - 1 - j))) -> (p < m)%nat -> (i < length signal)%nat ->
  length ps = m /\ nth_error ps p = Some (Z.of_nat p, Z.of_nat m) /\ exists b, nth_error ry p = Some b /\ length b = length signal /\ nth i b 0 = 0.
Proof. exact c43_exact. Qed.
Print Assumptions C43_exact.

(** A signal of the wrong length is a ValueError. *)
Theorem C43_errors :
  forall signal bits m w pairs auto,
  length signal <> length bits -> plot_residual_scatter signal bits m w pairs auto = Err ValueError.
Proof. exact c43_errors. Qed.
Print Assumptions C43_errors.

(** One sample 2.5 with bits 10: residuals 2.5 (no bits), 0.5 (MSB removed), 0.5 (all removed). *)
Example C43_values_ex :
  plot_residual_scatter [2.5] [[1;0]] 2 None None false = Ok ([(0,2);(1,2)]%Z, [[2.5];[0.5]], [[0.5];[0.5]]).
Proof. exact c43_values_ex. Qed.

(** For a binary record, entry j is the percentage of rows whose bit j is 1, hence in [0,100]. *)
Theorem C72_percentage :
  forall bits B j,
  bits <> [] -> binary_of B bits -> (j < B)%nat -> length (bit_activity bits B) = B /\
  nth j (bit_activity bits B) 0 = percent_of (fun row => Reqb (nth j row 0) 1) bits /\ 0 <= nth j (bit_activity bits B) 0 <= 100.
Proof. exact c72_percentage. Qed.
Print Assumptions C72_percentage.

(** The activities determine the mean code: sum_j w_j * activity_j / 100 is the mean of the weighted rows. *)
Theorem C72_mean :
  forall bits B w,
  bits <> [] -> matrix_of B bits -> length w = B -> rsum B (fun j => nth j w 0 * (nth j (bit_activity bits B) 0 / 100)) = lmean (map (fun row => dot row w) bits).
Proof. exact c72_mean. Qed.
Print Assumptions C72_mean.

(** Codes 11, 01, 00, 01: activities 25 and 75 percent. *)
Example C72_values_ex :
  bit_activity [[1;1];[0;1];[0;0];[0;1]] 2 = [25; 75].
Proof. exact c72_values_ex. Qed.
