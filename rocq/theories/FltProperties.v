(** * Property theorems of Flt: statements only, proofs in FltProofs.v.
    Generated by tools/mkprops.py from the final lemmas. *)
From Flocq Require Import Core.Core IEEE754.BinarySingleNaN Mult_error Plus_error.
From Coq Require Import Psatz Permutation.
From Verif Require Import Base BaseLemmas SarModel SarSpec SarProofs SiggenModel FltModel FltSpec FltLemmas.
Local Open Scope R_scope.
From Verif Require Import FltProofs.

(** Without noise, a larger double never gets a lexicographically smaller code: for every list of weights (also negative,
    infinite or nan) and every increasing range whose span is a finite double. *)
Theorem C129_monotone :
  forall samp cmp (vin w : list fl) (a b s c : fl),
  is_finite a = true -> is_finite b = true -> fle b a = false -> is_finite (fsub b a) = true -> flt fzero s = false -> flt fzero c = false ->
  exists codes, fsar_convert samp cmp vin w [a; b] s c = Ok codes /\ length codes = length vin /\
    (forall i, (i < length vin)%nat -> is_code (length w) (nth i codes [])) /\
    forall i k, (i < length vin)%nat -> (k < length vin)%nat -> le_double (nth i vin fzero) (nth k vin fzero) -> lex_le (nth i codes []) (nth k codes []).
Proof. exact c129_monotone. Qed.
Print Assumptions C129_monotone.

(** With dyadic weights and a span that is a power of two, the codes are those of the exact converter: the only rounding
    is that of vin - v_min. *)
Theorem C128_convert :
  forall samp cmp samp' cmp' (vin w : list fl) (a b s c : fl) e ks m,
  dyadic_weights e ks w -> is_finite a = true -> is_finite b = true -> val b - val a = bpow radix2 m -> (-1074 <= m <= 970)%Z ->
  (forall x, In x vin -> is_finite x = true) -> flt fzero s = false -> flt fzero c = false ->
  fsar_convert samp cmp vin w [a; b] s c = sar_convert samp' cmp' (map (fun x => rnd (val x - val a)) vin) (map val w) [Fin 0; Fin (val b - val a)] 0 0.
Proof. exact c128_convert. Qed.
Print Assumptions C128_convert.

(** From v_min = 0 there is no rounding at all: the double-precision converter is the exact one. *)
Theorem C128_convert_zero :
  forall samp cmp samp' cmp' (vin w : list fl) (b s c : fl) e ks m,
  dyadic_weights e ks w -> is_finite b = true -> val b = bpow radix2 m -> (-1074 <= m <= 970)%Z ->
  (forall x, In x vin -> is_finite x = true) -> flt fzero s = false -> flt fzero c = false ->
  fsar_convert samp cmp vin w [fzero; b] s c = sar_convert samp' cmp' (map val vin) (map val w) [Fin 0; Fin (val b)] 0 0.
Proof. exact c128_convert_zero. Qed.
Print Assumptions C128_convert_zero.

(** Reconstruction with such weights rounds once: the result is the exact reconstruction, correctly rounded, in whatever
    order the products are added. *)
Theorem C128_reconstruct :
  forall sum codes (w : list fl) (a b : fl) e ks m,
  summation sum -> dyadic_weights e ks w -> is_finite a = true -> is_finite b = true -> val b - val a = bpow radix2 m -> (m <= 970)%Z -> (-1074 <= e + m)%Z -> total (map val w) <= 1 ->
  (forall row, In row codes -> is_code (length w) row) ->
  exists out exact, fsar_reconstruct sum codes w [a; b] = Ok out /\ sar_reconstruct codes (map val w) [Fin (val a); Fin (val b)] = Ok exact /\
    Forall (fun x => is_finite x = true) out /\ map val out = map rnd exact.
Proof. exact c128_reconstruct. Qed.
Print Assumptions C128_reconstruct.

(** Up to 53 bits, the double-precision weights are exactly the powers of two the exact model computes. *)
Theorem C128_weights :
  forall sum n,
  summation sum -> (1 <= n <= 53)%nat -> exists w, fsar_ideal_weights sum (Z.of_nat n) None = Ok w /\
  sar_ideal_weights (Z.of_nat n) None = Ok (map val w) /\ dyadic_weights (- Z.of_nat n) (binary_list (Z.of_nat n)) w.
Proof. exact c128_weights. Qed.
Print Assumptions C128_weights.

(** For 1 to 53 bits, the default range (0, 1) and every finite double input, the double-precision converter with its own
    weights outputs the bits of floor(vin 2^n) clipped to the code range, and the reconstruction is that code divided
    by 2^n, exactly. *)
Theorem C128_roundtrip :
  forall sum samp cmp (vin : list fl) (s c : fl) n,
  summation sum -> (1 <= n <= 53)%nat -> (forall x, In x vin -> is_finite x = true) -> flt fzero s = false -> flt fzero c = false ->
  exists w codes out, fsar_ideal_weights sum (Z.of_nat n) None = Ok w /\ fsar_convert samp cmp vin w [fzero; fone] s c = Ok codes /\ fsar_reconstruct sum codes w [fzero; fone] = Ok out /\
    length codes = length vin /\ length out = length vin /\
    forall i, (i < length vin)%nat -> let code := clip_code n (Zfloor (val (nth i vin fzero) * 2 ^ n)) in
      nth i codes [] = bits n code /\ is_finite (nth i out fzero) = true /\ val (nth i out fzero) = IZR code / 2 ^ n.
Proof. exact c128_roundtrip. Qed.
Print Assumptions C128_roundtrip.

(** For dyadic weights of total at most 1 and every range whose span is a finite double (also spans that are not powers
    of two), inputs from v_max up give the all-ones code and inputs down from v_min give the all-zeros code. *)
Theorem C130_saturation :
  forall samp cmp (vin w : list fl) (a b s c : fl) e ks,
  dyadic_weights e ks w -> total (map val w) <= 1 -> is_finite a = true -> is_finite b = true -> fle b a = false -> is_finite (fsub b a) = true -> flt fzero s = false -> flt fzero c = false ->
  exists codes, fsar_convert samp cmp vin w [a; b] s c = Ok codes /\ length codes = length vin /\ forall i, (i < length vin)%nat ->
    (le_double b (nth i vin fzero) -> nth i codes [] = repeat 1%Z (length w)) /\ (le_double (nth i vin fzero) a -> nth i codes [] = repeat 0%Z (length w)).
Proof. exact c130_saturation. Qed.
Print Assumptions C130_saturation.

(** The range (-2^1023, 2^1023) is accepted, but its span overflows and the input v_max is converted to zero. *)
Theorem C130_accepted_range_refuted :
  exists (w : list fl) (a b : fl) code, fsar_ideal_weights fold_sum 2 None = Ok w /\ is_finite a = true /\ is_finite b = true /\ fle b a = false /\
  fsar_convert (fun _ => fzero) (fun _ _ => fzero) [b] w [a; b] fzero fzero = Ok [code] /\ code = [0; 0]%Z.
Proof. exact c130_accepted_range_refuted. Qed.
Print Assumptions C130_accepted_range_refuted.

(** Range (0, 3.3), two bits: the voltage of code 11 is converted to code 10. *)
Theorem C131_reconversion_refuted :
  exists (w y : list fl), fsar_ideal_weights fold_sum 2 None = Ok w /\ fsar_reconstruct fold_sum [[1; 1]%Z] w [fzero; f3_3] = Ok y /\
  fsar_convert (fun _ => fzero) (fun _ _ => fzero) y w [fzero; f3_3] fzero fzero = Ok [[1; 0]%Z].
Proof. exact c131_reconversion_refuted. Qed.
Print Assumptions C131_reconversion_refuted.

(** With dyadic weights, a power-of-two span and v_min a multiple of the last step, re-conversion returns the codes. *)
Theorem C131_dyadic :
  forall sum samp cmp (vin w : list fl) (a b : fl) e ks m q codes out,
  summation sum -> dyadic_weights e ks w -> total (map val w) <= 1 -> is_finite a = true -> is_finite b = true -> val b - val a = bpow radix2 m -> (m <= 970)%Z -> (-1074 <= e + m)%Z ->
  val a = IZR q * bpow radix2 (e + m) -> (Z.abs q + zsum ks <= 2 ^ 53)%Z -> (forall x, In x vin -> is_finite x = true /\ val a <= val x) ->
  fsar_convert samp cmp vin w [a; b] fzero fzero = Ok codes -> fsar_reconstruct sum codes w [a; b] = Ok out -> fsar_convert samp cmp out w [a; b] fzero fzero = Ok codes.
Proof. exact c131_dyadic. Qed.
Print Assumptions C131_dyadic.

(** A larger input never gives a smaller output, infinities included, as long as the step is not zero. *)
Theorem C132_monotone :
  forall n (a b x y : fl),
  (n <= 1023)%nat -> is_finite a = true -> is_finite b = true -> fle b a = false -> is_finite (fsub b a) = true -> 0 < val (fdiv (fsub b a) (fnum (2 ^ Z.of_nat n) 0)) ->
  le_double x y -> le_double (fquantise n a b x) (fquantise n a b y).
Proof. exact c132_monotone. Qed.
Print Assumptions C132_monotone.

(** When the step is a power of two (n <= 53), quantising is one rounded subtraction, the exact quantiser, one rounded
    addition. *)
Theorem C132_dyadic :
  forall n (a b x : fl) e,
  (n <= 53)%nat -> is_finite a = true -> is_finite b = true -> is_finite x = true -> val b - val a = bpow radix2 (e + Z.of_nat n) -> (-1074 <= e)%Z -> (e + Z.of_nat n <= 970)%Z ->
  is_finite (fquantise n a b x) = true /\ val (fquantise n a b x) = rnd (quantise n 0 (val b - val a) (rnd (val x - val a)) + val a).
Proof. exact c132_dyadic. Qed.
Print Assumptions C132_dyadic.

(** Ranges from zero to a power of two: exactly the real quantiser of C39, no rounding at all. *)
Theorem C132_exact :
  forall n (b x : fl) e,
  (n <= 53)%nat -> is_finite b = true -> is_finite x = true -> val b = bpow radix2 (e + Z.of_nat n) -> (-1074 <= e)%Z -> (e + Z.of_nat n <= 970)%Z ->
  is_finite (fquantise n fzero b x) = true /\ val (fquantise n fzero b x) = quantise n 0 (val b) (val x).
Proof. exact c132_exact. Qed.
Print Assumptions C132_exact.

(** False in doubles: 2 bits on the range (0, 0.7), the input 0.65 gives the top level, which quantises to the level below. *)
Theorem C133_requantise_refuted :
  exists n (a b x : fl), is_finite a = true /\ is_finite b = true /\ is_finite x = true /\ fle b a = false /\ flt (fquantise n a b (fquantise n a b x)) (fquantise n a b x) = true.
Proof. exact c133_requantise_refuted. Qed.
Print Assumptions C133_requantise_refuted.

(** True when the step is a power of two and v_min is a multiple of the step. *)
Theorem C133_dyadic :
  forall n (a b x : fl) e q,
  (n <= 53)%nat -> is_finite a = true -> is_finite b = true -> is_finite x = true -> val a = IZR q * bpow radix2 e -> (Z.abs q + 2 ^ Z.of_nat n <= 2 ^ 53)%Z ->
  val b - val a = bpow radix2 (e + Z.of_nat n) -> (-1074 <= e)%Z -> (e + Z.of_nat n <= 970)%Z ->
  let y := fquantise n a b x in is_finite y = true /\ val (fquantise n a b y) = val y.
Proof. exact c133_dyadic. Qed.
Print Assumptions C133_dyadic.

(** 3 bits, range (0, 1): 0.8125 is converted to 6 = [1;1;0] and reconstructed as 0.75. *)
Example C128_convert_ex :
  fsar_convert noiseless (fun _ => noiseless) [fnum 13 (-4); fnum (-1) 0; fnum 5 0] (get (fsar_ideal_weights fold_sum 3 None)) [fzero; fone] fzero fzero = Ok [[1; 1; 0]; [0; 0; 0]; [1; 1; 1]]%Z.
Proof. exact c128_convert_ex. Qed.

Example C128_convert_zero_ex :
  fsar_convert noiseless (fun _ => noiseless) [fnum 13 (-3)] (get (fsar_ideal_weights fold_sum 3 None)) [fzero; fnum 2 0] fzero fzero = sar_convert (fun _ => 0) (fun _ _ => 0) [val (fnum 13 (-3))] (map val (get (fsar_ideal_weights fold_sum 3 None))) [Fin 0; Fin (val (fnum 2 0))] 0 0.
Proof. exact c128_convert_zero_ex. Qed.

Example C128_reconstruct_ex :
  map (fun x => (fle (fnum 3 (-2)) x, fle x (fnum 3 (-2)))) (get (fsar_reconstruct fold_sum [[1; 1; 0]]%Z (get (fsar_ideal_weights fold_sum 3 None)) [fzero; fone])) = [(true, true)].
Proof. exact c128_reconstruct_ex. Qed.

Example C128_weights_ex :
  map (fun x => (fle (fnum 1 (-2)) x, fle x (fnum 1 (-2)))) (get (fsar_ideal_weights fold_sum 2 None)) = [(true, false); (true, true)].
Proof. exact c128_weights_ex. Qed.

Example C128_roundtrip_ex :
  exists w codes out, fsar_ideal_weights fold_sum 3 None = Ok w /\ fsar_convert noiseless (fun _ => noiseless) [fnum 13 (-4)] w [fzero; fone] fzero fzero = Ok codes /\ fsar_reconstruct fold_sum codes w [fzero; fone] = Ok out /\ codes = [[1; 1; 0]]%Z /\ val (nth 0 out fzero) = 3 / 4.
Proof. exact c128_roundtrip_ex. Qed.

(** Non-dyadic weights, an odd range and an infinite input. *)
Example C129_monotone_ex :
  fsar_convert noiseless (fun _ => noiseless) [B754_infinity true; f0_7; f3_3; B754_infinity false] [f0_7; fdiv (fnum 2 0) (fnum 7 0)] [fdiv (fnum (-1) 0) (fnum 10 0); fdiv (fnum 9 0) (fnum 10 0)] fzero fzero = Ok [[0; 0]; [1; 0]; [1; 1]; [1; 1]]%Z.
Proof. exact c129_monotone_ex. Qed.

Example C130_saturation_ex :
  fsar_convert noiseless (fun _ => noiseless) [fzero; f3_3; fnum 1 1023; fnum (-1) 0] w2bit [fzero; f3_3] fzero fzero = Ok [[0; 0]; [1; 1]; [1; 1]; [0; 0]]%Z.
Proof. exact c130_saturation_ex. Qed.

(** Range (-1, 1), 2 bits: reconstructed codes convert to themselves. *)
Example C131_dyadic_ex :
  let r := [fnum (-1) 0; fnum 1 0] in fsar_convert noiseless (fun _ => noiseless) (get (fsar_reconstruct fold_sum [[1; 0]; [0; 1]; [1; 1]]%Z w2bit r)) w2bit r fzero fzero = Ok [[1; 0]; [0; 1]; [1; 1]]%Z.
Proof. exact c131_dyadic_ex. Qed.

Example C132_monotone_ex :
  map (fun p => fle (fquantise 2 fzero f0_7 (fst p)) (fquantise 2 fzero f0_7 (snd p))) [(B754_infinity true, f0_7); (fnum 1 (-2), fnum 3 (-3)); (f3_3, B754_infinity false)] = [true; true; true] /\ flt (fquantise 2 fzero f0_7 (fnum 1 (-2))) (fquantise 2 fzero f0_7 (fnum 3 (-3))) = true.
Proof. exact c132_monotone_ex. Qed.

(** Range (-1, 1), 2 bits: 0.3 is quantised to 0. *)
Example C132_dyadic_ex :
  let y := fquantise 2 (fnum (-1) 0) (fnum 1 0) (fdiv (fnum 3 0) (fnum 10 0)) in (fle fzero y, fle y fzero) = (true, true).
Proof. exact c132_dyadic_ex. Qed.

Example C132_exact_ex :
  val (fquantise 2 fzero (fnum 1 0) (fnum 5 (-3))) = 1 / 2.
Proof. exact c132_exact_ex. Qed.

Example C133_dyadic_ex :
  let q := fquantise 2 (fnum (-1) 0) (fnum 1 0) in map (fun x => (fle (q (q x)) (q x), fle (q x) (q (q x)))) [f0_7; f3_3; fnum (-5) 0] = [(true, true); (true, true); (true, true)].
Proof. exact c133_dyadic_ex. Qed.
