(** * Model of the scripts that generate digital test data (matlab/data_generation: gen_pipeline2s_dout.m, gen_pipeline3s_dout.m,
    gen_pipeline8s_dout.m, gen_sar_dout.m) and of the two-step quantiser of gen_sinewave_gain_error.m, gen_sinewave_ref_error.m and
    gen_sinewave_kickback.m.
    One sample at a time (the scripts are elementwise), its value an argument; the parameters the scripts fix are arguments.
    Arithmetic is exact.  A stage gain is 2^g, so log2 of the redundancy is whole.  Not modelled: spectra, figures and files. *)
From Verif Require Import Base.
Local Open Scope R_scope.

(** floor(x*2^N)/2^N *)
Definition quant (N : nat) (x : R) : R := IZR (Zfloor (x * 2 ^ N)) / 2 ^ N.
(** binSaturate (gen_pipeline2s_dout.m l.47-52): dec2bin of the clipped code, most significant bit first. *)
Definition bin_saturate (x : R) (N : nat) : list R :=
  let z := Z.min (Z.max (Zfloor x) 0) (2 ^ Z.of_nat N - 1) in
  map (fun i => IZR (z / 2 ^ (Z.of_nat N - 1 - Z.of_nat i) mod 2)) (seq 0 N).
(** 2.^(hi:-1:lo) *)
Definition powers (hi lo : Z) : list R := map (fun i => powerRZ 2 (hi - Z.of_nat i)) (seq 0 (Z.to_nat (hi - lo + 1))).
(** weights / sum(weights) *)
Definition normalised (w : list R) : list R := map (fun x => x / lsum w) w.
(** (1 - G * 1 / 2^N) / 2 *)
Definition stage_offset (N g : nat) : R := (1 - 2 ^ g * 1 / 2 ^ N) / 2.

(** ** gen_pipeline2s_dout.m l.14-31 *)
Definition pipeline2 (N1 g1 N2 : nat) (sig : R) : list R :=
  let msb := quant N1 sig in
  let residue1 := sig - msb in
  let lsb := quant N2 (2 ^ g1 * residue1 + stage_offset N1 g1) in
  bin_saturate (msb * 2 ^ N1) N1 ++ bin_saturate (lsb * 2 ^ N2) N2.
Definition weights2 (N1 g1 N2 : nat) : list R :=
  let n1 := Z.of_nat N1 in let n2 := Z.of_nat N2 in
  let R1 := (n1 - Z.of_nat g1)%Z in
  powers (n1 + n2 - R1 - 1) (n2 - R1) ++ powers (n2 - 1) 0.

(** ** gen_pipeline3s_dout.m l.14-41 *)
Definition pipeline3 (N1 g1 N2 g2 N3 : nat) (sig : R) : list R :=
  let msb := quant N1 sig in
  let residue1 := sig - msb in
  let lsb := quant N2 (2 ^ g1 * residue1 + stage_offset N1 g1) in
  let residue2 := 2 ^ g1 * residue1 + stage_offset N1 g1 - lsb in
  let lsb2 := quant N3 (2 ^ g2 * residue2 + stage_offset N2 g2) in
  bin_saturate (msb * 2 ^ N1) N1 ++ bin_saturate (lsb * 2 ^ N2) N2 ++ bin_saturate (lsb2 * 2 ^ N3) N3.
Definition weights3 (N1 g1 N2 g2 N3 : nat) : list R :=
  let n1 := Z.of_nat N1 in let n2 := Z.of_nat N2 in let n3 := Z.of_nat N3 in
  let R1 := (n1 - Z.of_nat g1)%Z in let R2 := (n2 - Z.of_nat g2)%Z in
  powers (n1 + n2 + n3 - R2 - R1 - 1) (n2 + n3 - R2 - R1) ++ powers (n2 + n3 - R2 - 1) (n3 - R2) ++ powers (n3 - 1) 0.

(** ** gen_pipeline8s_dout.m l.15-66, for [S] stages *)
(** l.24-49: the bits of the next [k] stages and the signal that is left. *)
Fixpoint pipe_loop (k N g : nat) (v : R) : list R * R :=
  match k with
  | O => ([], v)
  | S k' =>
      let q := quant N v in
      let r := pipe_loop k' N g (2 ^ g * (v - q) + stage_offset N g) in
      (bin_saturate (q * 2 ^ N) N ++ fst r, snd r)
  end.
Definition pipeline_n (S N g NL : nat) (sig : R) : list R :=
  let r := pipe_loop (S - 1) N g sig in fst r ++ bin_saturate (quant NL (snd r) * 2 ^ NL) NL.
(** l.45-48, 62: the exponents of stage i. *)
Definition stage_weights (S N g NL i : nat) : list R :=
  let n := Z.of_nat N in let s := Z.of_nat S in let j := Z.of_nat i in
  let redundancy := (n - Z.of_nat g)%Z in
  let e := (n * (s - j) - redundancy * (s - j - 1) + (Z.of_nat NL - n))%Z in
  powers (e - 1) (e - n).
Definition weights_n (S N g NL : nat) : list R :=
  concat (map (fun i => stage_weights S N g NL (i + 1)) (seq 0 (S - 1))) ++ powers (Z.of_nat NL - 1) 0.

(** ** gen_sar_dout.m l.17-39 *)
(** The decisions of the remaining capacitors [w] (voltages) on the residue. *)
Fixpoint sar_bits (w : list R) (residue : R) : list R :=
  match w with
  | [] => []
  | c :: t => let d := if Rltb 0 residue then 1 else 0 in d :: sar_bits t (residue - (2 * d - 1) * c)
  end.
Definition sar_dout (cdac : list R) (sig : R) : list R := sar_bits (map (fun c => c / lsum cdac * 1) cdac) sig.
(** l.36-37: the last weight is halved. *)
Definition sar_nominal (cdac : list R) : list R := removelast cdac ++ [last cdac 0 / 2].
Definition sar_aout (cdac : list R) (sig : R) : R := dot (sar_dout cdac sig) (sar_nominal cdac).
(** l.20: log2(sum(CDAC)/CDAC(end)*2). *)
Definition sar_resolution (cdac : list R) : R := ln (lsum cdac / last cdac 0 * 2) / ln 2.

(** ** The two-step quantiser (gen_sinewave_gain_error.m l.13-16, gen_sinewave_ref_error.m l.12-15, gen_sinewave_kickback.m l.13-18) *)
Definition two_step (sig : R) : R * R := let msb := quant 4 sig in (msb, quant 12 (sig - msb)).
Definition gain_error (g sig : R) : R := fst (two_step sig) * g + snd (two_step sig).
Definition ref_error (amp : R) (k : nat) (sig : R) : R := fst (two_step sig) + snd (two_step sig) + (fst (two_step sig) - 0.5) * (-1) ^ k * amp.
Definition kickback (kb : R) (sig : list R) : list R :=
  map (fun k => fst (two_step (nth k sig 0)) + snd (two_step (nth k sig 0)) + kb * fst (two_step (nth (k - 1) sig 0))) (seq 0 (length sig)).
