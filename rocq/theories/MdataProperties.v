(** * Property theorems of Mdata: statements only, proofs in MdataProofs.v.
    Generated by tools/mkprops.py from the final lemmas. *)
From Coq Require Import Psatz.
From Verif Require Import Base BaseLemmas SiggenModel MdataModel.
Local Open Scope R_scope.
From Verif Require Import MdataProofs.

(** Within the range the bits of two stages add up to the code of one converter of N2 + g1 bits, moved by the offset. *)
Theorem C200_two :
  forall N1 g1 N2 sig,
  (g1 <= N1 <= g1 + N2)%nat -> 0 <= sig < 1 ->
  dot (pipeline2 N1 g1 N2 sig) (weights2 N1 g1 N2) = IZR (Zfloor (2 ^ (g1 + N2) * sig + (1 - 2 ^ g1 / 2 ^ N1) / 2 * 2 ^ N2)).
Proof. exact c200_two. Qed.
Print Assumptions C200_two.

Theorem C200_three :
  forall N1 g1 N2 g2 N3 sig,
  (g1 <= N1 <= g1 + g2 + N3)%nat -> (g2 <= N2 <= g2 + N3)%nat -> 0 <= sig < 1 ->
  dot (pipeline3 N1 g1 N2 g2 N3 sig) (weights3 N1 g1 N2 g2 N3) = IZR (Zfloor (2 ^ (g1 + g2 + N3) * sig + ((1 - 2 ^ g1 / 2 ^ N1) / 2 * 2 ^ (g2 + N3) + (1 - 2 ^ g2 / 2 ^ N2) / 2 * 2 ^ N3))).
Proof. exact c200_three. Qed.
Print Assumptions C200_three.

(** With the numbers in the scripts: the 11-bit code, and the 12-bit code plus 320. *)
Theorem C200_scripts :
  forall sig,
  0 <= sig < 1 -> dot (pipeline2 3 3 8 sig) (weights2 3 3 8) = IZR (Zfloor (2048 * sig)) /\ dot (pipeline3 3 2 3 2 8 sig) (weights3 3 2 3 2 8) = IZR (Zfloor (4096 * sig)) + 320.
Proof. exact c200_scripts. Qed.
Print Assumptions C200_scripts.

Theorem C200_normalised :
  forall N1 g1 N2 g2 N3 sig,
  (1 <= N3)%nat ->
  0 <= dot (pipeline2 N1 g1 N3 sig) (normalised (weights2 N1 g1 N3)) <= 1 /\ 0 <= dot (pipeline3 N1 g1 N2 g2 N3 sig) (normalised (weights3 N1 g1 N2 g2 N3)) <= 1.
Proof. exact c200_normalised. Qed.
Print Assumptions C200_normalised.

(** Above the range the code falls back although the bits are saturated: the residue is taken against the unsaturated code. *)
Theorem C200_overload_refuted :
  exists a b, a < b /\ dot (pipeline2 3 3 8 b) (weights2 3 3 8) < dot (pipeline2 3 3 8 a) (weights2 3 3 8).
Proof. exact c200_overload_refuted. Qed.
Print Assumptions C200_overload_refuted.

(** Outside the range the first stage holds: all bits 0 below, all bits 1 above. *)
Theorem C200_saturates :
  forall N1 g1 N2 sig,
  (sig <= 0 -> firstn N1 (pipeline2 N1 g1 N2 sig) = repeat 0 N1) /\ (1 <= sig -> firstn N1 (pipeline2 N1 g1 N2 sig) = repeat 1 N1).
Proof. exact c200_saturates. Qed.
Print Assumptions C200_saturates.

(** The digits are right, the weights of all stages but the last are not: 2^g times as much makes the code of one converter. *)
Theorem C201_weights :
  forall n N g NL sig,
  (1 <= n)%nat -> (g <= N <= g + NL)%nat -> 0 <= sig < 1 -> exists head low wh wl,
  pipeline_n n N g NL sig = head ++ low /\ weights_n n N g NL = wh ++ wl /\ length head = (N * (n - 1))%nat /\ length wh = length head /\ length low = NL /\ length wl = NL /\
  2 ^ g * dot head wh + dot low wl = IZR (Zfloor (2 ^ (g * (n - 1) + NL) * sig + (1 - 2 ^ g / 2 ^ N) / 2 * 2 ^ NL * rsum (n - 1) (fun i => 2 ^ (g * i)))).
Proof. exact c201_weights. Qed.
Print Assumptions C201_weights.

(** With the numbers of the script (eight stages) a larger signal gets a smaller code. *)
Theorem C201_monotone_refuted :
  exists a b, 0 <= a /\ a < b /\ b < 1 /\ dot (pipeline_n 8 3 2 4 b) (weights_n 8 3 2 4) < dot (pipeline_n 8 3 2 4 a) (weights_n 8 3 2 4).
Proof. exact c201_monotone_refuted. Qed.
Print Assumptions C201_monotone_refuted.

(** If every capacitor but the last is at most the sum of those after it, the output is within half the last capacitor below the input (scaled to capacitors). *)
Theorem C202_error :
  forall cdac sig,
  cdac <> [] -> 0 < lsum cdac -> (forall j, (S j < length cdac)%nat -> nth j cdac 0 <= lsum (skipn (S j) cdac)) -> -1 <= sig <= 1 ->
  0 <= lsum cdac * (sig + 1) / 2 - sar_aout cdac sig <= last cdac 0 / 2 /\ (-1 < sig -> sar_aout cdac sig < lsum cdac * (sig + 1) / 2).
Proof. exact c202_error. Qed.
Print Assumptions C202_error.

(** If moreover every capacitor is a whole number of the last, the output is that of an ideal quantiser with steps of half the last capacitor: redundancy costs nothing. *)
Theorem C202_ideal :
  forall cdac sig,
  cdac <> [] -> 0 < last cdac 0 -> 0 < lsum cdac -> (forall j, (S j < length cdac)%nat -> nth j cdac 0 <= lsum (skipn (S j) cdac)) -> (forall c, In c cdac -> exists k, c = IZR k * last cdac 0) -> -1 < sig <= 1 ->
  sar_aout cdac sig = last cdac 0 / 2 * (IZR (Zceil (lsum cdac * (sig + 1) / last cdac 0)) - 1).
Proof. exact c202_ideal. Qed.
Print Assumptions C202_ideal.

(** The step 2 sum/last levels is the resolution the script prints. *)
Theorem C202_resolution :
  forall cdac,
  0 < lsum cdac -> 0 < last cdac 0 -> exp (sar_resolution cdac * ln 2) * (last cdac 0 / 2) = lsum cdac.
Proof. exact c202_resolution. Qed.
Print Assumptions C202_resolution.

(** Both capacitor lists of the script: 4096 and 3438 levels without a missing code. *)
Theorem C202_scripts :
  forall sig,
  -1 < sig <= 1 ->
  sar_aout [1024; 512; 256; 128; 64; 32; 16; 8; 4; 2; 1; 1] sig = (IZR (Zceil (2048 * (sig + 1))) - 1) / 2 /\ sar_aout [800; 440; 230; 122; 63; 32; 16; 8; 4; 2; 1; 1] sig = (IZR (Zceil (1719 * (sig + 1))) - 1) / 2.
Proof. exact c202_scripts. Qed.
Print Assumptions C202_scripts.

(** Without the condition on the capacitors the error is larger than the half step. *)
Theorem C202_missing_refuted :
  exists cdac sig, cdac <> [] /\ 0 < last cdac 0 /\ -1 <= sig <= 1 /\ last cdac 0 / 2 < sar_aout cdac sig - lsum cdac * (sig + 1) / 2.
Proof. exact c202_missing_refuted. Qed.
Print Assumptions C202_missing_refuted.

(** The two steps together are one 12-bit quantiser, for every signal. *)
Theorem C203_two_step :
  forall sig,
  fst (two_step sig) + snd (two_step sig) = IZR (Zfloor (sig * 4096)) / 4096 /\ (exists k, fst (two_step sig) = IZR k / 16) /\ fst (two_step sig) <= sig < fst (two_step sig) + 1 / 16 /\ 0 <= snd (two_step sig) < 1 / 16.
Proof. exact c203_two_step. Qed.
Print Assumptions C203_two_step.

(** What the three scripts add to that: a scaled coarse code, an alternating multiple of it, and a share of the one before. *)
Theorem C203_errors :
  forall sig g amp k,
  gain_error g sig = IZR (Zfloor (sig * 4096)) / 4096 + (g - 1) * fst (two_step sig) /\
  ref_error amp k sig = IZR (Zfloor (sig * 4096)) / 4096 + (if Nat.even k then 1 else -1) * amp * (fst (two_step sig) - 1 / 2).
Proof. exact c203_errors. Qed.
Print Assumptions C203_errors.

Theorem C203_kickback :
  forall kb sig k,
  (k < length sig)%nat -> nth k (kickback kb sig) 0 = IZR (Zfloor (nth k sig 0 * 4096)) / 4096 + kb * fst (two_step (nth (k - 1) sig 0)).
Proof. exact c203_kickback. Qed.
Print Assumptions C203_kickback.

(** The Python signal generator: the same samples from the second on; at the first it takes the coarse code of the last. *)
Theorem C203_memory_agrees :
  forall g x kb k,
  (k < length x)%nat ->
  nth k (apply_memory_effect g (Some x) kb) 0 = IZR (Zfloor (nth k x 0 * 4096)) / 4096 + kb * fst (two_step (nth (if (k =? 0)%nat then length x - 1 else k - 1) x 0)) /\ ((1 <= k)%nat -> nth k (apply_memory_effect g (Some x) kb) 0 = nth k (kickback kb x) 0).
Proof. exact c203_memory_agrees. Qed.
Print Assumptions C203_memory_agrees.

Theorem C203_first_refuted :
  forall g,
  exists x, nth 0 (apply_memory_effect g (Some x) 1) 0 <> nth 0 (kickback 1 x) 0.
Proof. exact c203_first_refuted. Qed.
Print Assumptions C203_first_refuted.

(** The coarse gain error of the Python generator is the script's, applied to the signal without its offset. *)
Theorem C203_gain_agrees :
  forall g x gain,
  apply_ra_gain_error g (Some x) gain 4 12 CoarsePath = Ok (map (fun v => gain_error gain (v - g_DC g) + g_DC g) x).
Proof. exact c203_gain_agrees. Qed.
Print Assumptions C203_gain_agrees.
