(** * Property theorems of SpecTone: statements only, proofs in SpecToneProofs.v.
    Generated by tools/mkprops.py from the final lemmas. *)
From Verif Require Import Base BaseLemmas Cplx FreqModel FreqSpec FreqProofs UnitsModel UnitsSpec UnitsProofs TiModel TiSpec TiProofs TiToneProofs SpecModel SpecSpec SpecLemmas SpecProofs SpecMetricProofs SpecPrepProofs SpecToneSpec.
From Coq Require Import Psatz.
Local Open Scope R_scope.
From Verif Require Import SpecToneProofs.

(** The analysis of a capture of coherent tones (any cosine-sum window, any offset, phases and
    scale, explicit side_bin at least the window's default): the fundamental is found exactly,
    its power is exactly its squared relative amplitude, and the noise-and-distortion power
    is exactly the sum of the squared relative amplitudes of the other in-band tones. *)
Theorem C61_tone_powers :
  forall kz cz N H c A ph J p fs wt sb osr mh nf r,
  wt <> Kaiser -> wt <> Chebwin -> p <> 0 ->
  compute_spectrum kz cz [map (multitone N H c A ph J) (seq 0 N)] fs (ScalePeak p) wt (Some sb) osr mh nf None 0 = Ok r ->
  let K := default_side_bin wt in let nb := sp_inband r in
  one_dominant N H K sb nb A J ->
  sp_fund r = J O /\ sp_frac r = INR (J O) /\ sp_sig r = (A O / p) ^ 2 /\
  sp_noise_dist r = tone_power H (fun i => A i / p) (unwanted K nb J).
Proof. exact c61_tone_powers. Qed.
Print Assumptions C61_tone_powers.

(** The SNDR is therefore 10 lg of the ratio of squared amplitudes (with the code's 1e-20 floor). *)
Theorem C61_sndr :
  forall kz cz N H c A ph J p fs wt sb osr mh nf r,
  wt <> Kaiser -> wt <> Chebwin -> p <> 0 ->
  compute_spectrum kz cz [map (multitone N H c A ph J) (seq 0 N)] fs (ScalePeak p) wt (Some sb) osr mh nf None 0 = Ok r ->
  let K := default_side_bin wt in let nb := sp_inband r in
  one_dominant N H K sb nb A J ->
  sp_sndr r = Fin (10 * lg (A O ^ 2 / (tone_power H A (unwanted K nb J) + p ^ 2 * / 10 ^ 20))).
Proof. exact c61_sndr. Qed.
Print Assumptions C61_sndr.

(** The spur is the strongest unwanted tone m, and the SFDR the ratio of its squared amplitude
    to the fundamental's. *)
Theorem C61_sfdr :
  forall kz cz N H c A ph J p fs wt sb osr mh nf r m,
  wt <> Kaiser -> wt <> Chebwin -> p <> 0 ->
  compute_spectrum kz cz [map (multitone N H c A ph J) (seq 0 N)] fs (ScalePeak p) wt (Some sb) osr mh nf None 0 = Ok r ->
  let K := default_side_bin wt in let nb := sp_inband r in
  one_dominant N H K sb nb A J ->
  (m < H)%nat -> unwanted K nb J m = true -> A m <> 0 ->
  (forall i, (i < H)%nat -> unwanted K nb J i = true -> Rabs (A i) <= Rabs (A m)) ->
  sp_spur_power r = (A m / p) ^ 2 /\ sp_sfdr r = Fin (10 * lg (A O ^ 2 / A m ^ 2)) /\
  exists i, (i < H)%nat /\ sp_spur_bin r = J i /\ Rabs (A i) = Rabs (A m).
Proof. exact c61_sfdr. Qed.
Print Assumptions C61_sfdr.

(** Without unwanted in-band tones the SFDR is infinite. *)
Theorem C61_sfdr_clean :
  forall kz cz N H c A ph J p fs wt sb osr mh nf r,
  wt <> Kaiser -> wt <> Chebwin -> p <> 0 ->
  compute_spectrum kz cz [map (multitone N H c A ph J) (seq 0 N)] fs (ScalePeak p) wt (Some sb) osr mh nf None 0 = Ok r ->
  let K := default_side_bin wt in let nb := sp_inband r in
  one_dominant N H K sb nb A J -> (forall i, (i < H)%nat -> unwanted K nb J i = false) ->
  sp_noise_dist r = 0 /\ sp_sfdr r = PInf.
Proof. exact c61_sfdr_clean. Qed.
Print Assumptions C61_sfdr_clean.

(** The harmonic bins are computed from the exact fundamental, and the THD power is exactly the
    power of the tones sitting on counted harmonic bins (not below the code's 1e-15 floor). *)
Theorem C61_thd :
  forall kz cz N H c A ph J p fs wt sb osr mh nf r,
  wt <> Kaiser -> wt <> Chebwin -> p <> 0 ->
  compute_spectrum kz cz [map (multitone N H c A ph J) (seq 0 N)] fs (ScalePeak p) wt (Some sb) osr mh nf None 0 = Ok r ->
  let K := default_side_bin wt in let nb := sp_inband r in
  one_dominant N H K sb nb A J ->
  let hs := harmonic_bins (INR (J O)) (Z.to_nat mh) N in
  (forall h i, In h hs -> (i < H)%nat -> clear_of (J O) sb h = true ->
     h = Z.of_nat (J i) \/ (Z.of_nat (sb + K) < Z.abs (h - Z.of_nat (J i)))%Z) ->
  sp_harm_bins r = hs /\
  sp_thd_power r = Rmax (tone_power H (fun i => A i / p)
     (fun i => existsb (fun h => clear_of (J O) sb h && (h =? Z.of_nat (J i))%Z) hs)) (/ 10 ^ 15).
Proof. exact c61_thd. Qed.
Print Assumptions C61_thd.

(** The whole corrected spectrum sums to twice the mean square of the windowed data over the
    mean square of the window, for every window with non-zero sum and every record. *)
Theorem C62_total_power :
  forall rows w N,
  (0 < N)%nat -> length w = N -> lsum w <> 0 -> rows <> [] -> (forall r, In r rows -> length r = N) ->
  lsum (corrected_power rows w N) =
  2 * lmean (map (fun r => lmean (map (fun v => v ^ 2) (map2 Rmult r w))) rows) / lmean (map (fun v => v ^ 2) w).
Proof. exact c62_total_power. Qed.
Print Assumptions C62_total_power.

(** So with the rectangular window the spectrum of a capture sums to twice its mean square:
    a full-scale sine (mean square 1/2) is 0 dBFS. *)
Theorem C62_rectangular_total :
  forall row,
  row <> [] ->
  lsum (corrected_power [row] (repeat 1 (length row)) (length row)) = 2 * lmean (map (fun v => v ^ 2) row).
Proof. exact c62_rectangular_total. Qed.
Print Assumptions C62_rectangular_total.

Example C62_total_ex :
  lsum (corrected_power [[1; 2; -3]] [1; 0; 1] 3) = 10.
Proof. exact c62_total_ex. Qed.

(** The analysis answers for every such capture. *)
Theorem C61_defined :
  forall kz cz l fs p wt sb osr mh nf,
  l <> [] -> 0 < osr -> (1 <= mh)%Z -> (0 <= nf <= 4)%Z ->
  exists r, compute_spectrum kz cz [l] fs (ScalePeak p) wt (Some sb) osr mh nf None 0 = Ok r /\
    (osr <= 1 -> sp_inband r = (length l / 2 + 1)%nat).
Proof. exact c61_defined. Qed.
Print Assumptions C61_defined.

Example C61_three_tones_ex :
  forall kz cz,
  exists r,
  compute_spectrum kz cz [map (multitone 64 3 7 (fun i => nth i [2; 0.02; 0.002] 0) (fun i => INR i) (fun i => nth i [5; 10; 15] 0)%nat) (seq 0 64)]
    1 (ScalePeak 2) Hann (Some 1%nat) 1 5 3 None 0 = Ok r /\
  sp_fund r = 5%nat /\ sp_sig r = 1 /\ sp_noise_dist r = 0.000101 /\ sp_sfdr r = Fin 40.
Proof. exact c61_three_tones_ex. Qed.

(** quick_sndr on the same three tones. *)
Example C27_quick_ex :
  forall kz cz,
  exists enob,
  quick_sndr kz cz [map (multitone 64 3 7 (fun i => nth i [2; 0.02; 0.002] 0) (fun i => INR i) (fun i => nth i [5; 10; 15] 0)%nat) (seq 0 64)]
    Hann (Some 1%Z) (ScalePeak 2) = Ok (Fin (10 * lg (1 / (0.000101 + / 10 ^ 20))), enob).
Proof. exact c27_quick_ex. Qed.
