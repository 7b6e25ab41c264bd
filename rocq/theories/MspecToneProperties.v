(** * Property theorems of MspecTone: statements only, proofs in MspecToneProofs.v.
    Generated by tools/mkprops.py from the final lemmas. *)
From Coq Require Import Lia Lra Psatz Permutation.
From Verif Require Import Base BaseLemmas Cplx FreqModel FreqSpec FreqProofs UnitsModel UnitsSpec UnitsProofs TiModel TiSpec TiProofs TiToneProofs SpecModel SpecSpec SpecLemmas SpecProofs SpecMetricProofs SpecPrepProofs SpecToneSpec SpecToneProofs CohModel CohSpec CohLemmas MatModel MatProofs MspecModel MspecSpec MspecProofs.
Local Open Scope R_scope.
From Verif Require Import MspecToneProofs.

(** A capture of coherent tones is always analysed, tone 0 is found and placed exactly, its power is its squared amplitude relative
    to half the full-scale range, and noise plus distortion is exactly the power of the other tones in the band; without any the SNDR is
    infinite. *)
Theorem C183_tones :
  forall N H c A ph J K sb fsc wt fs osr harmonic nthd nf,
  (wt = MHann /\ K = 1%nat) \/ (wt = MRect /\ K = 0%nat) -> fsc <> 0 -> 0 < osr -> (-1 <= harmonic)%Z ->
  let nb := m_inband N osr in one_dominant N H K sb nb A J -> exists r,
  m_plotspec [map (multitone N H c A ph J) (seq 0 N)] fs (Some fsc) false wt (Some sb) osr harmonic nthd nf None 0 = Ok (Some r) /\
  ms_bin r = J O /\ ms_frac r = Some (INR (J O)) /\ ms_sig r = (A O / (fsc / 2)) ^ 2 /\
  ms_noi r = tone_power H (fun i => A i / (fsc / 2)) (unwanted K nb J) /\
  (ms_noi r = 0 -> ms_sndr r = PInf) /\
  (0 < ms_noi r -> ms_sndr r = Fin (10 * lg (A O ^ 2 / tone_power H A (unwanted K nb J)))).
Proof. exact c183_tones. Qed.
Print Assumptions C183_tones.

(** The spur is the strongest other tone m in the band, without the Python code's floors. *)
Theorem C183_sfdr :
  forall N H c A ph J K sb fsc wt fs osr harmonic nthd nf r m,
  (wt = MHann /\ K = 1%nat) \/ (wt = MRect /\ K = 0%nat) -> fsc <> 0 -> 0 < osr -> (-1 <= harmonic)%Z ->
  let nb := m_inband N osr in one_dominant N H K sb nb A J ->
  m_plotspec [map (multitone N H c A ph J) (seq 0 N)] fs (Some fsc) false wt (Some sb) osr harmonic nthd nf None 0 = Ok (Some r) ->
  (m < H)%nat -> unwanted K nb J m = true -> A m <> 0 ->
  (forall i, (i < H)%nat -> unwanted K nb J i = true -> Rabs (A i) <= Rabs (A m)) ->
  ms_spur r = (A m / (fsc / 2)) ^ 2 /\ ms_sfdr r = Fin (10 * lg (A O ^ 2 / A m ^ 2)) /\
  exists i, (i < H)%nat /\ ms_spur_bin r = J i /\ Rabs (A i) = Rabs (A m).
Proof. exact c183_sfdr. Qed.
Print Assumptions C183_sfdr.

(** The distortion power is exactly the power of the other in-band tones sitting on the bins of harmonics 2 .. nTHD, when no harmonic's
    window overlaps the lobe of a tone it does not sit on. *)
Theorem C183_thd :
  forall N H c A ph J K sb fsc wt fs osr harmonic nthd nf r,
  (wt = MHann /\ K = 1%nat) \/ (wt = MRect /\ K = 0%nat) -> fsc <> 0 -> 0 < osr -> (-1 <= harmonic)%Z ->
  let nb := m_inband N osr in one_dominant N H K sb nb A J ->
  m_plotspec [map (multitone N H c A ph J) (seq 0 N)] fs (Some fsc) false wt (Some sb) osr harmonic nthd nf None 0 = Ok (Some r) ->
  ms_harmonics r = map Z.to_nat (harmonic_bins (INR (J O)) nthd N) /\
  ((forall h i, In h (ms_harmonics r) -> (i < H)%nat -> h = J i \/ (sb + K < bin_dist h (J i))%nat) ->
   ms_thd_power r = tone_power H (fun i => A i / (fsc / 2)) (fun i => unwanted K nb J i && existsb (Nat.eqb (J i)) (ms_harmonics r))).
Proof. exact c183_thd. Qed.
Print Assumptions C183_thd.
