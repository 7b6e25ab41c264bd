(** * OSR sweep: the final lemmas are named c30_, c63_. *)
From Verif Require Import Base BaseLemmas Cplx FreqModel UnitsModel UnitsSpec UnitsProofs TiModel TiProofs TiToneProofs SpecModel SpecSpec SpecLemmas SpecProofs SpecMetricProofs SpecToneSpec SpecToneProofs OsrModel OsrSpec.
From Coq Require Import Permutation Sorted Psatz.
Local Open Scope R_scope.

Lemma set_nth_length {A} i (v : A) l : length (set_nth i v l) = length l.
Proof. unfold set_nth. rewrite map_length, combine_length, seq_length. lia. Qed.
Lemma set_nth_nth {A} (d : A) i v l j : (j < length l)%nat -> nth j (set_nth i v l) d = if (j =? i)%nat then v else nth j l d.
Proof.
  intros H. unfold set_nth. rewrite (nth_map_in _ _ _ (O, d)) by (rewrite combine_length, seq_length; lia).
  rewrite combine_nth by apply seq_length. rewrite seq_nth by exact H. reflexivity.
Qed.
Lemma err_spec_length err : length (err_spec err) = (length err / 2 + 1)%nat.
Proof. unfold err_spec. rewrite map_length, seq_length. reflexivity. Qed.
Lemma err_spec_nonneg err k : 0 <= nth k (err_spec err) 0.
Proof.
  destruct (Nat.lt_ge_cases k (length err / 2 + 1)) as [H|H]; [|rewrite nth_overflow by (rewrite err_spec_length; exact H); lra].
  unfold err_spec. rewrite map_seq_nth by exact H. pose proof (pow2_ge_0 (Cmod (rfft (err_windowed err) k))).
  destruct (Req_dec (INR (length err) ^ 2) 0) as [Z|Z]; [rewrite Z; unfold Rdiv; rewrite Rinv_0; lra|].
  assert (0 < INR (length err) ^ 2) by (pose proof (pow2_ge_0 (INR (length err))); lra).
  apply Rmult_le_pos; [apply Rdiv_le_0_compat; assumption|lra].
Qed.
(** Largest of the first c entries and 0. *)
Fixpoint peak0 (c : nat) (E : list R) : R := match c with O => 0 | S k => Rmax (peak0 k E) (nth k E 0) end.
Lemma peak0_ge c E k : (k < c)%nat -> nth k E 0 <= peak0 c E.
Proof.
  induction c as [|c IH]; intros H; [lia|]. cbn [peak0]. destruct (Nat.eq_dec k c) as [->|]; [apply Rmax_r|].
  eapply Rle_trans; [apply IH; lia|apply Rmax_l].
Qed.
Lemma peak0_in c E : (0 < c)%nat -> (forall k, 0 <= nth k E 0) -> exists k, (k < c)%nat /\ nth k E 0 = peak0 c E.
Proof.
  intros Hc HE. induction c as [|c IH]; [lia|]. cbn [peak0]. destruct c as [|c].
  - exists O. split; [lia|]. cbn [peak0]. rewrite Rmax_right by apply HE. reflexivity.
  - destruct (IH ltac:(lia)) as (k & Hk & Ek). unfold Rmax at 1. destruct (Rle_dec _ _); [exists (S c); split; [lia|reflexivity]|exists k; split; [lia|exact Ek]].
Qed.
Lemma peak0_split p c E : (p < c <= length E)%nat -> (forall k, 0 <= nth k E 0) ->
  peak0 c E = Rmax (peak0 p E) (match slice p c E with [] => 0 | x :: t => lmax1 x t end).
Proof.
  intros H HE. set (s := slice p c E). assert (L : length s = (c - p)%nat) by (unfold s; rewrite slice_length; lia).
  assert (Sn : forall i, (i < c - p)%nat -> nth i s 0 = nth (p + i) E 0) by (intros i Hi; apply slice_nth, Hi).
  destruct s as [|x t] eqn:Es; [simpl in L; lia|]. apply Rle_antisym.
  - destruct (peak0_in c E ltac:(lia) HE) as (k & Hk & <-). destruct (Nat.lt_ge_cases k p) as [Q|Q].
    + eapply Rle_trans; [apply (peak0_ge p), Q|apply Rmax_l].
    + eapply Rle_trans; [|apply Rmax_r]. replace k with (p + (k - p))%nat by lia. rewrite <- Sn by lia.
      destruct (k - p)%nat as [|i] eqn:Ei; cbn [nth]; [apply lmax1_ge_init|]. apply lmax1_ge, nth_In. cbn [length] in L. lia.
  - apply Rmax_lub.
    + clear L Sn Es. induction c as [|c IH]; [lia|]. cbn [peak0]. destruct (Nat.eq_dec p c) as [->|]; [apply Rmax_l|]. eapply Rle_trans; [apply IH; lia|apply Rmax_l].
    + destruct (In_nth _ _ 0 (lmax1_in x t)) as (i & Hi & <-). rewrite L in Hi. rewrite Sn by exact Hi. apply peak0_ge. lia.
Qed.
Lemma band_split p c E : (p <= c)%nat -> band_total c E = band_total p E + lsum (slice p c E).
Proof.
  intros H. unfold band_total. rewrite (lsum_slice p c E c) by lia. replace c with (p + (c - p))%nat at 1 by lia. rewrite rsum_app. f_equal.
  replace c with (p + (c - p))%nat at 2 by lia. rewrite rsum_app, (rsum_zero p).
  - rewrite Rplus_0_l. apply rsum_ext. intros i Hi. destruct (Nat.leb_spec p (p + i)), (Nat.ltb_spec (p + i) c); simpl; try reflexivity; lia.
  - intros i Hi. destruct (Nat.leb_spec p i); [lia|reflexivity].
Qed.
Definition direct (sig : R) (E : list R) (c : nat) : xr * xr * xr :=
  (db_quot sig (band_total c E), db_quot sig (peak0 c E), enob_of (db_quot sig (band_total c E))).

Lemma loop_spec E n sig osr : (forall k, 0 <= nth k E 0) -> length E = (n / 2 + 1)%nat -> (0 < n)%nat ->
  forall idx prev out, (forall i, In i idx -> 0 < nth i osr 0) -> (forall i, In i idx -> (i < length out)%nat) ->
  StronglySorted (fun i j => nth j osr 0 <= nth i osr 0) idx ->
  (forall i c, In i idx -> inband_count (Z.of_nat n) (nth i osr 0) = Ok c -> (prev <= Z.to_nat c)%nat) ->
  exists res, sweep_loop E n sig osr idx prev (band_total prev E) (peak0 prev E) out = Ok res /\ length res = length out /\
   forall j, (j < length out)%nat ->
     (In j idx -> forall c, inband_count (Z.of_nat n) (nth j osr 0) = Ok c -> nth j res (NaN, NaN, NaN) = direct sig E (Z.to_nat c)) /\
     (~ In j idx -> nth j res (NaN, NaN, NaN) = nth j out (NaN, NaN, NaN)).
Proof.
  intros HE HL HN idx. induction idx as [|i idx IH]; intros prev out Pos Lt So Pr.
  - exists out. split; [reflexivity|]. split; [reflexivity|]. intros j Hj. split; [intros []|reflexivity].
  - cbn [sweep_loop]. destruct (inband_count (Z.of_nat n) (nth i osr 0)) as [c|e] eqn:EI.
    2:{ exfalso. rewrite inband_eq in EI by (try lia; apply Pos; left; reflexivity). discriminate. }
    cbn [bind]. pose proof (c23_range _ _ _ EI) as RC. pose proof (Pr i c (or_introl eq_refl) EI) as Pc.
    assert (Hd : Z.of_nat (n / 2) = (Z.of_nat n / 2)%Z) by (rewrite Nat2Z.inj_div; reflexivity).
    assert (Upd : (if (prev <? Z.to_nat c)%nat then (band_total prev E + lsum (slice prev (Z.to_nat c) E),
         Rmax (peak0 prev E) match slice prev (Z.to_nat c) E with [] => 0 | x :: t => lmax1 x t end) else (band_total prev E, peak0 prev E))
       = (band_total (Z.to_nat c) E, peak0 (Z.to_nat c) E)).
    { destruct (Nat.ltb_spec prev (Z.to_nat c)).
      - rewrite <- band_split by lia. rewrite <- peak0_split by (try exact HE; lia). reflexivity.
      - replace prev with (Z.to_nat c) by lia. reflexivity. }
    rewrite Upd. inversion So as [|? ? So' F]; subst.
    destruct (IH (Z.to_nat c) (set_nth i (direct sig E (Z.to_nat c)) out)) as (res & Er & Lr & Hr).
    + intros j Hj. apply Pos. right. exact Hj.
    + intros j Hj. rewrite set_nth_length. apply Lt. right. exact Hj.
    + exact So'.
    + intros j c' Hj Ec'. rewrite Forall_forall in F. pose proof (c23_antitone _ _ _ _ _ (F j Hj) Ec' EI). lia.
    + exists res. split; [exact Er|]. rewrite set_nth_length in Lr, Hr. split; [exact Lr|]. intros j Hj. destruct (Hr j Hj) as [R1 R2]. split.
      * intros Ij c' Ec'. destruct (in_dec Nat.eq_dec j idx) as [I|I]; [apply R1; assumption|].
        destruct Ij as [->|Ij]; [|contradiction]. rewrite R2 by exact I. rewrite set_nth_nth by exact Hj. rewrite Nat.eqb_refl.
        rewrite EI in Ec'. apply Ok_inj in Ec'. rewrite Ec'. reflexivity.
      * intros NI. rewrite R2 by (intros I; apply NI; right; exact I). rewrite set_nth_nth by exact Hj.
        destruct (Nat.eqb_spec j i) as [->|]; [exfalso; apply NI; left; reflexivity|reflexivity].
Qed.
Lemma SSorted_rev {A} (R : A -> A -> Prop) l : StronglySorted R l -> StronglySorted (fun x y => R y x) (rev l).
Proof.
  induction 1 as [|x l S IH F]; [constructor|]. cbn [rev]. clear S.
  assert (G : forall y, In y (rev l) -> R x y) by (intros y Hy; apply in_rev in Hy; rewrite Forall_forall in F; apply F, Hy). clear F.
  induction IH as [|y m S IHm F]; cbn [app]; [constructor; constructor|]. constructor.
  - apply IHm. intros z Hz. apply G. right. exact Hz.
  - apply Forall_app. split; [exact F|]. constructor; [apply G; left; reflexivity|constructor].
Qed.
(** Entry j of the sweep is what a separate computation at osr[j] gives: the ratio of signal
    power to the total, and to the largest bin, of the error spectrum's first c bins, where c is
    the in-band bin count at osr[j]; in particular it depends neither on the other OSR values
    nor on their order. *)
Lemma c30_sweep_is_direct err amplitude osr order :
  (0 < length err)%nat -> (forall x, In x osr -> 0 < x) -> sorts osr order ->
  exists res, osr_sweep err amplitude osr order = Ok res /\ length res = length osr /\
    forall j, (j < length osr)%nat -> exists c m,
      inband_count (Z.of_nat (length err)) (nth j osr 0) = Ok (Z.of_nat c) /\
      band_peak c (err_spec err) m /\
      nth j res (NaN, NaN, NaN) =
        (let s := db_quot (amplitude ^ 2 / 2) (band_total c (err_spec err)) in
         (s, db_quot (amplitude ^ 2 / 2) m, enob_of s)).
Proof.
  intros HN Pos [Pm So]. set (n := length err) in *. set (E := err_spec err). set (sig := amplitude ^ 2 / 2).
  assert (I0 : forall i, In i (rev order) -> (i < length osr)%nat).
  { intros i Hi. apply in_rev in Hi. apply (Permutation_in _ Pm) in Hi. apply in_seq in Hi. lia. }
  destruct (loop_spec E n sig osr (err_spec_nonneg err) (err_spec_length err) HN (rev order) 0 (repeat (Fin 0, Fin 0, Fin 0) (length osr))) as (res & Er & Lr & Hr).
  - intros i Hi. apply Pos, nth_In, I0, Hi.
  - intros i Hi. rewrite repeat_length. apply I0, Hi.
  - apply (SSorted_rev (fun i j => nth i osr 0 <= nth j osr 0)), So.
  - intros; lia.
  - rewrite repeat_length in Lr, Hr. exists res. split; [exact Er|]. split; [exact Lr|]. intros j Hj. destruct (Hr j Hj) as [R1 _].
    destruct (inband_count (Z.of_nat n) (nth j osr 0)) as [c|e] eqn:EI.
    2:{ exfalso. rewrite inband_eq in EI by (try lia; apply Pos, nth_In, Hj). discriminate. }
    pose proof (c23_range _ _ _ EI) as RC. exists (Z.to_nat c), (peak0 (Z.to_nat c) E). rewrite Z2Nat.id by lia. split; [reflexivity|]. split.
    + split; [apply peak0_in; [lia|apply err_spec_nonneg]|]. intros k Hk. apply peak0_ge, Hk.
    + apply R1; [|reflexivity]. apply -> in_rev. apply (Permutation_in _ (Permutation_sym Pm)). apply in_seq. lia.
Qed.
Lemma db_quot_antitone sig a b : 0 < sig -> 0 < a <= b -> xle (db_quot sig b) (db_quot sig a).
Proof.
  intros Hs Hab. unfold db_quot. destruct (Reqb_spec b 0); [lra|]. destruct (Reqb_spec a 0); [lra|].
  rewrite !db_pos by (apply Rdiv_lt_0_compat; lra). cbn [xle]. rewrite !lg_div by lra.
  assert (lg a <= lg b) by (destruct (proj2 Hab) as [L| ->]; [apply Rlt_le, lg_lt; lra|lra]). lra.
Qed.
(** A higher OSR never lowers the SNDR (as long as some error power is in band). *)
Lemma c30_monotone E sig osr1 osr2 n c1 c2 : 0 < sig -> (forall k, 0 <= nth k E 0) -> osr1 <= osr2 ->
  inband_count n osr1 = Ok c1 -> inband_count n osr2 = Ok c2 -> 0 < band_total (Z.to_nat c2) E ->
  xle (db_quot sig (band_total (Z.to_nat c1) E)) (db_quot sig (band_total (Z.to_nat c2) E)).
Proof.
  intros Hs HE Ho E1 E2 P2. pose proof (c23_antitone _ _ _ _ _ Ho E1 E2). apply db_quot_antitone; [exact Hs|]. split; [exact P2|].
  rewrite (band_split (Z.to_nat c2) (Z.to_nat c1)) by lia. assert (0 <= lsum (slice (Z.to_nat c2) (Z.to_nat c1) E)); [|lra].
  rewrite (lsum_slice _ _ _ (Z.to_nat c1)) by lia. apply rsum_nonneg. intros i Hi. specialize (HE i). destruct (_ && _)%bool; lra.
Qed.
(** The default OSR list has one entry per non-DC bin m = n/2, ..., 1, and entry for m keeps
    exactly the bins 0..m. *)
Lemma c30_default_osr n : (2 <= n)%nat -> exists l, default_osr n = Ok l /\ length l = (n / 2)%nat /\
  forall m, (1 <= m <= n / 2)%nat -> inband_count (Z.of_nat n) (nth (n / 2 - m) l 0) = Ok (Z.of_nat (m + 1)).
Proof.
  intros Hn. unfold default_osr. rewrite c23_full_band by (lia || lra). cbn [bind].
  assert (Hd : Z.of_nat (n / 2) = (Z.of_nat n / 2)%Z) by (rewrite Nat2Z.inj_div; reflexivity). rewrite <- Hd.
  replace (Z.to_nat (Z.of_nat (n / 2) + 1 - 1)) with (n / 2)%nat by lia.
  eexists. split; [reflexivity|]. split; [rewrite map_length, seq_length; reflexivity|]. intros m Hm.
  rewrite map_seq_nth by lia. replace (n / 2 - (n / 2 - m))%nat with m by lia.
  assert (0 < INR m) by (apply lt_0_INR; lia). assert (0 < INR n) by (apply lt_0_INR; lia).
  rewrite inband_eq by (try lia; apply Rdiv_lt_0_compat; lra). rewrite <- INR_IZR_INZ. replace (INR n / (2 * (INR n / 2 / INR m))) with (IZR (Z.of_nat m)) by (rewrite <- INR_IZR_INZ; field; lra).
  unfold snapped. rewrite round_he_IZR. destruct (isclose12 _ _); rewrite Zfloor_IZR; rewrite <- Hd; f_equal; lia.
Qed.
(** The same for the SFDR. *)
Lemma c30_sfdr_monotone E sig osr1 osr2 n c1 c2 m1 m2 : 0 < sig -> osr1 <= osr2 ->
  inband_count n osr1 = Ok c1 -> inband_count n osr2 = Ok c2 ->
  band_peak (Z.to_nat c1) E m1 -> band_peak (Z.to_nat c2) E m2 -> 0 < m2 -> xle (db_quot sig m1) (db_quot sig m2).
Proof.
  intros Hs Ho E1 E2 [_ P1] [(k & Hk & Ek) _] Hm. pose proof (c23_antitone _ _ _ _ _ Ho E1 E2). apply db_quot_antitone; [exact Hs|].
  split; [exact Hm|]. rewrite <- Ek. apply P1. lia.
Qed.
Lemma band_peak_unique c E m m' : band_peak c E m -> band_peak c E m' -> m = m'.
Proof. intros [(k & Hk & <-) A] [(j & Hj & <-) B]. apply Rle_antisym; [apply B, Hk|apply A, Hj]. Qed.
(** Reordering the OSR list reorders the results in the same way. *)
Lemma c30_reorder err amplitude osr order osr' order' res res' j j' :
  (0 < length err)%nat -> (forall x, In x osr -> 0 < x) -> (forall x, In x osr' -> 0 < x) -> sorts osr order -> sorts osr' order' ->
  osr_sweep err amplitude osr order = Ok res -> osr_sweep err amplitude osr' order' = Ok res' ->
  (j < length osr)%nat -> (j' < length osr')%nat -> nth j osr 0 = nth j' osr' 0 ->
  nth j res (NaN, NaN, NaN) = nth j' res' (NaN, NaN, NaN).
Proof.
  intros HN P P' S S' E E' Hj Hj' Eq.
  destruct (c30_sweep_is_direct err amplitude osr order HN P S) as (r & Er & _ & A). rewrite E in Er. apply Ok_inj in Er. subst r.
  destruct (c30_sweep_is_direct err amplitude osr' order' HN P' S') as (r & Er & _ & B). rewrite E' in Er. apply Ok_inj in Er. subst r.
  destruct (A j Hj) as (c & m & C1 & M1 & ->). destruct (B j' Hj') as (c' & m' & C2 & M2 & ->). rewrite Eq, C2 in C1. apply Ok_inj in C1.
  apply Nat2Z.inj in C1. subst c'. rewrite (band_peak_unique _ _ _ _ M1 M2). reflexivity.
Qed.

(** ** The scale of the error spectrum *)
Lemma hann_cosw N n : hann_at N n = cosw [0.5; 0.5] N n.
Proof.
  unfold hann_at, cosw. cbn [length rsum nth INR]. rewrite Rmult_0_l, cos_0, Rmult_1_l, (cos_minus (2 * PI * INR n / INR N)), cos_PI, sin_PI. lra.
Qed.
Lemma hann_lobe : lobe_power [0.5; 0.5] = 3 / 8.
Proof. unfold lobe_power, lobe. cbn [length Nat.sub rsum nth Nat.eqb]. lra. Qed.
Lemma hann_ms_eq N : (3 <= N)%nat -> hann_ms N = 3 / 8.
Proof.
  intros HN. unfold hann_ms, lmean. rewrite map_length, seq_length, lsum_rsum, map_length, seq_length.
  rewrite (rsum_ext N _ (fun n => cosw [0.5; 0.5] N n ^ 2)) by (intros i Hi; rewrite map_seq_nth by exact Hi; rewrite hann_cosw; reflexivity).
  rewrite cosw_square by (discriminate || (cbn [length]; lia)). rewrite hann_lobe. field. apply not_0_INR. lia.
Qed.
Lemma err_windowed_length err : length (err_windowed err) = length err.
Proof. unfold err_windowed. rewrite map_length, seq_length. reflexivity. Qed.
Lemma err_windowed_nth err n : (n < length err)%nat -> nth n (err_windowed err) 0 = nth n err 0 * hann_at (length err) n / sqrt (hann_ms (length err)).
Proof. intros H. unfold err_windowed. rewrite map_seq_nth by exact H. reflexivity. Qed.
Definition tone_err (N : nat) (B : R) (J : nat) (ph : R) : list R := map (fun n => B * cos (2 * PI * INR J * INR n / INR N + ph)) (seq 0 N).
Lemma tone_err_spec N B J ph k : (1 < J)%nat -> (2 * (J + 1) < N)%nat -> (k <= N / 2)%nat ->
  nth k (err_spec (tone_err N B J ph)) 0 = B ^ 2 * lobe [0.5; 0.5] (bin_dist k J) ^ 2 / (3 / 8).
Proof.
  intros H1 H2 Hk. assert (L : length (tone_err N B J ph) = N) by (unfold tone_err; rewrite map_length, seq_length; reflexivity).
  unfold err_spec. rewrite L, map_seq_nth by lia. unfold rfft. rewrite err_windowed_length, L.
  rewrite (rdft_ext N _ (fun n => B / sqrt (3 / 8) * cos (2 * PI * INR J * INR n / INR N + ph) * cosw [0.5; 0.5] N n)).
  2:{ intros n Hn. rewrite err_windowed_nth by (rewrite L; exact Hn). rewrite L, hann_ms_eq, hann_cosw by lia. unfold tone_err. rewrite map_seq_nth by exact Hn. unfold Rdiv. ring. }
  destruct (wtone_rdft [0.5; 0.5] N J (B / sqrt (3 / 8)) ph k) as (th & ->); try discriminate; try (cbn [length]; lia).
  rewrite Cmod_scale, Cmod_cis, Rmult_1_r, pow2_abs.
  assert (P : 0 < INR N) by (apply lt_0_INR; lia). assert (Q : sqrt (3 / 8) ^ 2 = 3 / 8) by (apply pow2_sqrt; lra).
  assert (sqrt (3 / 8) <> 0) by (intros Z; rewrite Z in Q; lra). set (l := lobe _ _). set (s := sqrt (3 / 8)) in *.
  replace (3 / 8) with (s ^ 2). unfold Rdiv. field. repeat split; first [assumption|lra|idtac].
Qed.
(** An error that is one coherent tone of amplitude B anywhere strictly inside the band
    contributes B^2, twice its power B^2/2, to the noise total. *)
Lemma c63_tone_counted_twice N B J ph c : (1 < J)%nat -> (2 * (J + 1) < N)%nat -> (J + 1 < c <= N / 2 + 1)%nat ->
  band_total c (err_spec (tone_err N B J ph)) = B ^ 2.
Proof.
  intros H1 H2 Hc. unfold band_total. rewrite (rsum_ext c _ (fun k => B ^ 2 / (3 / 8) * lobe [0.5; 0.5] (bin_dist k J) ^ 2)).
  - rewrite rsum_scale, lobe_total by (discriminate || (cbn [length]; lia)). rewrite hann_lobe. field.
  - intros k Hk. rewrite tone_err_spec by lia. unfold Rdiv. ring.
Qed.
(** For every error record the full-band noise total lies between twice and four times the
    Hann-weighted mean square of the error. *)
Lemma c63_total_bounds err : (3 <= length err)%nat ->
  let ms := lmean (map (fun n => (nth n err 0 * hann_at (length err) n) ^ 2) (seq 0 (length err))) / hann_ms (length err) in
  2 * ms <= band_total (length err / 2 + 1) (err_spec err) <= 4 * ms.
Proof.
  intros H3 ms. set (N := length err) in *. assert (PN : 0 < INR N) by (apply lt_0_INR; lia).
  set (g := fun k => Cmod (rfft (err_windowed err) k) ^ 2 / INR N ^ 2 * 4).
  assert (G : forall k, (k < N / 2 + 1)%nat -> nth k (err_spec err) 0 = g k) by (intros k Hk; unfold err_spec; rewrite map_seq_nth by exact Hk; reflexivity).
  assert (G0 : forall k, 0 <= g k).
  { intros k. unfold g. assert (0 < INR N ^ 2) by (apply pow_lt, PN). pose proof (pow2_ge_0 (Cmod (rfft (err_windowed err) k))). apply Rmult_le_pos; [apply Rdiv_le_0_compat; assumption|lra]. }
  assert (Sy : forall k, (0 < k < N)%nat -> g (N - k)%nat = g k).
  { intros k Hk. unfold g, rfft. rewrite err_windowed_length. fold N. rewrite rdft_hermitian by exact Hk. rewrite Cmod_conj. reflexivity. }
  assert (T : rsum N g = 4 * ms).
  { unfold g. rewrite (rsum_ext N _ (fun k => 4 / INR N ^ 2 * Cmod2 (rdft N (fun n => nth n (err_windowed err) 0) k))).
    2:{ intros k Hk. unfold rfft. rewrite err_windowed_length. fold N. rewrite <- Cmod_sqr. unfold Rdiv. ring. }
    rewrite rsum_scale. unfold rdft. rewrite dft_parseval by lia.
    rewrite (rsum_ext N _ (fun n => / hann_ms N * (nth n err 0 * hann_at N n) ^ 2)).
    - rewrite rsum_scale. unfold ms, lmean. rewrite map_length, seq_length, lsum_rsum, map_length, seq_length.
      rewrite (rsum_ext N (fun i => nth i (map _ (seq 0 N)) 0) (fun n => (nth n err 0 * hann_at N n) ^ 2)) by (intros i Hi; rewrite map_seq_nth by exact Hi; reflexivity).
      rewrite hann_ms_eq by lia. field. lra.
    - intros n Hn. rewrite err_windowed_nth by exact Hn. fold N. unfold Cmod2, RtoC. cbn [fst snd]. rewrite hann_ms_eq by lia.
      assert (Q : sqrt (3 / 8) ^ 2 = 3 / 8) by (apply pow2_sqrt; lra). assert (sqrt (3 / 8) <> 0) by (intros Z; rewrite Z in Q; lra).
      set (s := sqrt (3 / 8)) in *. replace (3 / 8) with (s ^ 2). field. assumption. }
  pose proof (onesided_sum N g ltac:(lia) Sy) as O. rewrite T in O. replace (4 * ms / 2) with (2 * ms) in O by lra.
  unfold band_total. rewrite (rsum_ext _ (fun k => nth k (err_spec err) 0) g) by (intros; apply G; assumption). split.
  - rewrite <- O. apply rsum_le. intros k Hk. cbv zeta. specialize (G0 k). destruct (_ =? 0)%nat, (_ && _)%bool; lra.
  - replace (4 * ms) with (2 * (2 * ms)) by lra. rewrite <- O.
    assert (HH : rsum (N / 2 + 1) g <= rsum N g).
    { assert (N / 2 + 1 <= N)%nat by (assert (N / 2 < N - 1 + 1)%nat by (apply Nat.div_lt_upper_bound; lia); lia).
      assert (X : rsum (N / 2 + 1 + (N - (N / 2 + 1))) g = rsum N g) by (f_equal; lia). rewrite rsum_app in X.
      assert (0 <= rsum (N - (N / 2 + 1)) (fun i => g (N / 2 + 1 + i)%nat)) by (apply rsum_nonneg; intros; apply G0). lra. }
    rewrite T in HH. rewrite O. lra.
Qed.
Lemma tone_ms N B J ph : (0 < J)%nat -> (2 * J < N)%nat -> lmean (map (fun v => v ^ 2) (tone_err N B J ph)) = B ^ 2 / 2.
Proof.
  intros H1 H2. assert (P : 0 < INR N) by (apply lt_0_INR; lia). unfold tone_err, lmean. rewrite !map_length, seq_length, map_map, lsum_rsum, map_length, seq_length.
  rewrite (rsum_ext N _ (fun n => B ^ 2 / 2 + B ^ 2 / 2 * cos (2 * PI * INR (2 * J) * INR n / INR N + 2 * ph))).
  - rewrite rsum_plus. rewrite rsum_const. assert (Z : rsum N (fun n => B ^ 2 / 2 * cos (2 * PI * INR (2 * J) * INR n / INR N + 2 * ph)) = 0); [|rewrite Z; field; lra].
    rewrite rsum_scale. assert (Z : rsum N (fun n => cos (2 * PI * INR (2 * J) * INR n / INR N + 2 * ph)) = 0); [|rewrite Z; ring].
    transitivity (Re (Cmult (cis (2 * ph)) (csum N (fun n => cis (2 * PI * IZR (Z.of_nat (2 * J)) * INR n / INR N))))).
    + rewrite <- csum_mult_l, csum_Re. apply rsum_ext. intros n Hn. rewrite <- cis_plus, <- INR_IZR_INZ. unfold Re, cis. cbn [fst]. f_equal. ring.
    + rewrite roots_sum by lia. destruct (Z.eqb_spec (Z.of_nat (2 * J) mod Z.of_nat N) 0) as [Q|Q].
      * exfalso. rewrite Z.mod_small in Q by lia. lia.
      * unfold Re, Cmult, C0. cbn [fst snd]. ring.
  - intros n Hn. rewrite map_seq_nth by exact Hn. rewrite mult_INR. change (INR 2) with (1 + 1).
    replace (2 * PI * ((1 + 1) * INR J) * INR n / INR N + 2 * ph) with (2 * (2 * PI * INR J * INR n / INR N + ph)) by (unfold Rdiv; ring).
    rewrite cos_2a_cos. field.
Qed.
(** So the reported SNDR is not the ratio of signal power to error power: for an error tone of
    half the signal's amplitude (true ratio 4, 6.02 dB) the sweep at OSR 1 reports 10*log10(2). *)
Lemma c63_power_ratio_refuted : exists err amplitude res,
  osr_sweep err amplitude [1] [0%nat] = Ok res /\
  fst (fst (nth 0 res (NaN, NaN, NaN))) = Fin (10 * lg 2) /\
  db_quot (amplitude ^ 2 / 2) (lmean (map (fun v => v ^ 2) err)) = Fin (10 * lg 4) /\ lg 4 = 2 * lg 2 /\ 0 < lg 2.
Proof.
  set (err := tone_err 7 1 2 0). assert (L : length err = 7%nat) by (unfold err, tone_err; rewrite map_length, seq_length; reflexivity).
  destruct (c30_sweep_is_direct err 2 [1] [0%nat]) as (res & Er & _ & A).
  - rewrite L. lia.
  - intros x [<-|[]]. lra.
  - split; [reflexivity|repeat constructor].
  - exists err, 2, res. split; [exact Er|]. destruct (A 0%nat ltac:(simpl; lia)) as (c & m & Ec & _ & ->).
    rewrite L in Ec. cbn [nth] in Ec. rewrite c23_full_band in Ec by (lia || lra). apply Ok_inj in Ec. assert (c = 4%nat) by (change (Z.of_nat 7 / 2 + 1)%Z with 4%Z in Ec; lia). subst c.
    assert (V : fst (fst (let s := db_quot (2 ^ 2 / 2) (band_total 4 (err_spec err)) in (s, db_quot (2 ^ 2 / 2) m, enob_of s))) = Fin (10 * lg 2)).
    { cbn [fst]. unfold err. rewrite c63_tone_counted_twice by (try lia; change (7 / 2)%nat with 3%nat; lia). unfold db_quot. destruct (Reqb_spec (1 ^ 2) 0); [lra|].
      rewrite db_pos by lra. do 3 f_equal. field. }
    split; [exact V|]. split.
    + unfold err. rewrite tone_ms by lia. unfold db_quot. destruct (Reqb_spec (1 ^ 2 / 2) 0); [lra|]. rewrite db_pos by lra. do 3 f_equal. field.
    + split; [replace 4 with (2 * 2) by lra; rewrite lg_mult by lra; lra|]. rewrite <- lg_1. apply lg_lt; lra.
Qed.
(** A three-point sweep given out of order: nothing in band, one skirt bin, the whole tone. *)
Lemma c30_sweep_ex : exists res, osr_sweep (tone_err 16 1 5 0) 1 [1; 4; 2] [0; 2; 1]%nat = Ok res /\
  map fst res = [(Fin (10 * lg (1 / 2)), Fin (10 * lg (3 / 4))); (PInf, PInf); (Fin (10 * lg 3), Fin (10 * lg 3))].
Proof.
  set (err := tone_err 16 1 5 0). assert (L : length err = 16%nat) by (unfold err, tone_err; rewrite map_length, seq_length; reflexivity).
  destruct (c30_sweep_is_direct err 1 [1; 4; 2] [0; 2; 1]%nat) as (res & Er & Lr & A).
  - rewrite L. lia.
  - intros x [<-|[<-|[<-|[]]]]; lra.
  - split; [cbn [length seq]; constructor; apply perm_swap|repeat constructor; cbn [nth]; lra].
  - exists res. split; [exact Er|].
    assert (V : forall k, (k <= 8)%nat -> nth k (err_spec err) 0 = lobe [0.5; 0.5] (bin_dist k 5) ^ 2 / (3 / 8)).
    { intros k Hk. unfold err. rewrite tone_err_spec by (try lia; change (16 / 2)%nat with 8%nat; lia). field. }
    assert (I : forall o (c c' : nat), 0 < o -> 16 / (2 * o) = INR c' -> (c' <= 8)%nat -> inband_count (Z.of_nat 16) o = Ok (Z.of_nat c) -> c = (c' + 1)%nat).
    { intros o c c' Ho Eo Hc H. rewrite inband_eq in H by (lia || lra). change (IZR (Z.of_nat 16)) with 16 in H. rewrite Eo, INR_IZR_INZ in H.
      unfold snapped in H. rewrite round_he_IZR in H. apply Ok_inj in H. change (Z.of_nat 16 / 2)%Z with 8%Z in H. destruct (isclose12 _ _); rewrite Zfloor_IZR in H; lia. }
    destruct (A 0%nat ltac:(simpl; lia)) as (c0 & m0 & I0 & P0 & R0). destruct (A 1%nat ltac:(simpl; lia)) as (c1 & m1 & I1 & P1 & R1).
    destruct (A 2%nat ltac:(simpl; lia)) as (c2 & m2 & I2 & P2 & R2). rewrite L in I0, I1, I2. cbn [nth] in I0, I1, I2.
    apply (I _ _ 8%nat) in I0; [|lra|cbn [INR]; lra|lia]. apply (I _ _ 2%nat) in I1; [|lra|cbn [INR]; lra|lia]. apply (I _ _ 4%nat) in I2; [|lra|cbn [INR]; lra|lia]. subst.
    assert (T : forall c, (c <= 9)%nat -> band_total c (err_spec err) = rsum c (fun k => lobe [0.5; 0.5] (bin_dist k 5) ^ 2 / (3 / 8))) by (intros c Hc; apply rsum_ext; intros; apply V; lia).
    rewrite T in R0, R1, R2 by lia.
    assert (M0 : m0 = 2 / 3). { apply (band_peak_unique _ _ _ _ P0). split; [exists 5%nat; split; [lia|rewrite V by lia; unfold lobe; cbn; lra]|]. intros k Hk. rewrite V by lia. do 9 (destruct k as [|k]; [unfold lobe; cbn; lra|]). lia. }
    assert (M1 : m1 = 0). { apply (band_peak_unique _ _ _ _ P1). split; [exists 1%nat; split; [lia|rewrite V by lia; unfold lobe; cbn; lra]|]. intros k Hk. rewrite V by lia. do 3 (destruct k as [|k]; [unfold lobe; cbn; lra|]). lia. }
    assert (M2 : m2 = 1 / 6). { apply (band_peak_unique _ _ _ _ P2). split; [exists 4%nat; split; [lia|rewrite V by lia; unfold lobe; cbn; lra]|]. intros k Hk. rewrite V by lia. do 5 (destruct k as [|k]; [unfold lobe; cbn; lra|]). lia. }
    assert (T0 : rsum (8 + 1) (fun k => lobe [0.5; 0.5] (bin_dist k 5) ^ 2 / (3 / 8)) = 1) by (unfold lobe; cbn; lra).
    assert (T1 : rsum (2 + 1) (fun k => lobe [0.5; 0.5] (bin_dist k 5) ^ 2 / (3 / 8)) = 0) by (unfold lobe; cbn; lra).
    assert (T2 : rsum (4 + 1) (fun k => lobe [0.5; 0.5] (bin_dist k 5) ^ 2 / (3 / 8)) = 1 / 6) by (unfold lobe; cbn; lra).
    rewrite T0, M0 in R0. rewrite T1, M1 in R1. rewrite T2, M2 in R2.
    assert (Q : forall a b c, 0 < a -> b <> 0 -> 0 < b -> a / b = c -> db_quot a b = Fin (10 * lg c)).
    { intros a b c Ha Hb Hb' <-. unfold db_quot. destruct (Reqb_spec b 0); [contradiction|]. apply db_pos, Rdiv_lt_0_compat; assumption. }
    destruct res as [|r0 [|r1 [|r2 [|]]]]; try discriminate Lr. cbn [nth] in R0, R1, R2. cbv zeta in R0, R1, R2. subst. cbn [map fst].
    rewrite (Q (1 ^ 2 / 2) 1 (1 / 2)), (Q (1 ^ 2 / 2) (2 / 3) (3 / 4)), (Q (1 ^ 2 / 2) (1 / 6) 3) by lra.
    unfold db_quot. destruct (Reqb_spec 0 0); [|lra]. destruct (Reqb_spec (1 ^ 2 / 2) 0); [lra|]. reflexivity.
Qed.
(** For eight samples the default sweep visits four OSR values; the first keeps bins 0..4, the last bins 0..1. *)
Lemma c30_default_osr_ex : exists l, default_osr 8 = Ok l /\ l = [8 / 2 / 4; 8 / 2 / 3; 8 / 2 / 2; 8 / 2 / 1].
Proof.
  unfold default_osr. rewrite c23_full_band by (lia || lra). cbn [bind]. eexists. split; [reflexivity|].
  change (Z.to_nat (Z.of_nat 8 / 2 + 1 - 1)) with 4%nat. cbn [seq map Nat.sub INR]. list_eq; lra.
Qed.
(** An error tone of amplitude 2 (power 2) is counted as 4. *)
Lemma c63_tone_ex : band_total 9 (err_spec (tone_err 16 2 5 1)) = 4.
Proof. rewrite c63_tone_counted_twice by (try lia; change (16 / 2)%nat with 8%nat; lia). lra. Qed.
