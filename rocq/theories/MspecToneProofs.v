(** * Proofs about the MATLAB spectrum analysis of coherent tones, its labels and its coherent averaging. *)
From Coq Require Import Lia Lra Psatz Permutation.
From Verif Require Import Base BaseLemmas Cplx FreqModel FreqSpec FreqProofs UnitsModel UnitsSpec UnitsProofs TiModel TiSpec TiProofs TiToneProofs SpecModel SpecSpec SpecLemmas SpecProofs SpecMetricProofs SpecPrepProofs SpecToneSpec SpecToneProofs CohModel CohSpec CohLemmas MatModel MatProofs MspecModel MspecSpec MspecProofs.
Local Open Scope R_scope.

(** ** C183: coherent tones *)
Definition win_of (wt : m_win) : win := match wt with MHann => Hann | _ => Boxcar end.
Definition built_in (wt : m_win) : Prop := wt = MHann \/ wt = MRect.
Lemma built_in_window wt N : built_in wt -> (1 <= N)%nat -> m_window wt N = cos_window (win_coefs (win_of wt)) N.
Proof.
  intros [->| ->] H.
  - apply hann_same, H.
  - change (m_window MRect N) with (create_window (fun _ => []) (fun _ => []) Boxcar N). apply cosine_window; discriminate.
Qed.
Lemma cosine_sum a N : a <> [] -> (2 <= N)%nat -> (2 * (length a - 1) < N)%nat -> lsum (cos_window a N) = INR N * nth 0 a 0.
Proof. intros Ha H2 HN. rewrite lsum_rsum, cos_window_length, <- cosw_sum by exact HN. apply rsum_ext. intros n Hn. apply cos_window_nth; assumption. Qed.

Lemma tones_spectrum N H c A ph J sb fsc wt nb : built_in wt -> fsc <> 0 -> (0 < H)%nat -> A O <> 0 ->
  let a := win_coefs (win_of wt) in let K := (length a - 1)%nat in (K <= sb)%nat -> resolvable N H K sb J ->
  m_spectrum false fsc (m_window wt N) N nb [map (multitone N H c A ph J) (seq 0 N)] = Some (tone_spectrum a N H (fun i => A i / (fsc / 2)) ph J).
Proof.
  intros W Hf HH A0 a K HK HR. pose proof (proj1 HR O HH) as [Q1 Q2].
  assert (N3 : (3 <= N)%nat) by lia. rewrite (built_in_window wt N W) by lia. fold a.
  assert (WP : peaked a) by apply window_peaked. pose proof (a_ne a WP) as Ha. pose proof (a0_ne a WP) as Ha0. set (B := fun i => A i / (fsc / 2)).
  assert (B0 : B O <> 0) by (unfold B, Rdiv; apply Rmult_integral_contrapositive; split; [exact A0|apply Rinv_neq_0_compat; lra]).
  pose proof (INR_pos N ltac:(lia)) as PN.
  assert (S0 : lsum (cos_window a N) <> 0) by (rewrite cosine_sum by (try exact Ha; lia); apply Rmult_integral_contrapositive; split; [lra|exact Ha0]).
  set (d := [map (multitone N H c A ph J) (seq 0 N)]).
  assert (PR : Ok (centred fsc d) = Ok [map (multitone N H 0 B ph J) (seq 0 N)]).
  { rewrite <- (c180_prepared d fsc); [|unfold orient; cbn [length]; change (1 <? 1)%nat with false; rewrite andb_false_r; reflexivity|exact Hf]. apply prepare_tones; [lia| |lra]. intros i Hi. pose proof (proj1 HR i Hi). lia. }
  apply Ok_inj in PR. pose proof (P_peak a N H B ph J sb HK HR WP HH O HH) as PK. set (P := tone_spectrum a N H B ph J) in *.
  assert (PP : 0 < nth (J O) P 0).
  { rewrite PK. pose proof (lobe_power_pos a Ha0). pose proof (lobe_sq a WP 1 ltac:(lia)). pose proof (pow2_ge_0 (lobe a 1)).
    apply Rmult_lt_0_compat; [apply sq_pos, B0|apply Rdiv_lt_0_compat; lra]. }
  assert (RO : runs_of N d).
  { split; [discriminate|]. intros r [<-|[]]. split; [rewrite map_length, seq_length; reflexivity|]. intros Z.
    assert (Y : nth (J O) P 0 = 0); [|lra]. assert (J O <= N / 2)%nat by (apply Nat.div_le_lower_bound; lia).
    unfold P, tone_spectrum. change (fun n => multitone N H 0 B ph J n) with (multitone N H 0 B ph J). rewrite <- PR.
    unfold corrected_power, power_average. rewrite map_map, nth_map_seq by lia. unfold power_bin. cbv zeta.
    unfold d, centred, windowed. cbn [map]. rewrite silent_centred by (apply m_silent_iff; exact Z). unfold lmean. cbn [lsum fold_right length map].
    rewrite Cmod_0. unfold lmean, lsum, Rdiv. cbn [fold_left fold_right length map]. destruct (J O =? 0)%nat, (_ && _); ring. }
  destruct (c180_spectrum fsc (cos_window a N) N nb d Hf ltac:(lia) ltac:(apply cos_window_length) S0 RO) as (Q & EQ & LQ & Q0 & QN).
  rewrite EQ. f_equal. rewrite PR in QN. apply (nth_ext_eq 0).
  - rewrite LQ. unfold P, tone_spectrum. rewrite corrected_length. reflexivity.
  - intros b Hb. rewrite LQ in Hb. destruct b as [|b].
    + rewrite Q0. symmetry. apply (P_off a N H B ph J sb HK HR WP HH); [lia|]. intros i Hi. pose proof (proj1 HR i Hi). unfold bin_dist. lia.
    + apply QN. lia.
Qed.

Section Tones.
Context (N H : nat) (c : R) (A ph : nat -> R) (J : nat -> nat) (K sb nb : nat) (fsc : R) (wt : m_win).
Context (HW : (wt = MHann /\ K = 1%nat) \/ (wt = MRect /\ K = 0%nat)) (Hf : fsc <> 0) (HD : one_dominant N H K sb nb A J) (Hnb : (nb <= N / 2 + 1)%nat).
Let a := win_coefs (win_of wt).
Let B i := A i / (fsc / 2).
Let P := tone_spectrum a N H B ph J.
Lemma tw_built_in : built_in wt.
Proof. destruct HW as [[-> _]|[-> _]]; [left|right]; reflexivity. Qed.
Lemma tw_K : (length a - 1)%nat = K.
Proof. unfold a. destruct HW as [[-> ->]|[-> ->]]; reflexivity. Qed.
Lemma tw_peaked : peaked a.
Proof. apply window_peaked. Qed.
Lemma tw_B0 : B O <> 0.
Proof. unfold B, Rdiv. apply Rmult_integral_contrapositive. split; [apply HD|apply Rinv_neq_0_compat; lra]. Qed.
Lemma tw_HK : (length a - 1 <= sb)%nat.
Proof. rewrite tw_K. apply HD. Qed.
Lemma tw_HR : resolvable N H (length a - 1) sb J.
Proof. rewrite tw_K. apply HD. Qed.
Lemma tw_HH : (0 < H)%nat.
Proof. apply HD. Qed.
Lemma tw_B i j : Rabs (A i) < Rabs (A j) -> Rabs (B i) < Rabs (B j).
Proof.
  intros L. unfold B, Rdiv. rewrite !Rabs_mult. apply Rmult_lt_compat_r; [apply Rabs_pos_lt, Rinv_neq_0_compat; lra|exact L].
Qed.
Lemma tw_B_le i j : Rabs (A i) <= Rabs (A j) -> Rabs (B i) <= Rabs (B j).
Proof.
  intros L. unfold B, Rdiv. rewrite !Rabs_mult. apply Rmult_le_compat_r; [apply Rabs_pos|exact L].
Qed.
Lemma tw_len : length P = (N / 2 + 1)%nat.
Proof. apply corrected_length. Qed.
Lemma tw_bin : argmax (firstn nb P) = J O.
Proof.
  destruct HD as (HH & Hsb & HR & F0 & A0 & Hin & HA). pose proof tw_K as TK. pose proof (proj1 HR O HH) as [Q1 Q2].
  apply argmax_unique; [rewrite firstn_length, tw_len; lia| |].
  - intros j Hj. rewrite firstn_length, tw_len in Hj. rewrite !SpecLemmas.nth_firstn_lt by lia. destruct (Nat.eq_dec j (J O)) as [->|Ne]; [lra|]. left.
    apply (P_weaker a N H B ph J sb tw_HK tw_HR tw_peaked tw_HH); [lia|exact Ne|exact tw_B0|]. intros i Hi D. apply tw_B, HA; [exact Hi|].
    destruct (Hin i ltac:(lia)) as [|X]; [assumption|]. rewrite TK in D. unfold bin_dist in D. lia.
  - intros j Hj. rewrite !SpecLemmas.nth_firstn_lt by lia.
    apply (P_weaker a N H B ph J sb tw_HK tw_HR tw_peaked tw_HH); [lia|lia|exact tw_B0|]. intros i Hi D. apply tw_B, HA; [exact Hi|].
    destruct (Hin i ltac:(lia)) as [|X]; [assumption|]. rewrite TK in D. unfold bin_dist in D. lia.
Qed.
Lemma tw_position : m_position P N (J O) = Some (INR (J O)).
Proof.
  destruct HD as (HH & Hsb & HR & F0 & A0 & Hin & HA). pose proof tw_K as TK. pose proof (proj1 HR O HH) as [Q1 Q2]. unfold m_position.
  set (e := nth (J O) P 0). destruct (Nat.le_gt_cases (J O + 1) (N / 2)) as [L|L].
  - rewrite Nat.min_l by exact L. assert (E : nth (J O - 1) P 0 = nth (J O + 1) P 0).
    { unfold P, tone_spectrum. rewrite !(tones_P a N H B ph J sb (a_ne a tw_peaked) tw_HK tw_HR (a0_ne a tw_peaked)) by (try exact HH; lia).
      apply rsum_ext. intros i Hi. destruct (Nat.eq_dec i 0) as [->|Hi0].
      - replace (bin_dist (J O - 1) (J O)) with 1%nat by (unfold bin_dist; lia). replace (bin_dist (J O + 1) (J O)) with 1%nat by (unfold bin_dist; lia). reflexivity.
      - pose proof (proj2 HR i O Hi HH Hi0) as D. pose proof (len_a a (a_ne a tw_peaked)) as La. rewrite !lobe_zero by (unfold bin_dist in *; lia). reflexivity. }
    rewrite E. destruct (_ && _ && _); [|reflexivity]. set (q := ln (nth (J O + 1) P 0) / ln 10).
    destruct (Reqb_spec (2 * (ln e / ln 10) - q - q) 0) as [Z|Z].
    + destruct (Reqb_spec (q - q) 0) as [_|Z2]; [reflexivity|lra].
    + f_equal. replace (q - q) with 0 by ring. unfold Rdiv. ring.
  - assert (K0 : K = 0%nat). { destruct K; [reflexivity|]. exfalso. assert (J O + 1 <= N / 2)%nat by (apply Nat.div_le_lower_bound; lia). lia. }
    assert (Z : nth (J O - 1) P 0 = 0).
    { apply (P_off a N H B ph J sb tw_HK tw_HR tw_peaked HH); [lia|]. intros i Hi. destruct (Nat.eq_dec i 0) as [->|Hi0]; [unfold bin_dist; lia|].
      pose proof (proj2 HR i O Hi HH Hi0). unfold bin_dist in *. lia. }
    rewrite Z. destruct (Rltb_spec 0 0) as [X|_]; [lra|]. rewrite andb_false_r. reflexivity.
Qed.
Lemma tw_runs fs osr harmonic nthd nf : nb = m_inband N osr -> exists r,
  m_plotspec [map (multitone N H c A ph J) (seq 0 N)] fs (Some fsc) false wt (Some sb) osr harmonic nthd nf None 0 = Ok (Some r) /\
  m_measure P (m_window wt N) N nb 1 fs osr (Some sb) harmonic nthd nf None 0 = Ok r.
Proof.
  intros E. unfold m_plotspec. assert (O : m_orient [map (multitone N H c A ph J) (seq 0 N)] = [map (multitone N H c A ph J) (seq 0 N)]).
  { unfold m_orient. cbn [length]. change (1 <? 1)%nat with false. rewrite andb_false_r. reflexivity. }
  rewrite O. unfold ncols. cbn [hd length]. rewrite map_length, seq_length, <- E. cbv zeta.
  rewrite (tones_spectrum N H c A ph J sb fsc wt nb tw_built_in Hf tw_HH (proj1 (proj2 (proj2 (proj2 (proj2 HD))))) tw_HK tw_HR). fold a. fold B. change (tone_spectrum a N H (fun i => A i / (fsc / 2)) ph J) with P.
  assert (X : exists r, m_measure P (m_window wt N) N nb 1 fs osr (Some sb) harmonic nthd nf None 0 = Ok r).
  { unfold m_measure. cbv zeta. rewrite no_cut, tw_bin, tw_position. unfold m_harmonics.
    destruct (_ <=? 1)%nat; cbn [bind]; (destruct (nthd <=? 1)%nat; cbn [bind]; eexists; reflexivity). }
  destruct X as [r X]. exists r. split; [|exact X]. fold P. rewrite X. reflexivity.
Qed.
Lemma tw_outside i : (i < nb)%nat -> (if unwanted_bin (J O) sb [] i then nth i P 0 else 0) = (if outside (J O) sb i then nth i P 0 else 0).
Proof.
  intros Hi. destruct HD as (HH & Hsb & HR & F0 & A0 & Hin & HA). destruct (Nat.eq_dec i sb) as [->|Ne].
  - assert (Z : nth sb P 0 = 0).
    { apply (P_off a N H B ph J sb tw_HK tw_HR tw_peaked HH); [lia|]. intros i Hi2. pose proof (proj1 HR i Hi2). pose proof tw_K. unfold bin_dist. lia. }
    rewrite Z. destruct (unwanted_bin _ _ _ _), (outside _ _ _); reflexivity.
  - rewrite unwanted_no_gone. unfold outside, near_dc. replace (sb <=? i)%nat with (negb (i <=? sb)%nat); [reflexivity|].
    destruct (Nat.leb_spec sb i), (Nat.leb_spec i sb); try reflexivity; lia.
Qed.
End Tones.

(** A capture of coherent tones is always analysed, tone 0 is found and placed exactly, its power is its squared amplitude relative
    to half the full-scale range, and noise plus distortion is exactly the power of the other tones in the band; without any the SNDR is
    infinite. *)
Lemma c183_tones N H c A ph J K sb fsc wt fs osr harmonic nthd nf : (wt = MHann /\ K = 1%nat) \/ (wt = MRect /\ K = 0%nat) -> fsc <> 0 -> 0 < osr -> (-1 <= harmonic)%Z ->
  let nb := m_inband N osr in one_dominant N H K sb nb A J -> exists r,
  m_plotspec [map (multitone N H c A ph J) (seq 0 N)] fs (Some fsc) false wt (Some sb) osr harmonic nthd nf None 0 = Ok (Some r) /\
  ms_bin r = J O /\ ms_frac r = Some (INR (J O)) /\ ms_sig r = (A O / (fsc / 2)) ^ 2 /\
  ms_noi r = tone_power H (fun i => A i / (fsc / 2)) (unwanted K nb J) /\
  (ms_noi r = 0 -> ms_sndr r = PInf) /\
  (0 < ms_noi r -> ms_sndr r = Fin (10 * lg (A O ^ 2 / tone_power H A (unwanted K nb J)))).
Proof.
  intros W Hf Ho Hh nb HD. assert (HN : (0 < N)%nat). { pose proof (proj1 (proj1 (proj2 (proj2 HD))) O (proj1 HD)). lia. }
  pose proof (m_inband_range N osr HN Ho) as Hnb. fold nb in Hnb.
  destruct (tw_runs N H c A ph J K sb nb fsc wt W Hf HD (proj2 Hnb) fs osr harmonic nthd nf eq_refl) as (r & E & M). exists r. split; [exact E|].
  pose proof (tw_bin N H A ph J K sb nb fsc wt W Hf HD (proj2 Hnb)) as TB. pose proof (tw_position N H A ph J K sb nb fsc wt W HD (proj2 Hnb)) as TP.
  pose proof (tw_len N H A ph J fsc wt) as TL. pose proof (fun i => tw_outside N H A ph J K sb nb fsc wt W HD (proj2 Hnb) i) as TO.
  set (a := win_coefs (win_of wt)) in *. set (B := fun i => A i / (fsc / 2)) in *. set (P := tone_spectrum a N H B ph J) in *.
  destruct (measure_fields _ _ _ _ _ _ _ _ _ _ _ _ _ _ Hnb TL M) as (gone & G & _ & _ & Ef & Efr & Es & Esig & _ & Enoi & _ & _ & _ & _ & _ & Esn & _).
  rewrite no_cut in *. apply no_harmonics in G; [|lia]. subst gone. rewrite TB in Ef. rewrite Ef, Es in *. rewrite TP in Efr.
  assert (TK : (length a - 1)%nat = K) by (destruct W as [[-> ->]|[-> ->]]; reflexivity). assert (HK : (length a - 1 <= sb)%nat) by (rewrite TK; apply HD). assert (HR : resolvable N H (length a - 1) sb J) by (rewrite TK; apply HD).
  assert (WP : peaked a) by apply window_peaked. destruct HD as (HH & Hsb & _ & F0 & A0 & Hin & HA).
  split; [reflexivity|]. split; [exact Efr|]. destruct HR as [R1 R2].
  assert (S1 : ms_sig r = (A O / (fsc / 2)) ^ 2).
  { rewrite Esig. unfold P, tone_spectrum.
    rewrite (lobes_power a N H B ph J sb (a_ne a WP) HK (conj R1 R2) (a0_ne a WP) nb (near (J O) sb) (fun i => (i =? 0)%nat) ltac:(lia) HH).
    - rewrite (rsum_single H O); [reflexivity|exact HH|]. intros i Hi Hne. destruct (Nat.eqb_spec i O); [contradiction|reflexivity].
    - intros i Hi X. apply Nat.eqb_eq in X. subst i. split; [lia|]. intros b D. unfold near, bin_dist in *. apply andb_true_iff. split; apply Nat.leb_le; lia.
    - intros i Hi X b Hb D. apply Nat.eqb_neq in X. pose proof (R2 i O Hi HH X). unfold near, bin_dist in *. apply andb_false_iff.
      destruct (Nat.le_gt_cases (J O) (b + sb)); [right; apply Nat.leb_gt; lia|left; apply Nat.leb_gt; lia]. }
  assert (S2 : ms_noi r = tone_power H B (unwanted K nb J)).
  { rewrite Enoi. unfold selected_power. rewrite (rsum_ext nb _ (fun i => if outside (J O) sb i then nth i P 0 else 0)) by (intros i Hi; apply TO, Hi).
    fold (selected_power nb (outside (J O) sb) P). unfold P, tone_spectrum, tone_power. rewrite <- TK.
    apply (lobes_power a N H B ph J sb (a_ne a WP) HK (conj R1 R2) (a0_ne a WP) nb (outside (J O) sb) (unwanted (length a - 1) nb J) ltac:(lia) HH).
    - intros i Hi X. apply andb_true_iff in X. destruct X as [E1 E2]. apply Nat.ltb_lt in E1, E2. split; [exact E2|]. intros b D.
      pose proof (R2 i O Hi HH ltac:(lia)). pose proof (R1 i Hi). unfold outside, near, near_dc, bin_dist in *.
      rewrite andb_true_iff, !negb_true_iff, andb_false_iff, !Nat.leb_gt. lia.
    - intros i Hi X b Hb D. unfold unwanted in X. apply andb_false_iff in X. rewrite !Nat.ltb_ge in X. unfold outside. apply andb_false_iff. right. apply negb_false_iff.
      destruct X as [X|X]; [assert (i = O) by lia; subst i|destruct (Hin i Hi); rewrite TK in *; unfold bin_dist in D; lia].
      unfold near, bin_dist in *. apply andb_true_iff. split; apply Nat.leb_le; lia. }
  split; [exact S1|]. split; [exact S2|].
  assert (F2 : fsc / 2 <> 0) by lra. pose proof (sq_pos _ F2) as F3. pose proof (sq_pos _ A0) as A2.
  assert (SP : 0 < ms_sig r). { rewrite S1. apply sq_pos. unfold Rdiv. apply Rmult_integral_contrapositive. split; [exact A0|apply Rinv_neq_0_compat; lra]. }
  split.
  - intros Z. rewrite Esn, Z. unfold m_db. destruct (Reqb_spec 0 0) as [_|X]; [|lra]. destruct (Reqb_spec (ms_sig r) 0); [lra|reflexivity].
  - intros Z. rewrite Esn. unfold m_db. destruct (Reqb_spec (ms_noi r) 0); [lra|]. rewrite db_pos by (apply Rdiv_lt_0_compat; assumption).
    assert (TQ : tone_power H B (unwanted K nb J) = tone_power H A (unwanted K nb J) / (fsc / 2) ^ 2).
    { unfold tone_power, Rdiv. rewrite Rmult_comm, <- rsum_scale. apply rsum_ext. intros i Hi. destruct (unwanted K nb J i); [unfold B; field; exact Hf|ring]. }
    rewrite S2, TQ in Z |- *. rewrite S1. do 3 f_equal. field.
    assert (tone_power H A (unwanted K nb J) <> 0); [intros X; rewrite X in Z; unfold Rdiv in Z; rewrite Rmult_0_l in Z; lra|]. split; assumption.
Qed.
(** The spur is the strongest other tone m in the band, without the Python code's floors. *)
Lemma c183_sfdr N H c A ph J K sb fsc wt fs osr harmonic nthd nf r m : (wt = MHann /\ K = 1%nat) \/ (wt = MRect /\ K = 0%nat) -> fsc <> 0 -> 0 < osr -> (-1 <= harmonic)%Z ->
  let nb := m_inband N osr in one_dominant N H K sb nb A J ->
  m_plotspec [map (multitone N H c A ph J) (seq 0 N)] fs (Some fsc) false wt (Some sb) osr harmonic nthd nf None 0 = Ok (Some r) ->
  (m < H)%nat -> unwanted K nb J m = true -> A m <> 0 ->
  (forall i, (i < H)%nat -> unwanted K nb J i = true -> Rabs (A i) <= Rabs (A m)) ->
  ms_spur r = (A m / (fsc / 2)) ^ 2 /\ ms_sfdr r = Fin (10 * lg (A O ^ 2 / A m ^ 2)) /\
  exists i, (i < H)%nat /\ ms_spur_bin r = J i /\ Rabs (A i) = Rabs (A m).
Proof.
  intros W Hf Ho Hh nb HD HC Hm Um Am Mx. assert (HN : (0 < N)%nat). { pose proof (proj1 (proj1 (proj2 (proj2 HD))) O (proj1 HD)). lia. }
  pose proof (m_inband_range N osr HN Ho) as Hnb. fold nb in Hnb.
  destruct (c183_tones N H c A ph J K sb fsc wt fs osr harmonic nthd nf W Hf Ho Hh HD) as (r2 & E2 & _ & _ & S1 & _). rewrite HC in E2. injection E2 as <-.
  destruct (tw_runs N H c A ph J K sb nb fsc wt W Hf HD (proj2 Hnb) fs osr harmonic nthd nf eq_refl) as (r2 & E & M). rewrite HC in E. injection E as <-.
  pose proof (tw_bin N H A ph J K sb nb fsc wt W Hf HD (proj2 Hnb)) as TB.
  pose proof (tw_len N H A ph J fsc wt) as TL. pose proof (fun i => tw_outside N H A ph J K sb nb fsc wt W HD (proj2 Hnb) i) as TO.
  pose proof (fun i j => tw_B_le A fsc i j) as BL.
  set (a := win_coefs (win_of wt)) in *. set (B := fun i => A i / (fsc / 2)) in *. set (P := tone_spectrum a N H B ph J) in *.
  destruct (measure_fields _ _ _ _ _ _ _ _ _ _ _ _ _ _ Hnb TL M) as (gone & G & _ & _ & Ef & _ & Es & _ & _ & _ & Esb & Esp & _ & _ & _ & _ & _ & Esf & _).
  rewrite no_cut in *. apply no_harmonics in G; [|lia]. subst gone. rewrite TB in Ef. rewrite Ef, Es in *.
  assert (TK : (length a - 1)%nat = K) by (destruct W as [[-> ->]|[-> ->]]; reflexivity). assert (HK : (length a - 1 <= sb)%nat) by (rewrite TK; apply HD). assert (HR : resolvable N H (length a - 1) sb J) by (rewrite TK; apply HD).
  assert (WP : peaked a) by apply window_peaked. destruct HD as (HH & Hsb & _ & F0 & A0 & Hin & HA). rewrite <- TK in Um, Mx, F0, Hin, HA. clear TK Hsb.
  assert (Ip : / (fsc / 2) <> 0) by (apply Rinv_neq_0_compat; lra).
  pose proof (lobe_power_pos a (a0_ne a WP)) as LP. pose proof (lobe_sq a WP 1 ltac:(lia)) as L1. pose proof (pow2_ge_0 (lobe a 1)) as L1n.
  assert (Bm2 : 0 < B m ^ 2) by (apply sq_pos; unfold B, Rdiv; apply Rmult_integral_contrapositive; split; [exact Am|exact Ip]).
  assert (PPm : nth (J m) P 0 = B m ^ 2 * (lobe a 0 ^ 2 / lobe_power a)) by (apply (P_peak a N H B ph J sb HK HR WP HH m Hm)).
  assert (PP0 : 0 < nth (J m) P 0) by (rewrite PPm; apply Rmult_lt_0_compat; [exact Bm2|apply Rdiv_lt_0_compat; lra]).
  pose proof Um as Um'. unfold unwanted in Um'. apply andb_true_iff in Um'. destruct Um' as [Um1 Um2]. apply Nat.ltb_lt in Um1, Um2.
  assert (Om : outside (J O) sb (J m) = true).
  { pose proof (proj2 HR m 0%nat Hm HH ltac:(lia)). destruct (proj1 HR m Hm). unfold outside, near, near_dc, bin_dist in *.
    rewrite andb_true_iff, !negb_true_iff, andb_false_iff, !Nat.leb_gt. lia. }
  set (s := ms_spur_bin r) in *.
  assert (Ge : (s < nb)%nat /\ nth (J m) P 0 <= (if outside (J O) sb s then nth s P 0 else 0)).
  { set (l := map (fun i => if unwanted_bin (J O) sb [] i then nth i P 0 else 0) (seq 0 nb)) in *.
    assert (Ll : length l = nb) by (unfold l; rewrite map_length, seq_length; reflexivity).
    destruct (argmax_spec l) as (X1 & X2 & _); [destruct l; [simpl in Ll; lia|discriminate]|]. rewrite <- Esb in X1, X2. rewrite Ll in X1. split; [exact X1|].
    specialize (X2 (J m) ltac:(lia)). unfold l in X2. rewrite !nth_map_seq in X2 by lia. rewrite !TO in X2 by lia. rewrite Om in X2. exact X2. }
  destruct Ge as [Ls Ge]. destruct (outside (J O) sb s) eqn:Os; [|lra].
  destruct (some_lobe H (length a - 1) J s) as [[i [Hi D]]|D].
  2:{ exfalso. unfold P in Ge. rewrite (P_off a N H B ph J sb HK HR WP HH s ltac:(lia) D) in Ge. fold P in Ge. lra. }
  assert (Hi0 : i <> O).
  { intros ->. unfold outside in Os. apply andb_true_iff in Os. destruct Os as [_ Os]. apply negb_true_iff in Os. unfold near in Os.
    apply andb_false_iff in Os. rewrite !Nat.leb_gt in Os. unfold bin_dist in D. lia. }
  assert (Ui : unwanted (length a - 1) nb J i = true).
  { unfold unwanted. apply andb_true_iff. split; apply Nat.ltb_lt; [lia|]. destruct (Hin i Hi); [assumption|]. unfold bin_dist in D. lia. }
  pose proof (Mx i Hi Ui) as Le.
  assert (LeB : Rabs (B i) <= Rabs (B m)) by (apply BL, Le).
  assert (LeB2 : B i ^ 2 <= B m ^ 2) by (rewrite <- (pow2_abs (B i)), <- (pow2_abs (B m)); pose proof (Rabs_pos (B i)); nra).
  rewrite PPm in Ge. unfold P in Ge. rewrite (P_in a N H B ph J sb HK HR WP HH i s Hi ltac:(lia) D) in Ge.
  assert (Ge2 : B m ^ 2 * lobe a 0 ^ 2 <= B i ^ 2 * lobe a (bin_dist s (J i)) ^ 2).
  { unfold Rdiv in Ge. rewrite <- !Rmult_assoc in Ge. apply Rmult_le_reg_r in Ge; [exact Ge|apply Rinv_0_lt_compat, LP]. }
  assert (D0 : bin_dist s (J i) = O).
  { destruct (Nat.eq_dec (bin_dist s (J i)) 0) as [|Dn]; [assumption|exfalso]. pose proof (lobe_sq a WP (bin_dist s (J i)) ltac:(lia)) as Lq.
    pose proof (pow2_ge_0 (B i)). pose proof (pow2_ge_0 (lobe a (bin_dist s (J i)))). nra. }
  rewrite D0 in Ge2. assert (Eq2 : B i ^ 2 = B m ^ 2) by (apply Rle_antisym; [exact LeB2|]; apply Rmult_le_reg_r in Ge2; lra).
  assert (Es' : s = J i) by (unfold bin_dist in D0; lia).
  assert (SP : ms_spur r = B m ^ 2).
  { rewrite Esp, Es', <- Eq2. unfold selected_power.
    rewrite (rsum_ext nb _ (fun b => if near (J i) sb b && outside (J O) sb b then nth b P 0 else 0)) by (intros b Hb; specialize (TO b Hb); destruct (near (J i) sb b); [exact TO|reflexivity]).
    fold (selected_power nb (fun b => near (J i) sb b && outside (J O) sb b) P). unfold P, tone_spectrum.
    rewrite (lobes_power a N H B ph J sb (a_ne a WP) HK HR (a0_ne a WP) nb (fun b => near (J i) sb b && outside (J O) sb b) (fun j => (j =? i)%nat) ltac:(lia) HH).
    - rewrite (rsum_single H i); [rewrite Nat.eqb_refl; reflexivity|exact Hi|]. intros j Hj Hne. destruct (Nat.eqb_spec j i); [contradiction|reflexivity].
    - intros j Hj E. apply Nat.eqb_eq in E. subst j. unfold unwanted in Ui. apply andb_true_iff in Ui. destruct Ui as [U1 U2]. apply Nat.ltb_lt in U1, U2. split; [exact U2|].
      intros b Db. pose proof (proj2 HR i 0%nat Hi HH ltac:(lia)). destruct (proj1 HR i Hi). unfold outside, near, near_dc, bin_dist in *.
      rewrite !andb_true_iff, !negb_true_iff, andb_false_iff, !Nat.leb_gt, !Nat.leb_le. lia.
    - intros j Hj E b Hb Db. apply Nat.eqb_neq in E. pose proof (proj2 HR j i Hj Hi E). apply andb_false_iff. left.
      unfold near, bin_dist in *. rewrite andb_false_iff, !Nat.leb_gt. lia. }
  split; [exact SP|]. split.
  - rewrite Esf, SP, S1. fold (B O). unfold m_db. destruct (Reqb_spec (B m ^ 2) 0); [lra|].
    assert (S0 : 0 < B O ^ 2) by (apply sq_pos; unfold B, Rdiv; apply Rmult_integral_contrapositive; split; [exact A0|exact Ip]).
    replace (A O ^ 2 / A m ^ 2) with (B O ^ 2 / B m ^ 2) by (unfold B; field; split; assumption). apply db_pos, Rdiv_lt_0_compat; assumption.
  - exists i. split; [exact Hi|]. split; [exact Es'|]. assert (Q : Rabs (B i) = Rabs (B m)).
    { rewrite <- (pow2_abs (B i)), <- (pow2_abs (B m)) in Eq2. pose proof (Rabs_pos (B i)). pose proof (Rabs_pos (B m)). nra. }
    unfold B, Rdiv in Q. rewrite !Rabs_mult in Q. apply Rmult_eq_reg_r in Q; [exact Q|]. pose proof (Rabs_pos_lt _ Ip). lra.
Qed.
(** The distortion power is exactly the power of the other in-band tones sitting on the bins of harmonics 2 .. nTHD, when no harmonic's
    window overlaps the lobe of a tone it does not sit on. *)
Lemma c183_thd N H c A ph J K sb fsc wt fs osr harmonic nthd nf r : (wt = MHann /\ K = 1%nat) \/ (wt = MRect /\ K = 0%nat) -> fsc <> 0 -> 0 < osr -> (-1 <= harmonic)%Z ->
  let nb := m_inband N osr in one_dominant N H K sb nb A J ->
  m_plotspec [map (multitone N H c A ph J) (seq 0 N)] fs (Some fsc) false wt (Some sb) osr harmonic nthd nf None 0 = Ok (Some r) ->
  ms_harmonics r = map Z.to_nat (harmonic_bins (INR (J O)) nthd N) /\
  ((forall h i, In h (ms_harmonics r) -> (i < H)%nat -> h = J i \/ (sb + K < bin_dist h (J i))%nat) ->
   ms_thd_power r = tone_power H (fun i => A i / (fsc / 2)) (fun i => unwanted K nb J i && existsb (Nat.eqb (J i)) (ms_harmonics r))).
Proof.
  intros W Hf Ho Hh nb HD HC. assert (HN : (0 < N)%nat). { pose proof (proj1 (proj1 (proj2 (proj2 HD))) O (proj1 HD)). lia. }
  pose proof (m_inband_range N osr HN Ho) as Hnb. fold nb in Hnb.
  destruct (tw_runs N H c A ph J K sb nb fsc wt W Hf HD (proj2 Hnb) fs osr harmonic nthd nf eq_refl) as (r2 & E & M). rewrite HC in E. injection E as <-.
  pose proof (tw_bin N H A ph J K sb nb fsc wt W Hf HD (proj2 Hnb)) as TB. pose proof (tw_position N H A ph J K sb nb fsc wt W HD (proj2 Hnb)) as TP.
  pose proof (tw_len N H A ph J fsc wt) as TL. pose proof (fun i => tw_outside N H A ph J K sb nb fsc wt W HD (proj2 Hnb) i) as TO.
  set (a := win_coefs (win_of wt)) in *. set (B := fun i => A i / (fsc / 2)) in *. set (P := tone_spectrum a N H B ph J) in *.
  destruct (measure_fields _ _ _ _ _ _ _ _ _ _ _ _ _ _ Hnb TL M) as (gone & G & _ & _ & Ef & Efr & Es & _ & _ & _ & _ & _ & Eh & Et & _).
  rewrite no_cut in *. apply no_harmonics in G; [|lia]. subst gone. rewrite TB in Ef. rewrite Ef, Es in *. rewrite TP in Efr. rewrite Efr in Eh.
  destruct (c182_harmonics (INR (J O)) nthd N HN) as [EH _]; [left; exists (J O); reflexivity|]. rewrite EH in Eh. apply Ok_inj in Eh. split; [symmetry; exact Eh|]. clear Eh EH. intros Hh2.
  assert (TK : (length a - 1)%nat = K) by (destruct W as [[-> ->]|[-> ->]]; reflexivity). assert (HK : (length a - 1 <= sb)%nat) by (rewrite TK; apply HD). assert (HR : resolvable N H (length a - 1) sb J) by (rewrite TK; apply HD).
  assert (WP : peaked a) by apply window_peaked. destruct HD as (HH & Hsb & _ & F0 & A0 & Hin & HA). rewrite <- TK in Hh2, F0, Hin, HA |- *. clear TK Hsb.
  rewrite Et. unfold selected_power. set (hs := ms_harmonics r) in *.
  rewrite (rsum_ext nb _ (fun b => if in_harmonic sb hs b && outside (J O) sb b then nth b P 0 else 0)) by (intros b Hb; specialize (TO b Hb); destruct (in_harmonic sb hs b); [exact TO|reflexivity]).
  fold (selected_power nb (fun b => in_harmonic sb hs b && outside (J O) sb b) P). unfold P, tone_spectrum, tone_power.
  destruct HR as [R1 R2].
  apply (lobes_power a N H B ph J sb (a_ne a WP) HK (conj R1 R2) (a0_ne a WP) nb (fun b => in_harmonic sb hs b && outside (J O) sb b) (fun i => unwanted (length a - 1) nb J i && existsb (Nat.eqb (J i)) hs) ltac:(lia) HH).
  - intros i Hi X. apply andb_true_iff in X. destruct X as [U X]. apply andb_true_iff in U. destruct U as [U1 U2]. apply Nat.ltb_lt in U1, U2. split; [exact U2|].
    apply existsb_exists in X. destruct X as (h & Ih & X). apply Nat.eqb_eq in X. subst h. intros b D. apply andb_true_iff. split.
    + unfold in_harmonic. apply existsb_exists. exists (J i). split; [exact Ih|]. unfold near, bin_dist in *. apply andb_true_iff. split; apply Nat.leb_le; lia.
    + pose proof (R2 i O Hi HH ltac:(lia)). pose proof (R1 i Hi). unfold outside, near, near_dc, bin_dist in *.
      rewrite andb_true_iff, !negb_true_iff, andb_false_iff, !Nat.leb_gt. lia.
  - intros i Hi X b Hb D. apply Bool.not_true_iff_false. intros T. apply andb_true_iff in T. destruct T as [T1 T2].
    unfold in_harmonic in T1. apply existsb_exists in T1. destruct T1 as (h & Ih & T1).
    assert (Eh : h = J i). { destruct (Hh2 h i Ih Hi) as [Q|Q]; [exact Q|]. unfold near, bin_dist in *. apply andb_true_iff in T1. rewrite !Nat.leb_le in T1. lia. }
    assert (X2 : existsb (Nat.eqb (J i)) hs = true) by (apply existsb_exists; exists h; split; [exact Ih|apply Nat.eqb_eq; symmetry; exact Eh]).
    rewrite X2, andb_true_r in X. unfold unwanted in X. apply andb_false_iff in X. rewrite !Nat.ltb_ge in X. destruct X as [X|X].
    + assert (i = O) by lia. subst i. unfold outside in T2. apply andb_true_iff in T2. destruct T2 as [_ T2]. apply negb_true_iff in T2.
      unfold near, bin_dist in *. apply andb_false_iff in T2. rewrite !Nat.leb_gt in T2. lia.
    + destruct (Hin i Hi); unfold bin_dist in D; lia.
Qed.
(** Three tones under the Hann window: the fundamental and its second and third harmonics. *)
Example c183_tones_ex : exists r,
  m_plotspec [map (multitone 64 3 7 (fun i => nth i [2; 0.02; 0.002] 0) (fun i => INR i) (fun i => nth i [5; 10; 15] 0)%nat) (seq 0 64)]
    1 (Some 4) false MHann (Some 1%nat) 1 5 2 0 None 0 = Ok (Some r) /\
  ms_bin r = 5%nat /\ ms_sig r = 1 /\ ms_noi r = 0.000101 /\ ms_sfdr r = Fin 40 /\ ms_harmonics r = [10%nat] /\ ms_thd_power r = 0.0001 /\
  ms_thd r = Fin (-40).
Proof.
  set (A := fun i => nth i [2; 0.02; 0.002] 0). set (ph := fun i => INR i). set (J := (fun i => nth i [5; 10; 15] 0)%nat).
  assert (In : m_inband 64 1 = 33%nat).
  { unfold m_inband. replace (INR 64 / 2 / 1) with (IZR 32) by (rewrite (INR_IZR_INZ 64); simpl; lra). rewrite Zfloor_IZR. reflexivity. }
  assert (D : one_dominant 64 3 1 1 (m_inband 64 1) A J).
  { rewrite In. unfold one_dominant. split; [lia|]. split; [lia|]. split.
    - split.
      + intros i Hi. cases_lt i; unfold J; cbn [nth]; lia.
      + intros i j Hi Hj Hne. cases_lt i; cases_lt j; unfold J, bin_dist; cbn [nth]; lia.
    - split; [unfold J; cbn [nth]; lia|]. split; [unfold A; cbn [nth]; lra|]. split.
      + intros i Hi. cases_lt i; unfold J; cbn [nth]; lia.
      + intros i [Hi1 Hi2] _. unfold A. cases_lt i; [lia| |]; cbn [nth]; rewrite !Rabs_pos_eq by lra; lra. }
  assert (W : (MHann = MHann /\ 1 = 1)%nat \/ (MHann = MRect /\ 1 = 0)%nat) by (left; split; reflexivity).
  destruct (c183_tones 64 3 7 A ph J 1 1 4 MHann 1 1 5 2 0 W ltac:(lra) ltac:(lra) ltac:(lia) D) as (r & E & E1 & E2 & E3 & E4 & _).
  exists r. split; [exact E|]. split; [exact E1|]. split; [rewrite E3; unfold A; cbn [nth]; lra|]. split.
  { rewrite E4, In. unfold tone_power. cbn [rsum].
    repeat match goal with |- context [unwanted ?a ?b ?c ?d] => let v := eval compute in (unwanted a b c d) in change (unwanted a b c d) with v end. unfold A. cbn [nth]. lra. }
  split.
  { destruct (c183_sfdr 64 3 7 A ph J 1 1 4 MHann 1 1 5 2 0 r 1 W ltac:(lra) ltac:(lra) ltac:(lia) D E) as (_ & S & _).
    + lia.
    + rewrite In. reflexivity.
    + unfold A; cbn [nth]; lra.
    + rewrite In. intros i Hi U. unfold A. cases_lt i; try discriminate U; cbn [nth]; rewrite !Rabs_pos_eq by lra; lra.
    + rewrite S. f_equal. unfold A. cbn [nth]. replace (2 ^ 2 / 0.02 ^ 2) with (10 * 10 * (10 * 10)) by lra. rewrite !lg_mult, lg_10 by lra. lra. }
  destruct (c183_thd 64 3 7 A ph J 1 1 4 MHann 1 1 5 2 0 r W ltac:(lra) ltac:(lra) ltac:(lia) D E) as (T1 & T2).
  assert (T3 : ms_harmonics r = [10%nat]).
  { rewrite T1. unfold harmonic_bins. cbn [map seq Nat.sub Nat.add]. unfold J. cbn [nth]. rewrite !INR_IZR_INZ. cbn [Z.of_nat Pos.of_succ_nat Pos.succ].
    rewrite <- mult_IZR. change (5 * 2)%Z with 10%Z. unfold fold_bin. replace (Zfloor (10 / IZR 64)) with 0%Z by (symmetry; apply floor_is; lra).
    change (64 / 2)%Z with 32%Z. destruct (Rltb_spec (IZR 32) (10 - IZR 64 * 0)) as [X|_]; [lra|]. replace (10 - IZR 64 * 0) with (IZR 10) by lra.
    replace (round_he (IZR 10)) with 10%Z by (symmetry; apply Znearest_imp; apply Rabs_def1; lra). reflexivity. }
  assert (T4 : ms_thd_power r = 0.0001).
  { rewrite T2.
    - rewrite T3, In. unfold tone_power. cbn [rsum].
      repeat match goal with |- context [unwanted ?a ?b ?c ?d] => let v := eval compute in (unwanted a b c d) in change (unwanted a b c d) with v end. unfold A, J. cbn [nth existsb Nat.eqb andb orb]. lra.
    - rewrite T3. intros h i [<-|[]] Hi. cases_lt i; unfold J, bin_dist; cbn [nth]; lia. }
  split; [exact T3|]. split; [exact T4|].
  pose proof (m_inband_range 64 1 ltac:(lia) ltac:(lra)) as Hnb.
  destruct (tw_runs 64 3 7 A ph J 1 1 _ 4 MHann W ltac:(lra) D (proj2 Hnb) 1 1 5 2 0 eq_refl) as (r2 & E5 & M). rewrite E in E5. injection E5 as <-.
  destruct (measure_fields _ _ _ _ _ _ _ _ _ _ _ _ _ _ Hnb ltac:(apply tw_len) M) as (gone & _ & _ & _ & _ & _ & _ & _ & _ & _ & _ & _ & _ & _ & _ & _ & _ & _ & _ & Eth & _).
  rewrite Eth, T4, E3. unfold A. cbn [nth]. unfold m_db. destruct (Reqb_spec ((2 / (4 / 2)) ^ 2) 0) as [X|_]; [lra|]. rewrite db_pos by lra.
  f_equal. replace (0.0001 / (2 / (4 / 2)) ^ 2) with (/ (10 * 10 * (10 * 10))) by lra. rewrite lg_inv, !lg_mult, lg_10 by lra. lra.
Qed.
