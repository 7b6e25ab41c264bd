(** * perfosr.m and ntfperf.m: the final lemmas are named c172_, c173_. *)
From Coq Require Import Psatz Permutation Sorted.
From Verif Require Import Base BaseLemmas Cplx FreqModel UnitsModel UnitsSpec UnitsProofs TiModel TiProofs TiToneProofs SpecModel SpecSpec SpecLemmas SpecProofs SpecToneSpec SpecToneProofs CalModel CalSpec CalExLemmas FitModel FitSpec FitProofs OsrModel OsrSpec OsrProofs OverModel OverSpec OverProofs MatModel MatSpec MatProofs MsinModel MsinProofs MerrModel MerrProofs MosrModel MosrSpec.
Local Open Scope R_scope.

(** ** C172: perfosr *)
Lemma m_spec_eq err : (2 <= length err)%nat -> m_err_spec err = err_spec err.
Proof.
  intros L. assert (H : forall n, m_hann (length err) n = hann_at (length err) n) by (intros n; unfold m_hann, hann_at; destruct (Nat.eqb_spec (length err) 1); [lia | reflexivity]).
  unfold m_err_spec, err_spec, err_windowed, hann_ms. rewrite (map_ext (fun n => m_hann (length err) n ^ 2) (fun n => hann_at (length err) n ^ 2)) by (intros n; rewrite H; reflexivity).
  rewrite (map_ext (fun n => nth n err 0 * m_hann (length err) n / _) (fun n => nth n err 0 * hann_at (length err) n / sqrt (lmean (map (fun n => hann_at (length err) n ^ 2) (seq 0 (length err)))))) by (intros n; rewrite H; reflexivity). reflexivity.
Qed.
Lemma bins_range N o : (1 <= m_band_bins N o <= N / 2 + 1)%nat.
Proof. unfold m_band_bins. lia. Qed.
(** Bin k is counted when it is the first, or when the whole of it, up to k+1, is below the band edge N/(2 osr). *)
Lemma c172_bins N o k : 0 < o -> (k < m_band_bins N o)%nat <-> k = 0%nat \/ (k <= N / 2)%nat /\ 2 * o * (INR k + 1) <= INR N.
Proof.
  intros O. unfold m_band_bins. pose proof (floor_split (INR N / 2 / o)) as [A B]. set (z := Zfloor (INR N / 2 / o)) in *.
  assert (E : (Z.of_nat k + 1 <= z)%Z <-> 2 * o * (INR k + 1) <= INR N).
  { rewrite INR_IZR_INZ, <- plus_IZR. split; intros H.
    - apply IZR_le in H. assert (Q : IZR (Z.of_nat k + 1) <= INR N / 2 / o) by lra. apply (Rmult_le_compat_l (2 * o)) in Q; [| lra]. replace (2 * o * (INR N / 2 / o)) with (INR N) in Q by (field; lra). exact Q.
    - assert (Q : IZR (Z.of_nat k + 1) <= INR N / 2 / o). { apply (Rmult_le_reg_l (2 * o)); [lra |]. replace (2 * o * (INR N / 2 / o)) with (INR N) by (field; lra). exact H. } assert (H0 : IZR (Z.of_nat k + 1) < IZR (z + 1)) by (rewrite (plus_IZR z); lra). apply lt_IZR in H0. lia. }
  rewrite <- E. lia.
Qed.
Lemma bins_antitone N o1 o2 : 0 < o1 <= o2 -> (m_band_bins N o2 <= m_band_bins N o1)%nat.
Proof.
  intros O. destruct (Nat.le_gt_cases (m_band_bins N o2) (m_band_bins N o1)) as [H | H]; [exact H | exfalso]. apply (c172_bins N o2 _ ltac:(lra)) in H as [H | [H1 H2]]; [pose proof (bins_range N o1); lia |].
  assert (Q : (m_band_bins N o1 < m_band_bins N o1)%nat); [| lia]. apply (c172_bins N o1); [lra |]. right. split; [exact H1 |]. pose proof (pos_INR (m_band_bins N o1)). nra.
Qed.
Lemma m_loop_spec E N sig osr : (forall k, 0 <= nth k E 0) -> length E = (N / 2 + 1)%nat ->
  forall idx prev out, (forall i, In i idx -> 0 < nth i osr 0) -> (forall i, In i idx -> (i < length out)%nat) ->
  StronglySorted (fun i j => nth j osr 0 <= nth i osr 0) idx -> (forall i, In i idx -> (prev <= m_band_bins N (nth i osr 0%R))%nat) ->
  let res := m_osr_loop E N sig osr idx prev (band_total prev E) (peak0 prev E) out in length res = length out /\
   forall j, (j < length out)%nat ->
     (In j idx -> nth j res (NaN, NaN, NaN) = direct sig E (m_band_bins N (nth j osr 0))) /\ (~ In j idx -> nth j res (NaN, NaN, NaN) = nth j out (NaN, NaN, NaN)).
Proof.
  intros HE HL idx. induction idx as [| i idx IH]; intros prev out Pos Lt So Pr; cbn [m_osr_loop].
  - split; [reflexivity |]. intros j Hj. split; [intros [] | reflexivity].
  - set (c := m_band_bins N (nth i osr 0)). pose proof (bins_range N (nth i osr 0)) as RC. fold c in RC. pose proof (Pr i (or_introl eq_refl)) as Pc. fold c in Pc.
    assert (Upd : (if (prev <? c)%nat then (band_total prev E + lsum (slice prev c E), Rmax (peak0 prev E) match slice prev c E with [] => 0 | x :: t => lmax1 x t end) else (band_total prev E, peak0 prev E)) = (band_total c E, peak0 c E)).
    { destruct (Nat.ltb_spec prev c).
      - rewrite <- band_split by lia. rewrite <- peak0_split by (try exact HE; lia). reflexivity.
      - replace prev with c by lia. reflexivity. }
    rewrite Upd. inversion So as [| ? ? So' F]; subst. specialize (IH c (set_nth i (direct sig E c) out)). cbn zeta in IH. destruct IH as [Lr Hr].
    + intros j Hj. apply Pos. right. exact Hj.
    + intros j Hj. rewrite set_nth_length. apply Lt. right. exact Hj.
    + exact So'.
    + intros j Hj. rewrite Forall_forall in F. apply bins_antitone. split; [apply Pos; right; exact Hj | apply F, Hj].
    + rewrite set_nth_length in Lr, Hr. split; [exact Lr |]. intros j Hj. destruct (Hr j Hj) as [R1 R2]. split.
      * intros Ij. destruct (in_dec Nat.eq_dec j idx) as [I | I]; [apply R1, I |]. destruct Ij as [-> | Ij]; [| contradiction]. unfold direct in *. rewrite R2 by exact I. rewrite set_nth_nth by exact Hj. rewrite Nat.eqb_refl. reflexivity.
      * intros NI. unfold direct in *. rewrite R2 by (intros I; apply NI; right; exact I). rewrite set_nth_nth by exact Hj. destruct (Nat.eqb_spec j i) as [-> |]; [exfalso; apply NI; left; reflexivity | reflexivity].
Qed.
(** [order] sorts [l] downwards. *)
Lemma sweep_direct err mag osr order j : (2 <= length err)%nat -> (forall x, In x osr -> 0 < x) -> sorts_down osr order -> (j < length osr)%nat ->
  let res := m_osr_loop (m_err_spec err) (length err) (mag ^ 2 / 2) osr order 0 0 0 (repeat (Fin 0, Fin 0, Fin 0) (length osr)) in
  length res = length osr /\ nth j res (NaN, NaN, NaN) = direct (mag ^ 2 / 2) (err_spec err) (m_band_bins (length err) (nth j osr 0)).
Proof.
  intros L P [Pm So] J. rewrite m_spec_eq by exact L. assert (I0 : forall i, In i order -> (i < length osr)%nat) by (intros i Hi; apply (Permutation_in _ Pm) in Hi; apply in_seq in Hi; lia).
  destruct (m_loop_spec (err_spec err) (length err) (mag ^ 2 / 2) osr (err_spec_nonneg err) (err_spec_length err) order 0 (repeat (Fin 0, Fin 0, Fin 0) (length osr))) as [LR H].
  - intros i Hi. apply P, nth_In, I0, Hi.
  - intros i Hi. rewrite repeat_length. apply I0, Hi.
  - exact So.
  - intros; lia.
  - rewrite repeat_length in LR, H. split; [exact LR |]. apply (proj1 (H j J)). apply (Permutation_in _ (Permutation_sym Pm)). apply in_seq. lia.
Qed.
(** What is refused: an OSR that is not positive, a number of harmonics that is not a positive integer, a smoothing below 1, fewer
    than two samples. *)
Lemma c172_refuses lin sortd sig osr harmonic smooth : let good := (forall x, In x osr -> 0 < x) /\ (exists m : nat, harmonic = INR m /\ (1 <= m)%nat) /\ match smooth with Some s => 1 <= s | None => True end /\ (2 <= length sig)%nat in
  (good -> exists r, m_perfosr lin sortd sig osr harmonic smooth = Ok r) /\ (~ good -> m_perfosr lin sortd sig osr harmonic smooth = Err RuntimeError).
Proof.
  intros good. unfold m_perfosr.
  assert (FIT : (2 <= length sig)%nat -> exists o, m_sinfit lin (map (fun x => [x]) sig) 0 (1 / 10 ^ 12) (1 / 2) false 100 = Ok o).
  { intros L. apply (proj1 (c168_refuses lin (map (fun x => [x]) sig) 0 (1 / 10 ^ 12) (1 / 2) false 100)). rewrite column_single. assert (0 < 1 / 10 ^ 12) by (apply Rdiv_lt_0_compat; [lra | apply pow_lt; lra]). repeat split; try lra; try lia. }
  assert (NOFIT : (length sig < 2)%nat -> m_sinfit lin (map (fun x => [x]) sig) 0 (1 / 10 ^ 12) (1 / 2) false 100 = Err RuntimeError).
  { intros L. apply (proj2 (c168_refuses lin (map (fun x => [x]) sig) 0 (1 / 10 ^ 12) (1 / 2) false 100)). rewrite column_single. intros (_ & _ & _ & _ & _ & H). specialize (H eq_refl). lia. }
  destruct (existsb (fun x => Rleb x 0) osr) eqn:B1.
  - cbn [orb]. apply existsb_exists in B1 as (x & IX & X). destruct (Rleb_spec x 0) as [X0 |]; [| discriminate]. split; [intros (P & _); specialize (P x IX); lra | reflexivity].
  - assert (P : forall x, In x osr -> 0 < x). { intros x IX. destruct (Rle_dec x 0) as [X |]; [| lra]. exfalso. assert (C : existsb (fun x => Rleb x 0) osr = true) by (apply existsb_exists; exists x; split; [exact IX | destruct (Rleb_spec x 0); [reflexivity | lra]]). congruence. }
    cbn [orb]. destruct (Rleb_spec harmonic 0) as [H0 | H0]; cbn [orb].
    + split; [| reflexivity]. intros (_ & (m & -> & M) & _). apply le_INR in M. cbn in M. lra.
    + destruct (Reqb_spec (IZR (Zfloor harmonic)) harmonic) as [HI | HI]; cbn [negb orb].
      * assert (HM : exists m : nat, harmonic = INR m /\ (1 <= m)%nat). { exists (Z.to_nat (Zfloor harmonic)). assert (0 < Zfloor harmonic)%Z by (apply lt_IZR; rewrite HI; exact H0). rewrite INR_IZR_INZ, Z2Nat.id by lia. split; [symmetry; exact HI | lia]. }
        destruct (match smooth with Some s => Rltb s 1 | None => false end) eqn:BS; cbn [raise_if].
        -- destruct smooth as [s |]; [| discriminate]. destruct (Rltb_spec s 1); [| discriminate]. split; [intros (_ & _ & S & _); lra | reflexivity].
        -- assert (SM : match smooth with Some s => 1 <= s | None => True end) by (destruct smooth as [s |]; [destruct (Rltb_spec s 1); [discriminate | lra] | exact I]).
           destruct (Nat.le_gt_cases 2 (length sig)) as [L | L].
           ++ destruct (FIT L) as [[r |] ->]; cbn [bind]; (split; [intros _; eexists; reflexivity | intros NG; exfalso; apply NG; repeat split; assumption]).
           ++ rewrite (NOFIT L). split; [intros (_ & _ & _ & Q); lia | reflexivity].
      * split; [| reflexivity]. intros (_ & (m & -> & M) & _). exfalso. apply HI. rewrite INR_IZR_INZ, Zfloor_IZR. reflexivity.
Qed.
(** Every entry is the power of the fitted sine over the total, and over the largest bin, of the Hann-windowed error in the bins
    wholly below its own band edge; it depends neither on the other OSRs nor on their order.  Without a fit every entry is NaN. *)
Lemma c172_entries lin sortd sig osr harmonic smooth o l : (forall x, sorts_down x (sortd x)) -> m_perfosr lin sortd sig osr harmonic smooth = Ok (o, l) ->
  length l = length o /\ (osr <> [] -> o = osr) /\ exists fit, m_sinfit lin (map (fun x => [x]) sig) 0 (1 / 10 ^ 12) (1 / 2) false 100 = Ok fit /\
  forall j, (j < length o)%nat -> match fit with
  | None => nth j l (PInf, PInf, PInf) = (NaN, NaN, NaN)
  | Some r => let E := err_spec (map2 Rminus sig (mf_fitout r)) in let power := mf_mag r ^ 2 / 2 in exists c m,
      (forall k, (k < c)%nat <-> k = 0%nat \/ (k <= length sig / 2)%nat /\ 2 * nth j o 0 * (INR k + 1) <= INR (length sig)) /\ band_peak c E m /\
      nth j l (NaN, NaN, NaN) = (db_quot power (band_total c E), db_quot power m, enob_of (db_quot power (band_total c E)))
  end.
Proof.
  intros SD H. destruct (c172_refuses lin sortd sig osr harmonic smooth) as [_ NG]. assert (G : ~ ~ ((forall x, In x osr -> 0 < x) /\ (exists m : nat, harmonic = INR m /\ (1 <= m)%nat) /\ match smooth with Some s => 1 <= s | None => True end /\ (2 <= length sig)%nat)) by (intros Q; rewrite (NG Q) in H; discriminate).
  assert (L2 : (2 <= length sig)%nat) by (destruct (Nat.le_gt_cases 2 (length sig)); [assumption |]; exfalso; apply G; intros (_ & _ & _ & Q); lia).
  assert (P : forall x, In x osr -> 0 < x) by (intros x IX; destruct (Rlt_dec 0 x); [assumption |]; exfalso; apply G; intros (Q & _); specialize (Q x IX); lra). clear G NG.
  unfold m_perfosr in H. destruct (_ || _)%bool in H; [discriminate |]. cbn [raise_if] in H. set (oo := match osr with [] => _ | _ => _ end) in H.
  assert (PO : forall x, In x oo -> 0 < x). { unfold oo. destruct osr as [| y osr]; [| exact P]. intros x IX. apply in_map_iff in IX as (j & <- & J). apply in_seq in J. assert (0 < INR (length sig)) by (apply lt_0_INR; lia). assert (0 < INR (length sig / 2 - j)) by (apply lt_0_INR; lia). repeat apply Rdiv_lt_0_compat; lra. }
  destruct (m_sinfit lin (map (fun x => [x]) sig) 0 (1 / 10 ^ 12) (1 / 2) false 100) as [[r |] | e] eqn:F; cbn [bind] in H; [| | discriminate]; apply Ok_inj in H; injection H as <- <-.
  - assert (LF : length (mf_fitout r) = length sig) by (destruct (c168_outputs _ _ _ _ _ _ _ _ F) as (Q & _); rewrite column_single in Q; exact Q).
    assert (LE : length (map2 Rminus sig (mf_fitout r)) = length sig) by (apply map2_length; congruence).
    split. { destruct (Nat.eq_dec (length oo) 0) as [Z | Z]; [| destruct (sweep_direct (map2 Rminus sig (mf_fitout r)) (mf_mag r) oo (sortd oo) 0 ltac:(lia) PO (SD oo) ltac:(lia)) as [Q _]; rewrite LE in Q; exact Q]. destruct (SD oo) as [Pm _]. rewrite Z in Pm. cbn [seq] in Pm. apply Permutation_sym, Permutation_nil in Pm. rewrite Pm. cbn [m_osr_loop]. apply repeat_length. }
    split; [intros NE; unfold oo; destruct osr; [contradiction | reflexivity] |]. exists (Some r). split; [reflexivity |]. intros j J E power.
    destruct (sweep_direct (map2 Rminus sig (mf_fitout r)) (mf_mag r) oo (sortd oo) j ltac:(lia) PO (SD oo) J) as [_ Q]. rewrite LE in Q. exists (m_band_bins (length sig) (nth j oo 0)), (peak0 (m_band_bins (length sig) (nth j oo 0)) E). split; [intros k; apply c172_bins, PO, nth_In, J |]. split; [| exact Q].
    pose proof (bins_range (length sig) (nth j oo 0)). split; [apply peak0_in; [lia | apply err_spec_nonneg] | intros k Hk; apply peak0_ge, Hk].
  - split; [apply map_length |]. split; [intros NE; unfold oo; destruct osr; [contradiction | reflexivity] |]. exists None. split; [reflexivity |]. intros j J. rewrite (nth_map_in _ _ _ 0) by exact J. reflexivity.
Qed.
(** Python counts one bin more (between none and two, with its tolerance): at an OSR of at least 1 and away from the tolerance
    exactly one more, except that both keep the first bin. *)
Lemma c172_count N o c : inband_count (Z.of_nat N) o = Ok c ->
  (Z.of_nat (m_band_bins N o) <= c <= Z.of_nat (m_band_bins N o) + 2)%Z /\
  (1 <= o -> (forall k : Z, IZR k = INR N / (2 * o) \/ / 10 ^ 12 * (1 + Rabs (IZR k)) < Rabs (INR N / (2 * o) - IZR k)) -> Z.of_nat (m_band_bins N o) = Z.max 1 (c - 1)).
Proof.
  intros H. destruct (inband_ok_pos _ _ _ H) as [N0 O0]. pose proof H as H'. rewrite inband_eq in H by assumption. apply Ok_inj in H. rewrite <- INR_IZR_INZ in H. unfold m_band_bins.
  replace (INR N / 2 / o) with (INR N / (2 * o)) by (field; lra). set (e := INR N / (2 * o)) in *. assert (E0 : 0 <= e) by (apply Rdiv_le_0_compat; [apply pos_INR | lra]).
  assert (F0 : (0 <= Zfloor e)%Z) by (apply Zfloor_lub; exact E0). assert (D : Z.of_nat (N / 2) = (Z.of_nat N / 2)%Z) by (rewrite Nat2Z.inj_div; reflexivity). rewrite Nat2Z.inj_add, D. assert (DP : (0 <= Z.of_nat N / 2)%Z) by (apply Z.div_pos; lia).
  assert (SG : (Zfloor e <= Zfloor (snapped e))%Z) by apply snapped_floor_ge.
  assert (SL : (Zfloor (snapped e) <= Zfloor e + 1)%Z). { unfold snapped. destruct (isclose12 _ _); [| lia]. rewrite Zfloor_IZR. pose proof (floor_split e) as [_ U]. rewrite <- (round_he_IZR (Zfloor e + 1)). apply round_he_mono. rewrite plus_IZR. lra. }
  split; [lia |]. intros O1 AW. rewrite (c23_exact _ _ _ H') by (rewrite <- INR_IZR_INZ; exact AW). rewrite <- INR_IZR_INZ. fold e.
  assert (FE : (Zfloor e <= Z.of_nat N / 2)%Z). { apply Z.div_le_lower_bound; [lia |]. apply le_IZR. rewrite mult_IZR, <- INR_IZR_INZ. pose proof (floor_split e) as [L _]. assert (Q : e * (2 * o) = INR N) by (unfold e; field; lra). pose proof (IZR_le _ _ F0) as F0'. nra. }
  lia.
Qed.
(** For the same error and amplitude MATLAB never reports the lower SNDR. *)
Lemma c172_never_lower err mag osr order order' res j : (2 <= length err)%nat -> 0 < mag -> (forall x, In x osr -> 0 < x) -> sorts_down osr order -> sorts osr order' -> osr_sweep err mag osr order' = Ok res -> (j < length osr)%nat ->
  let m := fst (fst (nth j (m_osr_loop (m_err_spec err) (length err) (mag ^ 2 / 2) osr order 0 0 0 (repeat (Fin 0, Fin 0, Fin 0) (length osr))) (NaN, NaN, NaN))) in
  let p := fst (fst (nth j res (NaN, NaN, NaN))) in m = PInf \/ xle p m.
Proof.
  intros L M P SD SU E J. cbv zeta. destruct (sweep_direct err mag osr order j L P SD J) as [_ ->]. destruct (c30_sweep_is_direct err mag osr order' ltac:(lia) P SU) as (r & Er & _ & A). rewrite E in Er. apply Ok_inj in Er. subst r. destruct (A j J) as (c & pk & EC & _ & ->). cbn [fst]. unfold direct. cbn [fst].
  destruct (c172_count _ _ _ EC) as [[CL _] _]. set (b := m_band_bins _ _) in *. assert (Q : 0 <= band_total b (err_spec err) <= band_total c (err_spec err)).
  { split; [apply rsum_nonneg; intros; apply err_spec_nonneg |]. unfold band_total. replace c with (b + (c - b))%nat by lia. rewrite rsum_app. assert (0 <= rsum (c - b) (fun i => nth (b + i) (err_spec err) 0)) by (apply rsum_nonneg; intros; apply err_spec_nonneg). lra. }
  assert (S0 : 0 < mag ^ 2 / 2) by (assert (0 < mag ^ 2) by (apply pow_lt; exact M); lra).
  destruct (Req_dec (band_total b (err_spec err)) 0) as [Z | Z]; [left | right; apply db_quot_antitone; lra]. rewrite Z. unfold db_quot. destruct (Reqb_spec 0 0); [| lra]. destruct (Reqb_spec (mag ^ 2 / 2) 0); [lra | reflexivity].
Qed.
(** An error at the band edge is in band for Python and not for MATLAB: one skirt of a tone on bin 4 of 16 at OSR 2. *)
Lemma c172_edge_refuted : exists err osr res, osr_sweep err 1 [osr] [0%nat] = Ok res /\ map fst res = [(Fin (10 * lg 3), Fin (10 * lg 3))] /\
  map fst (m_osr_loop (m_err_spec err) (length err) (1 ^ 2 / 2) [osr] [0%nat] 0 0 0 [(Fin 0, Fin 0, Fin 0)]) = [(PInf, PInf)].
Proof.
  set (err := tone_err 16 1 5 0). assert (L : length err = 16%nat) by (unfold err, tone_err; rewrite map_length, seq_length; reflexivity).
  assert (V : forall k, (k <= 8)%nat -> nth k (err_spec err) 0 = lobe [0.5; 0.5] (bin_dist k 5) ^ 2 / (3 / 8)) by (intros k Hk; unfold err; rewrite tone_err_spec by (try lia; change (16 / 2)%nat with 8%nat; lia); field).
  assert (PO : forall x, In x [2] -> 0 < x) by (intros x [<- | []]; lra). assert (SU : sorts [2] [0%nat]) by (split; [reflexivity | repeat constructor]). assert (SD : sorts_down [2] [0%nat]) by (split; [reflexivity | repeat constructor]).
  destruct (c30_sweep_is_direct err 1 [2] [0%nat] ltac:(lia) PO SU) as (res & Er & Lr & A). exists err, 2, res. split; [exact Er |].
  destruct (A 0%nat ltac:(cbn; lia)) as (c & m & EC & PK & R). rewrite L in EC. cbn [nth] in EC. rewrite inband_eq in EC by (lia || lra). change (IZR (Z.of_nat 16)) with 16 in EC. replace (16 / (2 * 2)) with (IZR 4) in EC by lra. unfold snapped in EC. rewrite round_he_IZR in EC. apply Ok_inj in EC. change (Z.of_nat 16 / 2)%Z with 8%Z in EC. assert (c = 5%nat) by (destruct (isclose12 _ _); rewrite Zfloor_IZR in EC; lia). subst c.
  assert (T : forall c, (c <= 9)%nat -> band_total c (err_spec err) = rsum c (fun k => lobe [0.5; 0.5] (bin_dist k 5) ^ 2 / (3 / 8))) by (intros c Hc; apply rsum_ext; intros; apply V; lia).
  assert (M : m = 1 / 6). { apply (band_peak_unique _ _ _ _ PK). split; [exists 4%nat; split; [lia | rewrite V by lia; unfold lobe; cbn; lra] |]. intros k Hk. rewrite V by lia. do 5 (destruct k as [| k]; [unfold lobe; cbn; lra |]). lia. }
  assert (D3 : db_quot (1 ^ 2 / 2) (1 / 6) = Fin (10 * lg 3)). { unfold db_quot. destruct (Reqb_spec (1 / 6) 0); [lra |]. replace (1 ^ 2 / 2 / (1 / 6)) with 3 by lra. apply db_pos. lra. }
  assert (D0 : db_quot (1 ^ 2 / 2) 0 = PInf). { unfold db_quot. destruct (Reqb_spec 0 0); [| lra]. destruct (Reqb_spec (1 ^ 2 / 2) 0); [lra | reflexivity]. }
  split.
  - destruct res as [| r0 [|]]; try discriminate Lr. cbn [nth] in R. cbv zeta in R. subst r0. cbn [map fst]. rewrite T by lia. replace (rsum 5 (fun k => lobe [0.5; 0.5] (bin_dist k 5) ^ 2 / (3 / 8))) with (1 / 6) by (unfold lobe; cbn; lra). rewrite M, D3. reflexivity.
  - destruct (sweep_direct err 1 [2] [0%nat] 0 ltac:(lia) PO SD ltac:(cbn; lia)) as [LM E]. cbn [length repeat] in LM, E. set (l := m_osr_loop _ _ _ _ _ _ _ _ _) in *. cbn [nth] in E. rewrite L in E.
    assert (B : m_band_bins 16 2 = 4%nat) by (unfold m_band_bins; replace (INR 16 / 2 / 2) with (IZR 4) by (cbn; lra); rewrite Zfloor_IZR; reflexivity). rewrite B in E. unfold direct in E.
    assert (B4 : band_total 4 (err_spec err) = 0) by (rewrite T by lia; unfold lobe; cbn; lra). assert (P4 : peak0 4 (err_spec err) = 0). { destruct (peak0_in 4 (err_spec err) ltac:(lia) (err_spec_nonneg err)) as (k & K & <-). rewrite V by lia. do 4 (destruct k as [| k]; [unfold lobe; cbn; lra |]). lia. }
    rewrite B4, P4, D0 in E. destruct l as [| r0 [|]]; try discriminate LM. cbn [nth] in E. subst r0. reflexivity.
Qed.
(** The default sweep is Python's; its entry for m keeps m bins where Python's keeps m+1. *)
Lemma c172_default N : (2 <= N)%nat -> default_osr N = Ok (m_default_osr N) /\ length (m_default_osr N) = (N / 2)%nat /\ forall m, (1 <= m <= N / 2)%nat -> m_band_bins N (nth (N / 2 - m) (m_default_osr N) 0%R) = m.
Proof.
  intros N2. split; [| split].
  - unfold default_osr. rewrite c23_full_band by (lia || lra). cbn [bind]. replace (Z.to_nat (Z.of_nat N / 2 + 1 - 1)) with (N / 2)%nat; [reflexivity |]. rewrite Z.add_simpl_r. change 2%Z with (Z.of_nat 2). rewrite <- Nat2Z.inj_div, Nat2Z.id. reflexivity.
  - unfold m_default_osr. rewrite map_length, seq_length. reflexivity.
  - intros m Hm. unfold m_default_osr. rewrite map_seq_nth by lia. replace (N / 2 - (N / 2 - m))%nat with m by lia. unfold m_band_bins. assert (0 < INR N) by (apply lt_0_INR; lia). assert (0 < INR m) by (apply lt_0_INR; lia).
    replace (INR N / 2 / (INR N / 2 / INR m)) with (IZR (Z.of_nat m)) by (rewrite <- INR_IZR_INZ; field; lra). rewrite Zfloor_IZR. lia.
Qed.
(** A coherent sine below the last bin leaves no error: every figure is infinite. *)
Lemma c172_pure_sine lin sortd sig k A ph off osr harmonic smooth o l : least_squares lin -> (forall x, sorts_down x (sortd x)) -> (0 < k)%nat -> (k < length sig / 2 - 1)%nat -> (5 <= length sig)%nat -> 0 < A ->
  is_record sig (sine A (INR k / INR (length sig)) ph off) -> m_perfosr lin sortd sig osr harmonic smooth = Ok (o, l) -> l = repeat (PInf, PInf, PInf) (length o).
Proof.
  intros LS SD K0 K1 N5 PA R H. destruct (c172_entries _ _ _ _ _ _ _ _ SD H) as (LL & _ & fit & F & V). assert (T : 0 < 1 / 10 ^ 12) by (apply Rdiv_lt_0_compat; [lra | apply pow_lt; lra]).
  destruct (c168_auto lin (map (fun x => [x]) sig) k A ph off (1 / 10 ^ 12) (1 / 2) false 100 LS) as (r & F' & _ & MG & _ & _ & FO); rewrite ?column_single in *; try assumption; try lra; try lia.
  rewrite F in F'. apply Ok_inj in F'. subst fit. apply (nth_ext _ _ (NaN, NaN, NaN) (NaN, NaN, NaN)); [rewrite repeat_length; exact LL |]. intros j J. rewrite LL in J. specialize (V j J). cbv zeta in V. destruct V as (c & m & _ & ((i & _ & Em) & _) & ->).
  assert (Z : forall i, nth i (err_spec (map2 Rminus sig (mf_fitout r))) 0 = 0). { intros i'. apply zero_spectrum. rewrite FO, map2_length by reflexivity. intros t Ht. rewrite map2_nth_R by (reflexivity || exact Ht). lra. }
  rewrite Z in Em. subst m. unfold band_total. rewrite rsum_zero by (intros; apply Z). rewrite MG.
  assert (D : db_quot (A ^ 2 / 2) 0 = PInf). { unfold db_quot. destruct (Reqb_spec 0 0); [| contradiction]. destruct (Reqb_spec (A ^ 2 / 2) 0); [nra | reflexivity]. }
  rewrite D. rewrite (nth_indep _ _ (PInf, PInf, PInf)) by (rewrite repeat_length; exact J). rewrite nth_repeat. unfold enob_of, xaxpy. destruct (Rltb_spec 0 (/ 6.02)); [reflexivity | lra].
Qed.
(** The slope curves: the same where the two OSRs differ, unless a tenth of the number of points is a tie that Python rounds to
    even (and the width matters). *)
Lemma c172_slope osr sndr smooth i : (i < length osr)%nat -> (smooth = None -> ~ tie (INR (length osr) / 10)) ->
  let w := m_smooth (length osr) smooth in let lo := Z.to_nat (Z.max 0 (Z.of_nat i - w)) in let hi := Z.to_nat (Z.min (Z.of_nat (length osr) - 1) (Z.of_nat i + w)) in
  w = smooth_width (length osr) smooth /\ (1 / 10 ^ 15 < Rabs (lg (nth hi osr 0) - lg (nth lo osr 0)) -> nth i (m_slopes osr sndr smooth) NaN = Fin (nth i (local_slope osr sndr smooth) 0)).
Proof.
  intros I T w lo hi. assert (W : w = smooth_width (length osr) smooth). { unfold w, m_smooth, smooth_width. destruct smooth as [s |]; [reflexivity |]. rewrite (proj2 (round_same (INR (length osr) / 10) ltac:(apply Rdiv_le_0_compat; [apply pos_INR | lra])) (T eq_refl)). reflexivity. }
  split; [exact W |]. intros D. unfold m_slopes, local_slope. rewrite map_seq_nth by exact I. rewrite (nth_map_in _ _ _ 0%nat) by (rewrite seq_length; exact I). rewrite seq_nth by exact I. rewrite Nat.add_0_l. rewrite <- W. fold w. fold lo hi. unfold lg in D. set (d := ln (nth hi osr 0) / ln 10 - ln (nth lo osr 0) / ln 10) in *.
  assert (P15 : 0 < 1 / 10 ^ 15) by (apply Rdiv_lt_0_compat; [lra | apply pow_lt; lra]). destruct (Reqb_spec d 0) as [Z |]; [exfalso; rewrite Z, Rabs_R0 in D; lra |]. unfold Rltb. destruct (Rlt_dec (1 / 10 ^ 15) (Rabs d)); [reflexivity | contradiction].
Qed.
(** With 65 points MATLAB looks 7 points to each side, Python 6. *)
Lemma c172_smooth_refuted : exists n, m_smooth n None = 7%Z /\ smooth_width n None = 6%Z.
Proof.
  exists 65%nat. unfold m_smooth, smooth_width. replace (INR 65 / 10) with (IZR 6 + 1 / 2) by (rewrite INR_IZR_INZ; cbn [Z.of_nat Pos.of_succ_nat Pos.succ]; lra). rewrite he_half. unfold m_round, Rleb. destruct (Rle_dec 0 (IZR 6 + 1 / 2)); [| lra]. rewrite (floor_is (IZR 6 + 1 / 2 + 1 / 2) 7) by lra. split; reflexivity.
Qed.
(** ** C173: ntfperf *)
Lemma fine_INR : INR m_ntf_points = 1000000.
Proof. with_strategy transparent [m_ntf_points] unfold m_ntf_points. rewrite INR_IZR_INZ, Z2Nat.id by lia. reflexivity. Qed.
Opaque m_ntf_points.
Lemma fine_grid k : m_ntf_grid k = fine_point k.
Proof. unfold m_ntf_grid, fine_point. replace (k + 1)%nat with (S k) by lia. lra. Qed.
Lemma fine_noise_eq num den lo hi : fine_no_pole m_ntf_points den lo hi -> m_band_noise num den lo hi = Fin (fine_noise m_ntf_points num den lo hi).
Proof.
  intros H. unfold m_band_noise. rewrite (xsum_filter _ _ (fun k => response num den (fine_point k))).
  - rewrite lsum_map_seq. unfold fine_noise. rewrite fine_INR. f_equal. f_equal. apply rsum_ext. intros k Hk. rewrite fine_grid. unfold Rltb.
    destruct (Rlt_dec lo (fine_point k)); [destruct (Rlt_dec (fine_point k) hi) |]; reflexivity.
  - intros k Hk B. apply in_seq in Hk. rewrite fine_grid in *. unfold Rltb in B. apply mag2_response. apply H; [lia |].
    destruct (Rlt_dec lo (fine_point k)); [| discriminate]. destruct (Rlt_dec (fine_point k) hi); [| discriminate]. split; assumption.
Qed.
Lemma fine_nonneg n num den lo hi : 0 <= fine_noise n num den lo hi.
Proof.
  unfold fine_noise. destruct (Nat.eq_dec n 0) as [-> | N]; [cbn; unfold Rdiv; rewrite Rinv_0; lra |]. apply Rdiv_le_0_compat; [| apply lt_0_INR; lia].
  apply rsum_nonneg. intros k _. pose proof (response_nonneg num den (fine_point k)). destruct (Rlt_dec _ _); [destruct (Rlt_dec _ _) |]; lra.
Qed.
(** Bands other than 0 <= fl < fh <= 1/2 are refused, which Python does not do. *)
Lemma c173_refuses num den fl fh : (exists v, m_ntfperf num den fl fh = Ok v) <-> 0 <= fl /\ fl < fh /\ fh <= 1 / 2.
Proof.
  unfold m_ntfperf, raise_if. destruct (Rltb_spec fl 0); [cbn; split; [intros (v & Q); discriminate Q | lra] |]. destruct (Rleb_spec 0.5 fl); [cbn; split; [intros (v & Q); discriminate Q | lra] |].
  destruct (Rleb_spec fh fl); [cbn; split; [intros (v & Q); discriminate Q | lra] |]. destruct (Rltb_spec 0.5 fh); [cbn; split; [intros (v & Q); discriminate Q | lra] |]. cbn [orb]. split; [lra | intros _; eexists; reflexivity].
Qed.
(** The figure is -10 log10 of the response summed over the points strictly inside the band and divided by 10^6. *)
Lemma c173_formula num den fl fh : 0 <= fl -> fl < fh -> fh <= 1 / 2 -> fine_no_pole m_ntf_points den fl fh -> let np := fine_noise m_ntf_points num den fl fh in
  m_ntfperf num den fl fh = Ok (if Rlt_dec 0 np then Fin (- 10 * lg np) else PInf).
Proof.
  intros A B D P np. destruct (proj2 (c173_refuses num den fl fh) (conj A (conj B D))) as (v & E). rewrite E. f_equal. unfold m_ntfperf, raise_if in E. destruct (_ || _) in E; [discriminate |]. apply Ok_inj in E. rewrite <- E, fine_noise_eq by exact P. fold np. pose proof (fine_nonneg m_ntf_points num den fl fh : 0 <= np). destruct (Rlt_dec 0 np) as [Q | Q].
  - rewrite xlog10_pos by exact Q. cbn [xaxpy]. f_equal. ring.
  - replace np with 0 by lra. unfold xlog10. destruct (Rltb_spec 0 0); [lra |]. destruct (Reqb_spec 0 0); [| contradiction]. cbn [xaxpy]. destruct (Rltb_spec 0 (-10)); [lra | reflexivity].
Qed.
(** The number of points strictly inside the band. *)
Lemma c173_points lo hi : 0 <= lo -> lo < hi -> hi <= 1 / 2 -> let n := fine_count m_ntf_points lo hi in
  n = IZR (Zceil (2000000 * hi) - Zfloor (2000000 * lo) - 1) /\ 2000000 * (hi - lo) - 1 <= n <= 2000000 * (hi - lo) + 1.
Proof.
  intros A B D n. assert (E : n = IZR (Zceil (2000000 * hi) - Zfloor (2000000 * lo) - 1)).
  { unfold n, fine_count. set (m := m_ntf_points). assert (IM : INR m = 1000000) by exact fine_INR.
    pose (g := fun k : nat => if Rlt_dec (2000000 * lo) (INR k) then if Rlt_dec (INR k) (2000000 * hi) then 1 else 0 else 0).
    transitivity (rsum (S m) g).
    - rewrite rsum_shift. unfold g at 1. cbn [INR]. destruct (Rlt_dec (2000000 * lo) 0); [lra |]. rewrite Rplus_0_l. apply rsum_ext. intros k _. unfold g, fine_point.
      destruct (Rlt_dec lo (INR (S k) / 2000000)), (Rlt_dec (INR (S k) / 2000000) hi), (Rlt_dec (2000000 * lo) (INR (S k))), (Rlt_dec (INR (S k)) (2000000 * hi)); lra.
    - rewrite !minus_IZR. rewrite <- (count_below (S m) (2000000 * hi)) by (rewrite S_INR; lra).
      replace (rsum (S m) (fun k => if Rlt_dec (INR k) (2000000 * hi) then 1 else 0) - IZR (Zfloor (2000000 * lo)) - 1)
        with (rsum (S m) (fun k => if Rlt_dec (INR k) (2000000 * hi) then 1 else 0) - rsum (S m) (fun k => if Rlt_dec (2000000 * lo) (INR k) then 0 else 1)) by (rewrite (count_upto (S m)) by (rewrite S_INR; lra); ring).
      rewrite <- rsum_minus. apply rsum_ext. intros k _. unfold g. destruct (Rlt_dec (2000000 * lo) (INR k)), (Rlt_dec (INR k) (2000000 * hi)); lra. }
  split; [exact E |]. rewrite E, !minus_IZR. pose proof (Zfloor_lb (2000000 * lo)). pose proof (Zfloor_ub (2000000 * lo)). pose proof (Zceil_ub (2000000 * hi)). pose proof (Zceil_lb (2000000 * hi)). lra.
Qed.
(** A constant transfer function c reads -20 log10 |c| - 10 log10 of the share of the points inside the band. *)
Lemma c173_flat c den fl fh : c <> 0 -> 0 <= fl -> fl < fh -> fh <= 1 / 2 -> fine_no_pole m_ntf_points den fl fh -> 0 < fine_count m_ntf_points fl fh ->
  m_ntfperf (map (fun x => c * x) den) den fl fh = Ok (Fin (- 20 * lg (Rabs c) - 10 * lg (fine_count m_ntf_points fl fh / 1000000))).
Proof.
  intros NC A B D P K. rewrite c173_formula by assumption.
  assert (E : fine_noise m_ntf_points (map (fun x => c * x) den) den fl fh = c ^ 2 * (fine_count m_ntf_points fl fh / 1000000)).
  { unfold fine_noise, fine_count. rewrite fine_INR.
    transitivity (rsum m_ntf_points (fun k => c ^ 2 * (if Rlt_dec fl (fine_point k) then if Rlt_dec (fine_point k) fh then 1 else 0 else 0)) / 1000000); [| rewrite rsum_scale; apply Rmult_assoc].
    f_equal. apply rsum_ext. intros k Hk. destruct (Rlt_dec fl (fine_point k)) as [A1 | A1]; [| ring]. destruct (Rlt_dec (fine_point k) fh) as [B1 | B1]; [| ring].
    specialize (P k Hk (conj A1 B1)). unfold response. set (w := 2 * PI * fine_point k) in *.
    assert (E : on_circle (map (fun x => c * x) den) w = Cscale c (on_circle den w)).
    { unfold on_circle. rewrite map_length, <- csum_scale. apply csum_ext. intros i Hi. rewrite (nth_map_in _ _ _ 0) by exact Hi. rewrite Cscale_scale. reflexivity. }
    rewrite E. assert (N : Cmod2 (on_circle den w) <> 0) by (intros Z; apply P, Cmod2_zero, Z). unfold Cscale, Cmod2 at 1. cbn [fst snd]. unfold Cmod2 in *. field. exact N. }
  rewrite E. assert (0 < Rabs c) by (apply Rabs_pos_lt; exact NC). assert (0 < c ^ 2) by (rewrite <- pow2_abs; apply pow_lt; assumption). assert (0 < fine_count m_ntf_points fl fh / 1000000) by lra.
  destruct (Rlt_dec 0 _) as [Q | Q]; [| exfalso; apply Q; apply Rmult_lt_0_compat; assumption]. f_equal. f_equal. rewrite lg_mult by assumption. rewrite <- pow2_abs, lg_sqr by assumption. ring.
Qed.
Lemma fine_no_pole_1 lo hi : fine_no_pole m_ntf_points [1] lo hi.
Proof. intros k _ _ E. rewrite circle_1 in E. injection E as A. lra. Qed.
(** The improvement is announced as relative to NTF = 1, but NTF = 1 itself reads more than 3 dB in the band up to a quarter of the sampling rate. *)
Lemma c173_flat_refuted : exists v, m_ntfperf [1] [1] 0 (1 / 4) = Ok (Fin v) /\ 3 < v.
Proof.
  destruct (c173_points 0 (1 / 4)) as (E & _); [lra | lra | lra |]. assert (Z1 : Zceil (2000000 * (1 / 4)) = 500000%Z) by (apply Zceil_imp; split; simpl; lra). assert (Z2 : Zfloor (2000000 * 0) = 0%Z) by (rewrite Rmult_0_r; apply Zfloor_IZR).
  rewrite Z1, Z2 in E. change (500000 - 0 - 1)%Z with 499999%Z in E. pose proof (c173_flat 1 [1] 0 (1 / 4) ltac:(lra) ltac:(lra) ltac:(lra) ltac:(lra) (fine_no_pole_1 _ _) ltac:(rewrite E; lra)) as F. cbn [map] in F. rewrite Rmult_1_l, E in F.
  eexists. split; [exact F |]. rewrite Rabs_R1, lg_1. pose proof lg_2_bound. assert (Q : lg (499999 / 1000000) = - lg (1000000 / 499999)) by (rewrite !lg_div by lra; ring). rewrite Q. assert (lg 2 < lg (1000000 / 499999)) by (apply lg_lt; lra). lra.
Qed.
(** *** Finite impulse responses over the whole band *)
Lemma csum_pad n m f : (n <= m)%nat -> (forall i, (n <= i < m)%nat -> f i = C0) -> csum m f = csum n f.
Proof.
  intros L. induction L as [| m L IH]; intros H; [reflexivity |]. cbn [csum]. rewrite IH by (intros i Hi; apply H; lia). rewrite (H m) by lia. ring.
Qed.
Lemma rsum_pad n m f : (n <= m)%nat -> (forall i, (n <= i < m)%nat -> f i = 0) -> rsum m f = rsum n f.
Proof.
  intros L. induction L as [| m L IH]; intros H; [reflexivity |]. cbn [rsum]. rewrite IH by (intros i Hi; apply H; lia). rewrite (H m) by lia. ring.
Qed.
Lemma circle_dft p M k : (0 < M)%nat -> (length p <= M)%nat -> Cmod2 (on_circle p (2 * PI * INR k / INR M)) = Cmod2 (dft M (fun n => RtoC (nth n p 0)) k).
Proof.
  intros PM L. assert (M0 : INR M <> 0) by (apply not_0_INR; lia). set (w := 2 * PI * INR k / INR M).
  assert (E : on_circle p w = Cmult (cis (INR (length p - 1) * w)) (dft M (fun n => RtoC (nth n p 0)) k)); [| rewrite E, Cmod2_mult, Cmod2_cis; ring].
  unfold on_circle, dft. rewrite (csum_pad (length p) M) by (try exact L; intros i Hi; rewrite nth_overflow by lia; change (RtoC 0) with C0; ring). rewrite <- csum_mult_l.
  apply csum_ext. intros i Hi. replace (2 * PI * INR k * INR i / INR M) with (INR i * w) by (unfold w; field; exact M0). rewrite (minus_INR _ i) by lia. replace ((INR (length p - 1) - INR i) * w) with (INR (length p - 1) * w + - (INR i * w)) by ring. rewrite cis_plus.
  unfold Cscale, RtoC, Cmult. cbn [fst snd]. f_equal; ring.
Qed.
Lemma circle_conj p w : Cmod2 (on_circle p (- w)) = Cmod2 (on_circle p w).
Proof.
  assert (E : on_circle p (- w) = Cconj (on_circle p w)).
  { unfold on_circle. rewrite csum_conj. apply csum_ext. intros i _. replace (INR (length p - 1 - i) * - w) with (- (INR (length p - 1 - i) * w)) by ring. rewrite cis_neg. unfold Cscale, Cconj. cbn [fst snd]. f_equal; ring. }
  rewrite E. unfold Cmod2, Cconj. cbn [fst snd]. ring.
Qed.
Lemma circle_period p w : on_circle p (w + 2 * PI) = on_circle p w.
Proof.
  unfold on_circle. apply csum_ext. intros i _. f_equal. rewrite Rmult_plus_distr_l. rewrite <- (cis_period (INR (length p - 1 - i) * w) (Z.of_nat (length p - 1 - i))). rewrite <- INR_IZR_INZ. f_equal. ring.
Qed.
(** Parseval over half the circle: twice the inner points and the two ends. *)
Lemma half_circle p n : (length p <= 2 * S n)%nat -> let t k := Cmod2 (on_circle p (PI * INR k / INR (S n))) in
  2 * rsum n (fun i => t (S i)) + t 0%nat + t (S n) = 2 * INR (S n) * energy p.
Proof.
  intros L t. assert (N1 : 0 < INR (S n)) by (apply lt_0_INR; lia). assert (N0 : INR (S n) <> 0) by lra.
  assert (P : rsum (S n + S n) t = 2 * INR (S n) * energy p).
  { rewrite (rsum_ext _ _ (fun k => Cmod2 (dft (S n + S n) (fun i => RtoC (nth i p 0)) k))).
    - rewrite dft_parseval by lia. rewrite plus_INR. unfold energy. rewrite (rsum_pad (length p) (S n + S n)) by (try lia; intros i Hi; rewrite nth_overflow by lia; unfold Cmod2, RtoC; cbn [fst snd]; ring).
      replace (INR (S n) + INR (S n)) with (2 * INR (S n)) by ring. f_equal. apply rsum_ext. intros i _. unfold Cmod2, RtoC. cbn [fst snd]. ring.
    - intros k _. unfold t. rewrite <- (circle_dft p (S n + S n)) by lia. f_equal. f_equal. rewrite plus_INR. field. split; lra. }
  rewrite <- P, rsum_app. rewrite (rsum_shift n t), (rsum_shift n (fun i => t (S n + i)%nat)). rewrite Nat.add_0_r. rewrite (rsum_reverse n (fun i => t (S n + S i)%nat)).
  rewrite (rsum_ext n (fun i => t (S n + S (n - 1 - i))%nat) (fun i => t (S i))); [ring |]. intros i Hi. unfold t. rewrite <- circle_conj, <- circle_period. f_equal. f_equal. rewrite plus_INR. replace (S (n - 1 - i)) with (S n - S i)%nat by lia. rewrite (minus_INR (S n) (S i)) by lia. field. exact N0.
Qed.
Lemma circle_ends p : Cmod2 (on_circle p 0) + Cmod2 (on_circle p PI) = ends p.
Proof.
  assert (A : on_circle p 0 = RtoC (rsum (length p) (fun i => nth i p 0))).
  { unfold on_circle. rewrite <- csum_RtoC. apply csum_ext. intros i _. rewrite Rmult_0_r, cis_0. unfold Cscale, C1, RtoC. cbn [fst snd]. f_equal; ring. }
  assert (K : forall m, cis (INR m * PI) = RtoC ((-1) ^ m)).
  { induction m as [| m IH]; [cbn [INR pow]; rewrite Rmult_0_l; exact cis_0 |]. rewrite S_INR. replace ((INR m + 1) * PI) with (INR m * PI + PI) by ring. rewrite cis_plus, IH. unfold cis, Cmult, RtoC. cbn [fst snd pow]. rewrite cos_PI, sin_PI. f_equal; ring. }
  assert (B : on_circle p PI = RtoC ((-1) ^ (length p - 1) * rsum (length p) (fun i => (-1) ^ i * nth i p 0))).
  { unfold on_circle. rewrite <- rsum_scale, <- csum_RtoC. apply csum_ext. intros i Hi. rewrite K. replace ((-1) ^ (length p - 1)) with ((-1) ^ (length p - 1 - i) * (-1) ^ i) by (rewrite <- pow_add; f_equal; lia).
    replace ((-1) ^ (length p - 1 - i) * (-1) ^ i * ((-1) ^ i * nth i p 0)) with ((-1) ^ (length p - 1 - i) * nth i p 0 * ((-1) ^ i * (-1) ^ i)) by ring. rewrite <- Rpow_mult_distr. replace (-1 * -1) with 1 by ring. rewrite pow1. unfold Cscale, RtoC. cbn [fst snd]. f_equal; ring. }
  rewrite A, B. unfold ends, Cmod2, RtoC. cbn [fst snd]. set (x := rsum _ (fun i => (-1) ^ i * _)). replace ((-1) ^ (length p - 1) * x * ((-1) ^ (length p - 1) * x)) with (((-1) ^ (length p - 1) * (-1) ^ (length p - 1)) * x ^ 2) by ring. rewrite <- Rpow_mult_distr. replace (-1 * -1) with 1 by ring. rewrite pow1. ring.
Qed.
Lemma circle_delays d w : Cmod2 (on_circle (delays d) w) = 1.
Proof.
  assert (E : on_circle (delays d) w = cis (INR d * w)); [| rewrite E; apply Cmod2_cis]. unfold on_circle, delays. cbn [length]. rewrite repeat_length. rewrite csum_shift. cbn [nth]. rewrite csum_zero.
  - replace (S d - 1 - 0)%nat with d by lia. unfold Cscale, Cplus, C0. cbn [fst snd]. unfold cis. cbn [fst snd]. f_equal; ring.
  - intros i _. rewrite nth_repeat. apply Cscale_0.
Qed.
(** A finite impulse response over the whole band up to one half: the noise is its energy up to the missing end points,
    in ntfperf.m and, with the coarser grid and one point too many in the mean, in Python. *)
Lemma c173_fir p d : (Z.of_nat (length p) <= 131070)%Z ->
  fine_noise m_ntf_points p (delays d) 0 (1 / 2) = energy p - ends p / 2000000 /\
  noise_in_band ntf_points p (delays d) 0 (1 / 2) = (65535 * energy p - ends p / 2) / 65536.
Proof.
  intros L. assert (RS : forall f, response p (delays d) f = Cmod2 (on_circle p (2 * PI * f))) by (intros f; unfold response; rewrite circle_delays; field). split.
  - assert (Q : exists n, m_ntf_points = S n /\ INR n = 999999).
    { exists (m_ntf_points - 1)%nat. pose proof fine_INR as E. assert (0 < m_ntf_points)%nat by (apply INR_lt; rewrite E; simpl; lra). split; [lia |]. rewrite minus_INR by lia. rewrite E. simpl. lra. }
    destruct Q as (n & En & Ei). assert (SI : INR (S n) = 1000000) by (rewrite S_INR; lra). unfold fine_noise. rewrite fine_INR, En. cbn [rsum].
    assert (FP : forall k, (k <= n)%nat -> 0 < fine_point k /\ (fine_point k < 1 / 2 <-> (k < n)%nat)).
    { intros k Hk. unfold fine_point. pose proof (pos_INR k). rewrite S_INR. split; [lra |]. split; [intros H1; apply INR_lt; lra | intros H1; apply lt_INR in H1; lra]. }
    destruct (FP n (Nat.le_refl n)) as (FN1 & FN2). destruct (Rlt_dec 0 (fine_point n)); [| lra]. destruct (Rlt_dec (fine_point n) (1 / 2)) as [Bad | _]; [apply FN2 in Bad; lia |].
    pose proof (half_circle p n) as H. cbv zeta in H. rewrite SI in H. specialize (H ltac:(apply INR_le; rewrite mult_INR, SI; apply IZR_le in L; rewrite <- INR_IZR_INZ in L; simpl (INR 2); lra)).
    rewrite (rsum_ext n _ (fun i => Cmod2 (on_circle p (PI * INR (S i) / 1000000)))).
    + replace (PI * INR 0 / 1000000) with 0 in H by (cbn [INR]; lra). rewrite SI in H. replace (PI * 1000000 / 1000000) with PI in H by field. rewrite <- circle_ends. lra.
    + intros k Hk. destruct (FP k ltac:(lia)) as (F1 & F2). destruct (Rlt_dec 0 (fine_point k)); [| lra]. destruct (Rlt_dec (fine_point k) (1 / 2)) as [_ | Bad]; [| apply F2 in Hk; contradiction]. rewrite RS. f_equal. f_equal. unfold fine_point. field.
  - destruct points_pred as (n & En & Ei & N0). unfold noise_in_band. rewrite ntf_points_INR. f_equal. rewrite En. destruct n as [| n]; [lia |]. rewrite rsum_shift. unfold frequency_point at 1 2 3. replace (INR 0 / 131070) with 0 by (cbn [INR]; lra). destruct (Rlt_dec 0 0); [lra |]. cbn [rsum].
    assert (FP : forall k, (k <= n)%nat -> 0 < frequency_point (S k) /\ (frequency_point (S k) < 1 / 2 <-> (k < n)%nat)).
    { intros k Hk. unfold frequency_point. pose proof (pos_INR k). rewrite S_INR in *. split; [lra |]. split; [intros H1; apply INR_lt; lra | intros H1; apply lt_INR in H1; lra]. }
    destruct (FP n (Nat.le_refl n)) as (FN1 & FN2). destruct (Rlt_dec 0 (frequency_point (S n))); [| lra]. destruct (Rlt_dec (frequency_point (S n)) (1 / 2)) as [Bad | _]; [apply FN2 in Bad; lia |].
    pose proof (half_circle p n) as H. cbv zeta in H. rewrite Ei in H. specialize (H ltac:(apply INR_le; rewrite mult_INR, Ei; apply IZR_le in L; rewrite <- INR_IZR_INZ in L; simpl (INR 2); lra)).
    rewrite (rsum_ext n _ (fun i => Cmod2 (on_circle p (PI * INR (S i) / 65535)))).
    + replace (PI * INR 0 / 65535) with 0 in H by (cbn [INR]; lra). rewrite Ei in H. replace (PI * 65535 / 65535) with PI in H by field. rewrite <- circle_ends. lra.
    + intros k Hk. destruct (FP k ltac:(lia)) as (F1 & F2). destruct (Rlt_dec 0 (frequency_point (S k))); [| lra]. destruct (Rlt_dec (frequency_point (S k)) (1 / 2)) as [_ | Bad]; [| apply F2 in Hk; contradiction]. rewrite RS. f_equal. f_equal. unfold frequency_point. field.
Qed.
(** So over the whole band Python's figure for such a transfer function is at least that of ntfperf.m. *)
Lemma c173_full_band p d v v' : p <> [] -> (Z.of_nat (length p) <= 131070)%Z -> m_ntfperf p (delays d) 0 (1 / 2) = Ok v -> ntf_analyzer p (delays d) 0 (1 / 2) = Ok v' -> at_least v v'.
Proof.
  intros NP L E E'. destruct (c173_fir p d L) as (A & B).
  assert (ND : forall w, on_circle (delays d) w <> C0) by (intros w Q; pose proof (circle_delays d w) as H; rewrite Q in H; unfold Cmod2, C0 in H; cbn in H; lra).
  rewrite c173_formula in E; [| lra | lra | lra | intros k _ _; apply ND]. apply Ok_inj in E. cbv zeta in E. rewrite A in E.
  destruct (c124_formula p (delays d) 0 (1 / 2)) as (x & EX & V1 & V2); [exact NP | left; lra | intros k _ _; apply ND |]. rewrite EX in E'. apply Ok_inj in E'. subst x. pose proof (noise_nonneg ntf_points p (delays d) 0 (1 / 2)) as NN. rewrite B in *.
  assert (E0 : 0 <= energy p) by (apply rsum_nonneg; intros; apply pow2_ge_0). assert (0 <= ends p) by (unfold ends; pose proof (pow2_ge_0 (rsum (length p) (fun i => nth i p 0))); pose proof (pow2_ge_0 (rsum (length p) (fun i => (-1) ^ i * nth i p 0))); lra).
  destruct (Rle_lt_or_eq_dec _ _ NN) as [PP | PP]; [| left; apply V2; symmetry; exact PP]. right. rewrite (V1 PP). destruct (Rlt_dec 0 (energy p - ends p / 2000000)) as [Q | Q]; [| lra]. exists (- 10 * lg (energy p - ends p / 2000000)), (- 10 * lg ((65535 * energy p - ends p / 2) / 65536)). split; [symmetry; exact E |]. split; [reflexivity |].
  assert (lg ((65535 * energy p - ends p / 2) / 65536) <= lg (energy p - ends p / 2000000)); [| lra]. destruct (Req_dec ((65535 * energy p - ends p / 2) / 65536) (energy p - ends p / 2000000)) as [-> | NE]; [lra |]. left. apply lg_lt; lra.
Qed.
(** ** Examples *)
Definition ins_down (l : list R) : list nat := ins_argsort (map Ropp l).
Lemma ins_down_sorts l : sorts_down l (ins_down l).
Proof.
  assert (V : forall i, nth i (map Ropp l) 0 = - nth i l 0) by (intros i; rewrite <- (map_nth Ropp), Ropp_0; reflexivity).
  destruct (ins_argsort_sorts (map Ropp l)) as (P & S). rewrite map_length in P. split; [exact P |]. unfold ins_down. clear P. induction S as [| i o _ IH F]; constructor; [exact IH |]. eapply Forall_impl; [| exact F]. cbv beta. intros j H. rewrite !V in H. lra.
Qed.
Lemma eighth_length : length eighth_record = 8%nat.
Proof. unfold eighth_record. rewrite map_length, seq_length. reflexivity. Qed.
Example c172_bins_ex : (3 < m_band_bins 16 2)%nat /\ ~ (4 < m_band_bins 16 2)%nat.
Proof. rewrite !c172_bins by lra. cbn [Nat.div Nat.divmod fst INR]. split; [right; split; [lia | lra] | intros [H | [_ H]]; [lia | lra]]. Qed.
Example c172_refuses_ex : m_perfosr gs_lstsq ins_down eighth_record [1; 2] 2.5 None = Err RuntimeError.
Proof. apply (proj2 (c172_refuses gs_lstsq ins_down eighth_record [1; 2] 2.5 None)). intros (_ & (m & E & _) & _). assert (IZR 5 = IZR (2 * Z.of_nat m)) by (rewrite mult_IZR, <- INR_IZR_INZ; lra). apply eq_IZR in H. lia. Qed.
Example c172_pure_sine_ex : m_perfosr gs_lstsq ins_down eighth_record [1; 2] 5 None = Ok ([1; 2], [(PInf, PInf, PInf); (PInf, PInf, PInf)]).
Proof.
  destruct (proj1 (c172_refuses gs_lstsq ins_down eighth_record [1; 2] 5 None)) as ((o & l) & E).
  { split; [intros x [<- | [<- | []]]; lra |]. split; [exists 5%nat; split; [cbn; ring | lia] |]. split; [exact I | rewrite eighth_length; lia]. }
  destruct (c172_entries _ _ _ _ _ _ _ _ ins_down_sorts E) as (_ & EO & _). rewrite (EO ltac:(discriminate)) in *. rewrite E. f_equal. f_equal.
  apply (c172_pure_sine gs_lstsq ins_down eighth_record 1 2 0 1 [1; 2] 5 None [1; 2] l gs_least_squares ins_down_sorts); try rewrite eighth_length; try lia; try lra; [cbn; lia | | exact E]. replace (INR 1 / INR 8) with (1 / 8) by (cbn; lra). exact eighth_is.
Qed.
Example c172_entries_ex : exists l, m_perfosr gs_lstsq ins_down eighth_record [1; 2] 5 None = Ok ([1; 2], l) /\ length l = 2%nat.
Proof. eexists. split; [exact c172_pure_sine_ex |]. exact (proj1 (c172_entries _ _ _ _ _ _ _ _ ins_down_sorts c172_pure_sine_ex)). Qed.
Example c172_count_ex c : inband_count 16 2 = Ok c -> (4 <= c <= 6)%Z.
Proof.
  intros E. destruct (c172_count 16 2 c E) as (H & _). assert (B : m_band_bins 16 2 = 4%nat) by (destruct c172_bins_ex; lia). rewrite B in H. lia.
Qed.
Example c172_never_lower_ex res : osr_sweep [1; 0; 0; 0] 1 [2] [0%nat] = Ok res ->
  let m := fst (fst (nth 0 (m_osr_loop (m_err_spec [1; 0; 0; 0]) 4 (1 ^ 2 / 2) [2] [0%nat] 0 0 0 [(Fin 0, Fin 0, Fin 0)]) (NaN, NaN, NaN))) in m = PInf \/ xle (fst (fst (nth 0 res (NaN, NaN, NaN)))) m.
Proof.
  intros E. apply (c172_never_lower [1; 0; 0; 0] 1 [2] [0%nat] [0%nat] res 0); try (cbn; lia); try lra; [intros x [<- | []]; lra | | | exact E]; split; try reflexivity; repeat constructor.
Qed.
Example c172_default_ex : m_band_bins 16 (nth 5 (m_default_osr 16) 0) = 3%nat.
Proof. exact (proj2 (proj2 (c172_default 16 ltac:(lia))) 3%nat ltac:(cbn; lia)). Qed.
Example c172_slope_ex : nth 1 (m_slopes [1; 10; 100] [20; 50; 80] None) NaN = Fin 30.
Proof.
  destruct (c172_slope [1; 10; 100] [20; 50; 80] None 1 ltac:(cbn; lia)) as (_ & H).
  - intros _ (k & E). cbn [length INR] in E. assert (Q : IZR (10 * k + 5) = IZR 3) by (rewrite plus_IZR, mult_IZR; lra). apply eq_IZR in Q. lia.
  - rewrite H, c127_slope_ex; [reflexivity |]. assert (W : m_smooth (length [1; 10; 100]) None = 1%Z) by (unfold m_smooth; cbn [length]; change ((Z.of_nat 3 - 1) / 2)%Z with 1%Z; lia). rewrite W. cbn [length]. change (Z.to_nat (Z.min (Z.of_nat 3 - 1) (Z.of_nat 1 + 1))) with 2%nat. change (Z.to_nat (Z.max 0 (Z.of_nat 1 - 1))) with 0%nat. cbn [nth].
    replace 100 with (10 ^ 2) by ring. rewrite lg_sqr, lg_10, lg_1 by lra. rewrite Rabs_right by lra. assert (1 < 10 ^ 15) by (apply Rlt_pow_R1; [lra | lia]). assert (1 / 10 ^ 15 < 1); [| lra]. apply (Rmult_lt_reg_r (10 ^ 15)); [lra |]. unfold Rdiv. rewrite Rmult_assoc, Rinv_l by lra. lra.
Qed.
Example c173_refuses_ex : ~ exists v, m_ntfperf [1; -1] [1; 0] 0 (3 / 5) = Ok v.
Proof. rewrite c173_refuses. lra. Qed.
Example c173_points_ex : fine_count m_ntf_points 0 (1 / 2) = 999999.
Proof.
  destruct (c173_points 0 (1 / 2) ltac:(lra) ltac:(lra) ltac:(lra)) as (-> & _). assert (Z1 : Zceil (2000000 * (1 / 2)) = 1000000%Z) by (apply Zceil_imp; split; simpl; lra). assert (Z2 : Zfloor (2000000 * 0) = 0%Z) by (rewrite Rmult_0_r; apply Zfloor_IZR). rewrite Z1, Z2. reflexivity.
Qed.
Example c173_flat_ex : m_ntfperf [1] [1] 0 (1 / 2) = Ok (Fin (- 10 * lg (999999 / 1000000))).
Proof.
  pose proof (c173_flat 1 [1] 0 (1 / 2) ltac:(lra) ltac:(lra) ltac:(lra) ltac:(lra) (fine_no_pole_1 _ _) ltac:(rewrite c173_points_ex; lra)) as F. cbn [map] in F. rewrite Rmult_1_l, c173_points_ex, Rabs_R1, lg_1 in F. rewrite F. f_equal. f_equal. ring.
Qed.
Example c173_fir_ex : fine_noise m_ntf_points [1; -1] [1; 0] 0 (1 / 2) = 2 - 4 / 2000000.
Proof. change [1; 0] with (delays 1). rewrite (proj1 (c173_fir [1; -1] 1 ltac:(cbn; lia))). unfold energy, ends. cbn [length rsum nth pow]. lra. Qed.
(** The first-order differencer over the whole band. *)
Example c173_formula_ex : m_ntfperf [1; -1] [1; 0] 0 (1 / 2) = Ok (Fin (- 10 * lg (2 - 4 / 2000000))).
Proof.
  rewrite c173_formula; [| lra | lra | lra | intros k _ _ Q; pose proof (circle_delays 1 (2 * PI * fine_point k)) as H; unfold delays in H; cbn [repeat] in H; rewrite Q in H; unfold Cmod2, C0 in H; cbn in H; lra].
  cbv zeta. rewrite c173_fir_ex. destruct (Rlt_dec 0 (2 - 4 / 2000000)); [reflexivity | lra].
Qed.
Example c173_full_band_ex : at_least (Fin (- 10 * lg (2 - 4 / 2000000))) (Fin (- 10 * lg (131068 / 65536))).
Proof. exact (c173_full_band [1; -1] 1 _ _ ltac:(discriminate) ltac:(cbn; lia) c173_formula_ex c124_first_order). Qed.
