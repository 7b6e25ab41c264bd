(** * Figures reported by compute_spectrum, cutoff, windows and orientation.
    The final lemmas are named c100_ .. c103_. *)
From Verif Require Import Base BaseLemmas Cplx FreqModel UnitsModel UnitsSpec UnitsProofs TiModel TiSpec TiProofs TiToneSpec TiToneProofs SpecModel SpecSpec SpecLemmas SpecProofs SpecMetricProofs SpecPrepProofs SpecToneSpec SpecToneProofs SpecReportSpec.
From Coq Require Import Psatz Permutation Sorted String List.
Local Open Scope string_scope.
Local Open Scope list_scope.
Local Open Scope R_scope.

(* ---------- C100: reported figures ---------- *)
Lemma analyse_more P M N nb fs osr wt w side mh nf assumed r :
  analyse_power P M N nb fs osr wt w side mh nf assumed = Ok r ->
  sp_harm_powers r = map (harmonic_power P (sp_fund r) (sp_side r)) (sp_harm_bins r) /\
  sp_collided r = collided (sp_fund r) (sp_side r) (sp_harm_bins r) /\
  sp_harm_dbc r = map (fun p => if Rltb 0 (sp_sig r) then db (p / sp_sig r) else NaN) (sp_harm_powers r) /\
  sp_sig_dbfs r = (match assumed with Some a => a | None => 10 * (ln (Rmax (sp_sig r) (/ 10 ^ 30)) / ln 10) end) /\
  sp_floor r = (match sp_noise r with Some v => xsub_l (sp_sig_dbfs r) (sp_snr r) | None => NaN end) /\
  sp_nsd r = (if xfinite (sp_floor r) then xsub (sp_floor r) (db (fs / (2 * osr))) else NaN).
Proof.
  unfold analyse_power. cbv zeta. unfold raise_if. destruct (mh <? 1)%Z; [discriminate |].
  set (sb := match side with Some s => s | None => _ end).
  destruct (estimate_noise _ _ _ _ _ _ _) as [noise|] eqn:EN; cbn [bind]; [| discriminate].
  intros H0. apply Ok_inj in H0. subst r.
  cbn [sp_power sp_inband sp_fund sp_frac sp_side sp_start sp_end sp_sig sp_sig_dbfs sp_harm_bins sp_thd_power sp_harm_powers sp_collided sp_spur_bin sp_spur_power sp_noise_dist sp_noise sp_sndr sp_enob sp_sfdr sp_thd sp_harm_dbc sp_snr sp_floor sp_nsd].
  split; [reflexivity |]. split; [reflexivity |]. split; [reflexivity |]. split; [destruct assumed; reflexivity |]. split; reflexivity.
Qed.
(** Signal power: without an assumed value it is the power of the window around the fundamental and its dBFS
    figure 10 lg of it (floored at 1e-30); an assumed level replaces both consistently. *)
Lemma c100_signal kz cz data fs sc wt side osr mh nf assumed cutoff r : compute_spectrum kz cz data fs sc wt side osr mh nf assumed cutoff = Ok r ->
  match assumed with
  | None => sp_sig r = selected_power (sp_inband r) (near (sp_fund r) (sp_side r)) (sp_power r) /\ sp_sig_dbfs r = 10 * lg (Rmax (sp_sig r) (/ 10 ^ 30))
  | Some a => sp_sig_dbfs r = a /\ 0 < sp_sig r /\ 10 * lg (sp_sig r) = a
  end.
Proof.
  intros H. apply compute_inv in H. destruct H as (rows & nb & P & EP & EI & EC & HA & Pn & LP & Hnb & HN).
  pose proof (analyse_fields _ _ _ _ _ _ _ _ _ _ _ _ _ HA) as (E1 & E2 & _ & _ & _ & _ & _ & E3 & _). destruct (analyse_more _ _ _ _ _ _ _ _ _ _ _ _ _ HA) as (_ & _ & _ & E4 & _).
  destruct assumed as [a |].
  - split; [exact E4 |]. rewrite E3. unfold pow10. split; [unfold Rpower; apply exp_pos |]. unfold lg, Rpower. rewrite ln_exp. assert (0 < ln 10) by (rewrite <- ln_1; apply ln_increasing; lra). field. lra.
  - rewrite E1, E2. split; [exact E3 | exact E4].
Qed.
(** ENOB is (SNDR - 1.76) / 6.02; without signal power SNDR is -inf and SFDR and THD are nan; with signal
    power THD and every harmonic level are 10 lg of the power ratio. *)
Lemma c100_ratios kz cz data fs sc wt side osr mh nf assumed cutoff r : compute_spectrum kz cz data fs sc wt side osr mh nf assumed cutoff = Ok r ->
  length (sp_harm_bins r) = (Z.to_nat mh - 1)%nat /\ length (sp_harm_powers r) = length (sp_harm_bins r) /\ length (sp_harm_dbc r) = length (sp_harm_bins r) /\ 0 <= sp_sig r /\
  (0 < sp_sig r ->
     (exists d, sp_sndr r = Fin d /\ sp_enob r = Fin ((d - 1.76) / 6.02)) /\
     sp_thd r = Fin (10 * lg (sp_thd_power r / sp_sig r)) /\
     forall i, (i < length (sp_harm_bins r))%nat -> nth i (sp_harm_dbc r) NaN = Fin (10 * lg (nth i (sp_harm_powers r) 0 / sp_sig r))) /\
  (sp_sig r = 0 -> sp_sndr r = NInf /\ sp_enob r = NInf /\ sp_sfdr r = NaN /\ sp_thd r = NaN /\ forall i, nth i (sp_harm_dbc r) NaN = NaN).
Proof.
  intros H. pose proof H as H'. apply compute_inv in H. destruct H as (rows & nb & P & EP & EI & EC & HA & Pn & LP & Hnb & HN).
  pose proof (analyse_fields _ _ _ _ _ _ _ _ _ _ _ _ _ HA) as (E1 & E2 & _ & _ & _ & _ & _ & E3 & E4 & E5 & _ & _ & E6 & _ & E7 & E8 & E9 & E10 & _). destruct (analyse_more _ _ _ _ _ _ _ _ _ _ _ _ _ HA) as (A1 & _ & A2 & _).
  assert (ND : 0 <= sp_noise_dist r) by (rewrite E6; apply rsum_nonneg; intros i _; destruct (outside _ _ _); [| lra]; destruct (Nat.lt_ge_cases i (length P)) as [I | I]; [apply Pn, nth_In, I | rewrite nth_overflow by exact I; lra]).
  assert (SG : 0 <= sp_sig r). { rewrite E3. destruct assumed; [unfold pow10, Rpower; left; apply exp_pos |]. apply rsum_nonneg. intros i _. destruct (near _ _ _); [| lra]. destruct (Nat.lt_ge_cases i (length P)) as [I | I]; [apply Pn, nth_In, I | rewrite nth_overflow by exact I; lra]. }
  pose proof (eps_pos 20) as T20. pose proof (eps_pos 15) as T15.
  split; [rewrite E4; unfold harmonic_bins; rewrite map_length, seq_length; reflexivity |]. split; [rewrite A1; apply map_length |]. split; [rewrite A2, A1, !map_length; reflexivity |]. split; [exact SG |].
  split.
  - intros SP. assert (LT : Rltb 0 (sp_sig r) = true) by (destruct (Rltb_spec 0 (sp_sig r)); [reflexivity | lra]). split; [| split].
    + exists (10 * lg (sp_sig r / (sp_noise_dist r + / 10 ^ 20))). rewrite E8, E7. unfold sndr_of. rewrite db_pos by (apply Rdiv_lt_0_compat; lra). split; [reflexivity |]. unfold enob_of, xaxpy. f_equal. lra.
    + rewrite E10, LT, db_pos; [reflexivity |]. apply Rdiv_lt_0_compat; [| exact SP]. rewrite E5. unfold thd_power. cbv zeta. eapply Rlt_le_trans; [exact T15 | apply Rmax_r].
    + intros i I. rewrite A2, LT. rewrite (nth_map_in _ _ _ 0) by (rewrite A1, map_length; exact I). apply db_pos. apply Rdiv_lt_0_compat; [| exact SP]. rewrite A1, (nth_map_in _ _ _ 0%Z) by exact I. unfold harmonic_power. destruct (counted _ _ _); [eapply Rlt_le_trans; [exact T15 | apply Rmax_r] | exact T15].
  - intros SZ. assert (LT : Rltb 0 (sp_sig r) = false) by (destruct (Rltb_spec 0 (sp_sig r)); [lra | reflexivity]).
    assert (SN : sp_sndr r = NInf). { rewrite E7. unfold sndr_of. rewrite SZ. unfold Rdiv. rewrite Rmult_0_l. unfold db, xlog10. destruct (Rltb_spec 0 0); [lra |]. destruct (Reqb_spec 0 0); [| lra]. unfold xaxpy. destruct (Rltb_spec 0 10); [reflexivity | lra]. }
    split; [exact SN |]. split; [rewrite E8, SN; unfold enob_of, xaxpy; destruct (Rltb_spec 0 (/ 6.02)); [reflexivity |]; assert (0 < / 6.02) by (apply Rinv_0_lt_compat; lra); lra |].
    split; [rewrite E9, LT; reflexivity |]. split; [rewrite E10, LT; reflexivity |]. intros i. rewrite A2, LT. destruct (Nat.lt_ge_cases i (length (sp_harm_powers r))) as [I | I]; [rewrite (nth_map_in _ _ _ 0) by exact I; reflexivity | apply nth_overflow; rewrite map_length; exact I].
Qed.
(** SNR, noise floor and noise density: with a noise power v, SNR = 10 lg (sig / v), noise floor = dBFS - SNR
    and NSD = noise floor - 10 lg (fs / (2 osr)); so without an assumed level the floor is 10 lg v.  Without a
    noise power all three are nan. *)
Lemma c100_noise kz cz data fs sc wt side osr mh nf assumed cutoff r : compute_spectrum kz cz data fs sc wt side osr mh nf assumed cutoff = Ok r -> 0 < fs ->
  match sp_noise r with
  | None => sp_snr r = NaN /\ sp_floor r = NaN /\ sp_nsd r = NaN
  | Some v => 0 < v /\ (0 < sp_sig r -> sp_snr r = Fin (10 * lg (sp_sig r / v)) /\ sp_floor r = Fin (sp_sig_dbfs r - 10 * lg (sp_sig r / v)) /\
                sp_nsd r = Fin (sp_sig_dbfs r - 10 * lg (sp_sig r / v) - 10 * lg (fs / (2 * osr))) /\
                (assumed = None -> / 10 ^ 30 <= sp_sig r -> sp_floor r = Fin (10 * lg v)))
  end.
Proof.
  intros H FS. pose proof (c100_signal _ _ _ _ _ _ _ _ _ _ _ _ _ H) as SG. apply compute_inv in H. destruct H as (rows & nb & P & EP & EI & EC & HA & Pn & LP & Hnb & HN).
  pose proof (analyse_fields _ _ _ _ _ _ _ _ _ _ _ _ _ HA) as (_ & _ & _ & _ & _ & _ & _ & _ & _ & _ & _ & _ & _ & E1 & _ & _ & _ & _ & E2 & _). destruct (analyse_more _ _ _ _ _ _ _ _ _ _ _ _ _ HA) as (_ & _ & _ & _ & A1 & A2).
  destruct (sp_noise r) as [v |].
  - pose proof (c29_positive _ _ _ _ _ _ _ _ E1) as V. pose proof (eps_pos 15) as T15. split; [lra |]. intros SP.
    assert (Q : 0 < sp_sig r / v) by (apply Rdiv_lt_0_compat; lra). rewrite (db_pos _ Q) in E2.
    assert (FL : sp_floor r = Fin (sp_sig_dbfs r - 10 * lg (sp_sig r / v))) by (rewrite A1, E2; unfold xsub_l, xaxpy; f_equal; ring).
    split; [exact E2 |]. split; [exact FL |]. split.
    + rewrite A2, FL. cbn [xfinite]. destruct (inband_ok_pos _ _ _ EI) as [_ OP]. rewrite db_pos by (apply Rdiv_lt_0_compat; lra). unfold xsub, xsub_l, xaxpy. f_equal. ring.
    + intros AN GE. subst assumed. destruct SG as (_ & SD). rewrite FL, SD, Rmax_left by exact GE. f_equal. assert (LD : ln (sp_sig r / v) = ln (sp_sig r) - ln v) by (unfold Rdiv; rewrite ln_mult, ln_Rinv by (try apply Rinv_0_lt_compat; lra); ring). unfold lg. rewrite LD. assert (0 < ln 10) by (rewrite <- ln_1; apply ln_increasing; lra). field. lra.
  - rewrite A1, A2. cbn [xfinite]. split; [exact E2 |]. split; [reflexivity |]. rewrite A1. reflexivity.
Qed.
(** A harmonic number is listed as collided exactly when its bin is within two half-widths of the fundamental. *)
Lemma c100_collided kz cz data fs sc wt side osr mh nf assumed cutoff r k : compute_spectrum kz cz data fs sc wt side osr mh nf assumed cutoff = Ok r ->
  In k (sp_collided r) <-> (2 <= k < 2 + length (sp_harm_bins r))%nat /\ (Z.abs (nth (k - 2) (sp_harm_bins r) 0%Z - Z.of_nat (sp_fund r)) <= 2 * Z.of_nat (sp_side r))%Z.
Proof.
  intros H. apply compute_inv in H. destruct H as (rows & nb & P & EP & EI & EC & HA & Pn & LP & Hnb & HN).
  destruct (analyse_more _ _ _ _ _ _ _ _ _ _ _ _ _ HA) as (_ & -> & _). unfold collided. set (hs := sp_harm_bins r).
  assert (NT : forall i, (i < length hs)%nat -> nth i (combine (seq 2 (length hs)) hs) (0%nat, 0%Z) = ((2 + i)%nat, nth i hs 0%Z)) by (intros i I; rewrite combine_nth by (apply seq_length); rewrite seq_nth by exact I; reflexivity).
  rewrite in_map_iff. split.
  - intros ((k', h) & <- & I). apply filter_In in I. destruct I as (I & F). apply (In_nth _ _ (0%nat, 0%Z)) in I. destruct I as (i & L & E). rewrite combine_length, seq_length, Nat.min_id in L. rewrite NT in E by exact L. injection E as <- <-. cbn [fst snd] in *. split; [lia |]. replace (S (S i) - 2)%nat with i by lia. unfold fund_collision in F. apply Z.leb_le in F. exact F.
  - intros (K & F). exists (k, nth (k - 2) hs 0%Z). split; [reflexivity |]. apply filter_In. split; [| unfold fund_collision; cbn [snd]; apply Z.leb_le; exact F].
    pose proof (NT (k - 2)%nat ltac:(lia)) as E. replace (2 + (k - 2))%nat with k in E by lia. rewrite <- E. apply nth_In. rewrite combine_length, seq_length. lia.
Qed.
Lemma c100_three_tones_ex kz cz : exists r d,
  compute_spectrum kz cz [map (multitone 64 3 7 (fun i => nth i [2; 0.02; 0.002] 0) (fun i => INR i) (fun i => nth i [5; 10; 15] 0)%nat) (seq 0 64)]
    1 (ScalePeak 2) Hann (Some 1%nat) 1 5 3 None 0 = Ok r /\
  sp_sig_dbfs r = 0 /\ sp_sndr r = Fin d /\ sp_enob r = Fin ((d - 1.76) / 6.02) /\ length (sp_harm_dbc r) = 4%nat.
Proof.
  destruct (c61_three_tones_ex kz cz) as (r & E & _ & S & _). destruct (c100_ratios _ _ _ _ _ _ _ _ _ _ _ _ _ E) as (L1 & L2 & L3 & _ & R & _). destruct (R ltac:(lra)) as ((d & D1 & D2) & _).
  exists r, d. split; [exact E |]. split; [| split; [exact D1 | split; [exact D2 | rewrite L3, L1; reflexivity]]].
  destruct (c100_signal _ _ _ _ _ _ _ _ _ _ _ _ _ E) as (_ & ->). rewrite S, Rmax_left; [unfold lg; rewrite ln_1; unfold Rdiv; ring |].
  rewrite <- Rinv_1. apply Rinv_le_contravar; [lra | apply pow_R1_Rle; lra].
Qed.

(* ---------- C101: cutoff ---------- *)
Lemma cutoff_nth P cutoff fs N Q i : 0 < cutoff -> 0 < fs -> (0 < N)%nat -> apply_cutoff P cutoff fs N = Ok Q -> (i < length P)%nat ->
  nth i Q 0 = if Rltb (INR i * fs / INR N) cutoff then / 10 ^ 20 else nth i P 0.
Proof.
  intros HC HF HN. unfold apply_cutoff. destruct (Rltb_spec 0 cutoff); [| lra]. destruct (Reqb_spec fs 0); [lra |]. cbv zeta. intros E I. apply Ok_inj in E. subst Q. rewrite map_seq_nth by exact I.
  pose proof (INR_pos N HN) as PN. set (x := cutoff / fs * INR N).
  assert (X : INR i * fs / INR N < cutoff <-> INR i < x).
  { unfold x. split; intros L.
    - apply (Rmult_lt_compat_r (INR N / fs)) in L; [| apply Rdiv_lt_0_compat; lra]. replace (INR i * fs / INR N * (INR N / fs)) with (INR i) in L by (field; lra). replace (cutoff * (INR N / fs)) with (cutoff / fs * INR N) in L by (field; lra). exact L.
    - apply (Rmult_lt_compat_r (fs / INR N)) in L; [| apply Rdiv_lt_0_compat; lra]. replace (cutoff / fs * INR N * (fs / INR N)) with cutoff in L by (field; lra). replace (INR i * (fs / INR N)) with (INR i * fs / INR N) in L by (field; lra). exact L. }
  assert (Y : INR i < x <-> (Z.of_nat i < Zceil x)%Z).
  { rewrite INR_IZR_INZ. split; intros L.
    - apply lt_IZR. eapply Rlt_le_trans; [exact L | apply Zceil_ub].
    - destruct (Rlt_le_dec (IZR (Z.of_nat i)) x) as [L' | L']; [exact L' |]. apply Zceil_glb in L'. lia. }
  destruct (Rltb_spec (INR i * fs / INR N) cutoff) as [L | L]; destruct (Nat.ltb_spec i (Z.to_nat (Z.min (Zceil x) (Z.of_nat (length P))))) as [L2 | L2]; try reflexivity; exfalso.
  - apply X, Y in L. lia.
  - apply (Rle_not_lt _ _ L), X, Y. lia.
Qed.
Lemma cutoff_length P cutoff fs N Q : apply_cutoff P cutoff fs N = Ok Q -> length Q = length P.
Proof. unfold apply_cutoff. destruct (Rltb 0 cutoff); [destruct (Reqb fs 0); [discriminate |] |]; cbv zeta; intros E; apply Ok_inj in E; subst Q; [rewrite map_length, seq_length; reflexivity | reflexivity]. Qed.
Lemma prepare_one l sc rows : prepare_fft_input [l] sc = Ok rows -> ncols rows = length l.
Proof.
  unfold prepare_fft_input. replace (orient [l]) with [l] by (unfold orient; cbn [length ncols hd]; change (1 <? 1)%nat with false; rewrite andb_false_r; reflexivity).
  destruct (peak_of [l] sc); cbn [bind]; [| discriminate]. intros E. apply Ok_inj in E. subst rows. unfold ncols. cbn [map hd]. apply map_length.
Qed.
(** The cutoff replaces exactly the bins below the cutoff frequency by 1e-20 and leaves the rest of the
    spectrum alone. *)
Lemma c101_cutoff_bins kz cz l fs sc wt side osr mh nf assumed cutoff r r0 i : 0 < fs -> 0 < cutoff ->
  compute_spectrum kz cz [l] fs sc wt side osr mh nf assumed cutoff = Ok r -> compute_spectrum kz cz [l] fs sc wt side osr mh nf assumed 0 = Ok r0 ->
  length (sp_power r) = length (sp_power r0) /\
  ((i < length (sp_power r0))%nat -> nth i (sp_power r) 0 = if Rltb (INR i * fs / INR (length l)) cutoff then / 10 ^ 20 else nth i (sp_power r0) 0).
Proof.
  intros HF HC H1 H2. apply compute_inv in H1, H2. destruct H1 as (rows & nb & P & EP & EI & EC & HA & _ & _ & _ & HN). destruct H2 as (rows0 & nb0 & P0 & EP0 & _ & EC0 & HA0 & _).
  rewrite EP in EP0. apply Ok_inj in EP0. subst rows0. apply analyse_fields in HA, HA0. destruct HA as (-> & _). destruct HA0 as (-> & _).
  unfold apply_cutoff in EC0. destruct (Rltb_spec 0 0); [lra |]. apply Ok_inj in EC0. rewrite EC0 in EC. split; [exact (cutoff_length _ _ _ _ _ EC) |].
  intros I. rewrite <- (prepare_one _ _ _ EP). apply (cutoff_nth _ _ _ _ _ _ HC HF HN EC I).
Qed.
(** A cutoff of zero or below does nothing; a positive one with fs = 0 raises ZeroDivisionError. *)
Lemma c101_no_cutoff kz cz data fs sc wt side osr mh nf assumed cutoff : cutoff <= 0 ->
  compute_spectrum kz cz data fs sc wt side osr mh nf assumed cutoff = compute_spectrum kz cz data fs sc wt side osr mh nf assumed 0.
Proof. intros H. unfold compute_spectrum, apply_cutoff. destruct (Rltb_spec 0 cutoff); [lra |]. destruct (Rltb_spec 0 0); [lra |]. reflexivity. Qed.
Lemma c101_zero_fs kz cz l wt side osr mh nf assumed cutoff p : 0 < cutoff -> 0 < osr -> l <> [] ->
  compute_spectrum kz cz [l] 0 (ScalePeak p) wt side osr mh nf assumed cutoff = Err ZeroDivisionError.
Proof.
  intros HC HO HL. unfold compute_spectrum. destruct (prepare_fft_input [l] (ScalePeak p)) as [rows | e] eqn:EP; [| discriminate]. cbn [bind]. rewrite (prepare_one _ _ _ EP).
  assert (LL : (0 < length l)%nat) by (destruct l; [contradiction | cbn [length]; lia]).
  destruct (inband_count (Z.of_nat (length l)) osr) as [nb | e] eqn:EI.
  - cbn [bind]. unfold apply_cutoff. destruct (Rltb_spec 0 cutoff); [| lra]. destruct (Reqb_spec 0 0); [reflexivity | lra].
  - exfalso. rewrite inband_eq in EI by (lia || lra). discriminate.
Qed.
Lemma c101_cutoff_ex : apply_cutoff [5; 6; 7; 8; 9] 2.5 8 8 = Ok [/ 10 ^ 20; / 10 ^ 20; / 10 ^ 20; 8; 9].
Proof.
  assert (E : exists Q, apply_cutoff [5; 6; 7; 8; 9] 2.5 8 8 = Ok Q) by (unfold apply_cutoff; destruct (Rltb_spec 0 2.5); [| lra]; destruct (Reqb_spec 8 0); [lra |]; eexists; reflexivity).
  destruct E as [Q E]. rewrite E. f_equal. apply (nth_ext _ _ 0 0); [rewrite (cutoff_length _ _ _ _ _ E); reflexivity |]. intros i I. rewrite (cutoff_length _ _ _ _ _ E) in I.
  rewrite (cutoff_nth [5; 6; 7; 8; 9] 2.5 8 8 Q i ltac:(lra) ltac:(lra) ltac:(lia) E I). cbn [length] in I. replace (INR 8) with 8 by (simpl; lra).
  do 5 (destruct i as [| i]; [cbn [nth]; match goal with |- context [Rltb ?a ?b] => destruct (Rltb_spec a b) as [L | L] end; first [reflexivity | exfalso; simpl in L; lra] |]). lia.
Qed.

(* ---------- C102: interpolation ---------- *)
Lemma frac_cases P nb f : f = fundamental_bin P nb -> (0 < f)%nat -> (f + 1 < Nat.min nb (length P))%nat ->
  let y k := lg (Rmax (nth k P 0) (/ 10 ^ 20)) in
  fundamental_frac P nb = if Rleb (y f - 4) (Rmin (y (f - 1)%nat) (y (f + 1)%nat)) then
    (if Reqb (2 * (2 * y f - y (f - 1)%nat - y (f + 1)%nat)) 0 then INR f else INR f + (y (f + 1)%nat - y (f - 1)%nat) / (2 * (2 * y f - y (f - 1)%nat - y (f + 1)%nat))) else INR f.
Proof.
  intros E F1 F2 y. unfold fundamental_frac. cbv zeta. rewrite <- E. rewrite firstn_len_min. destruct (Nat.ltb_spec 0 f); [| lia]. destruct (Nat.ltb_spec f (Nat.min nb (length P) - 1)); [| lia]. cbn [andb].
  rewrite !nth_firstn_lt by lia. unfold y, lg, log_floor. reflexivity.
Qed.
(** Parabolic interpolation on the log spectrum is exact for a log-parabolic peak: it returns the true centre. *)
Lemma c102_parabola_exact P nb f c a x : f = fundamental_bin P nb -> (0 < f)%nat -> (f + 1 < Nat.min nb (length P))%nat -> 0 < a ->
  (forall k, (f - 1 <= k <= f + 1)%nat -> nth k P 0 = Rpower 10 (c - a * (INR k - x) ^ 2) /\ -20 <= c - a * (INR k - x) ^ 2 /\ c - a * (INR f - x) ^ 2 - 4 <= c - a * (INR k - x) ^ 2) ->
  fundamental_frac P nb = x.
Proof.
  intros E F1 F2 A H. rewrite (frac_cases P nb f E F1 F2). cbv zeta.
  assert (L10 : 0 < ln 10) by (rewrite <- ln_1; apply ln_increasing; lra).
  assert (Y : forall k, (f - 1 <= k <= f + 1)%nat -> lg (Rmax (nth k P 0) (/ 10 ^ 20)) = c - a * (INR k - x) ^ 2).
  { intros k K. destruct (H k K) as (-> & G & _). rewrite Rmax_left; [unfold lg, Rpower; rewrite ln_exp; field; lra |].
    replace (/ 10 ^ 20) with (Rpower 10 (-20)); [apply Rle_Rpower; lra |]. rewrite <- (Rpower_pow 20 10) by lra. rewrite <- Rpower_Ropp. f_equal. rewrite INR_IZR_INZ. simpl. lra. }
  rewrite !Y by lia. destruct (H (f - 1)%nat ltac:(lia)) as (_ & _ & G1). destruct (H (f + 1)%nat ltac:(lia)) as (_ & _ & G2).
  rewrite minus_INR in * by lia. rewrite plus_INR in *. change (INR 1) with 1 in *. set (F := INR f) in *.
  destruct (Rleb_spec (c - a * (F - x) ^ 2 - 4) (Rmin (c - a * (F - 1 - x) ^ 2) (c - a * (F + 1 - x) ^ 2))) as [_ | N]; [| exfalso; apply (Rlt_not_le _ _ N), Rmin_glb; assumption].
  replace (2 * (2 * (c - a * (F - x) ^ 2) - (c - a * (F - 1 - x) ^ 2) - (c - a * (F + 1 - x) ^ 2))) with (4 * a) by ring.
  destruct (Reqb_spec (4 * a) 0); [lra |]. field. lra.
Qed.
(** No interpolation at the last in-band bin, or when a neighbour is more than four decades below. *)
Lemma c102_no_interpolation P nb f : f = fundamental_bin P nb ->
  ((f + 1 >= Nat.min nb (length P))%nat \/
   (0 < f)%nat /\ exists k, (k = f - 1 \/ k = f + 1)%nat /\ lg (Rmax (nth k P 0) (/ 10 ^ 20)) < lg (Rmax (nth f P 0) (/ 10 ^ 20)) - 4) ->
  fundamental_frac P nb = INR f.
Proof.
  intros E [L | (F1 & k & K & L)].
  - unfold fundamental_frac. cbv zeta. rewrite <- E, firstn_len_min. destruct (Nat.ltb_spec f (Nat.min nb (length P) - 1)); [lia |]. rewrite andb_false_r. reflexivity.
  - destruct (Nat.le_gt_cases (Nat.min nb (length P)) (f + 1)) as [G | G].
    + unfold fundamental_frac. cbv zeta. rewrite <- E, firstn_len_min. destruct (Nat.ltb_spec f (Nat.min nb (length P) - 1)); [lia |]. rewrite andb_false_r. reflexivity.
    + rewrite (frac_cases P nb f E F1 G). cbv zeta.
      match goal with |- context [Rleb ?a ?b] => destruct (Rleb_spec a b) as [Q | _]; [exfalso | reflexivity] end.
      match type of Q with _ <= Rmin ?u ?v => pose proof (Rmin_l u v); pose proof (Rmin_r u v) end. destruct K as [-> | ->]; lra.
Qed.
Lemma c102_peak_ex : fundamental_bin [1; 10; 100; 100; 10] 5 = 2%nat /\ fundamental_frac [1; 10; 100; 100; 10] 5 = 5 / 2.
Proof.
  assert (B : fundamental_bin [1; 10; 100; 100; 10] 5 = 2%nat).
  { unfold fundamental_bin. cbn [firstn length Nat.ltb Nat.leb tl argmax argmax_from]. repeat (match goal with |- context [Rltb ?a ?b] => destruct (Rltb_spec a b); try lra end; cbn [argmax_from]). reflexivity. }
  split; [exact B |]. rewrite (frac_cases _ 5 2 (eq_sym B)) by (cbn [length]; lia). cbv zeta. cbn [nth Nat.sub Nat.add].
  pose proof (eps_pos 20) as E20. assert (/ 10 ^ 20 <= 1) by (rewrite <- Rinv_1; apply Rinv_le_contravar; [lra | apply pow_R1_Rle; lra]).
  rewrite !Rmax_left by lra. replace 100 with (10 * 10) by lra. rewrite lg_mult, lg_10 by lra.
  destruct (Rleb_spec (1 + 1 - 4) (Rmin 1 (1 + 1))) as [_ | N]; [| exfalso; apply (Rlt_not_le _ _ N), Rmin_glb; lra].
  destruct (Reqb_spec (2 * (2 * (1 + 1) - 1 - (1 + 1))) 0); [lra |]. simpl. lra.
Qed.

(* ---------- C103: windows ---------- *)
Lemma cos_shift_even x : cos (2 * (x - PI)) = cos (2 * x).
Proof. replace (2 * (x - PI)) with (- (2 * PI - 2 * x)) by ring. rewrite cos_neg. rewrite cos_minus, cos_2PI, sin_2PI. ring. Qed.
Lemma cos_shift_odd x : cos (x - PI) = - cos x.
Proof. rewrite cos_minus, cos_PI, sin_PI. ring. Qed.
Lemma cos_shift3 x : cos (3 * (x - PI)) = - cos (3 * x).
Proof. replace (3 * (x - PI)) with (2 * (3 / 2 * x - PI) - PI) by field. rewrite cos_shift_odd, cos_shift_even. do 2 f_equal. field. Qed.
Lemma cos_shift4 x : cos (4 * (x - PI)) = cos (4 * x).
Proof. replace (4 * (x - PI)) with (2 * ((2 * x - PI) - PI)) by ring. rewrite !cos_shift_even. f_equal. ring. Qed.
(** Every sample of the five cosine windows, and of the rectangular one. *)
Lemma c103_samples kz cz N n : (2 <= N)%nat -> (n < N)%nat -> let t := 2 * PI * INR n / INR N in let w k := nth n (create_window kz cz k N) 0 in
  w Boxcar = 1 /\ w Hann = hann_at t /\ w Hamming = hamming_at t /\ w Blackman = blackman_at t /\ w BlackmanHarris = blackmanharris_at t /\ w Flattop = flattop_at t.
Proof.
  intros HN Hn t w. unfold w, create_window. split; [rewrite (nth_indep _ 0 1), nth_repeat by (rewrite repeat_length; exact Hn); reflexivity |].
  rewrite !cos_window_nth by assumption. unfold cosw, win_coefs. cbn [length rsum nth]. fold t. rewrite !INR_IZR_INZ. cbn [Z.of_nat Pos.of_succ_nat Pos.succ].
  rewrite !Rmult_0_l, !Rmult_1_l, cos_0, cos_shift_odd, cos_shift_even, cos_shift3, cos_shift4. unfold hann_at, hamming_at, blackman_at, blackmanharris_at, flattop_at. repeat split; lra.
Qed.
(** Kaiser and Chebyshev windows are the supplied ones; every other window has N samples. *)
Lemma c103_length kz cz k N : create_window kz cz Kaiser N = kz N /\ create_window kz cz Chebwin N = cz N /\ (k <> Kaiser -> k <> Chebwin -> length (create_window kz cz k N) = N).
Proof. split; [reflexivity |]. split; [reflexivity |]. intros H1 H2. rewrite cosine_window by assumption. apply cos_window_length. Qed.
Lemma gain_enbw a N : nth 0 a 0 <> 0 -> (2 <= N)%nat -> (2 * (length a - 1) < N)%nat ->
  window_gain (cos_window a N) = nth 0 a 0 /\ enbw_factor (cos_window a N) = lobe_power a / nth 0 a 0 ^ 2.
Proof.
  intros H0 H2 HN. assert (Ha : a <> []) by (intros ->; apply H0; reflexivity). pose proof (INR_pos N ltac:(lia)) as PN.
  assert (S1 : lsum (cos_window a N) = INR N * nth 0 a 0).
  { rewrite lsum_rsum, cos_window_length, <- cosw_sum by exact HN. apply rsum_ext. intros n Hn. apply cos_window_nth; assumption. }
  assert (S2 : lsum (map (fun x => x ^ 2) (cos_window a N)) = INR N * lobe_power a).
  { rewrite lsum_rsum, map_length, cos_window_length, <- cosw_square by assumption. apply rsum_ext. intros n Hn.
    rewrite (nth_map_in _ _ _ 0) by (rewrite cos_window_length; exact Hn). rewrite cos_window_nth by assumption. reflexivity. }
  unfold window_gain, enbw_factor. rewrite S1, S2, cos_window_length. split; field; lra.
Qed.
(** Coherent gain and equivalent noise bandwidth, exactly, at every length above twice the lobe width. *)
Lemma c103_gain kz cz N : (2 <= N)%nat -> let g k := window_gain (create_window kz cz k N) in let e k := enbw_factor (create_window kz cz k N) in
  g Boxcar = 1 /\ e Boxcar = 1 /\
  ((2 < N)%nat -> g Hann = 0.5 /\ e Hann = 1.5 /\ g Hamming = 0.54 /\ e Hamming = 0.3974 / 0.2916) /\
  ((4 < N)%nat -> g Blackman = 0.42 /\ e Blackman = 0.3046 / 0.1764) /\
  ((6 < N)%nat -> g BlackmanHarris = 0.35875 /\ Rabs (e BlackmanHarris - 2.0043529) < 0.0000001) /\
  ((8 < N)%nat -> g Flattop = 0.21557895 /\ Rabs (e Flattop - 3.7702464) < 0.0000001).
Proof.
  intros HN g e. unfold g, e. 
  assert (X : forall k, k <> Kaiser -> k <> Chebwin -> (2 * (length (win_coefs k) - 1) < N)%nat -> window_gain (create_window kz cz k N) = nth 0 (win_coefs k) 0 /\ enbw_factor (create_window kz cz k N) = lobe_power (win_coefs k) / nth 0 (win_coefs k) 0 ^ 2).
  { intros k H1 H2 L. rewrite cosine_window by assumption. apply gain_enbw; [| exact HN | exact L]. destruct (window_peaked k) as [Q _]. lra. }
  destruct (X Boxcar ltac:(discriminate) ltac:(discriminate) ltac:(cbn [win_coefs length]; lia)) as [-> ->].
  split; [reflexivity |]. split; [unfold lobe_power, lobe; cbn [win_coefs length Nat.sub rsum nth Nat.eqb]; field |].
  split; [intros L; destruct (X Hann ltac:(discriminate) ltac:(discriminate) ltac:(cbn [win_coefs length]; lia)) as [-> ->]; destruct (X Hamming ltac:(discriminate) ltac:(discriminate) ltac:(cbn [win_coefs length]; lia)) as [-> ->]; unfold lobe_power, lobe; cbn [win_coefs length Nat.sub rsum nth Nat.eqb]; repeat split; lra |].
  split; [intros L; destruct (X Blackman ltac:(discriminate) ltac:(discriminate) ltac:(cbn [win_coefs length]; lia)) as [-> ->]; unfold lobe_power, lobe; cbn [win_coefs length Nat.sub rsum nth Nat.eqb]; split; lra |].
  split; [intros L; destruct (X BlackmanHarris ltac:(discriminate) ltac:(discriminate) ltac:(cbn [win_coefs length]; lia)) as [-> ->]; unfold lobe_power, lobe; cbn [win_coefs length Nat.sub rsum nth Nat.eqb]; split; [reflexivity | apply Rabs_def1; lra] |].
  intros L; destruct (X Flattop ltac:(discriminate) ltac:(discriminate) ltac:(cbn [win_coefs length]; lia)) as [-> ->]; unfold lobe_power, lobe; cbn [win_coefs length Nat.sub rsum nth Nat.eqb]; split; [reflexivity | apply Rabs_def1; lra].
Qed.
(** The default half-width is exact: a coherent tone through a cosine window puts power into the bins within
    default_side_bin of its own and into no other. *)
Lemma c103_leakage kz cz wt N J A ph b : wt <> Kaiser -> wt <> Chebwin -> A <> 0 -> let K := default_side_bin wt in (K < J)%nat -> (2 * (J + K) < N)%nat -> (b <= N / 2)%nat ->
  Cmod (rdft N (fun n => A * cos (2 * PI * INR J * INR n / INR N + ph) * nth n (create_window kz cz wt N) 0) b) <> 0 <-> (bin_dist b J <= K)%nat.
Proof.
  intros H1 H2 HA K HJ HN Hb. assert (LK : (length (win_coefs wt) - 1)%nat = K) by (apply window_lobe; assumption). assert (NE : win_coefs wt <> []) by (destruct wt; discriminate).
  rewrite cosine_window by assumption.
  destruct (wtone_rdft (win_coefs wt) N J A ph b NE ltac:(lia) ltac:(lia) Hb) as [th E].
  rewrite (rdft_ext N _ (fun n => A * cos (2 * PI * INR J * INR n / INR N + ph) * cosw (win_coefs wt) N n)) by (intros n Hn; rewrite cos_window_nth by lia; reflexivity).
  rewrite E, Cmod_scale, Cmod_cis, Rmult_1_r. pose proof (INR_pos N ltac:(lia)) as PN. split.
  - intros Z. destruct (Nat.le_gt_cases (bin_dist b J) K) as [L | L]; [exact L |]. exfalso. apply Z. rewrite lobe_zero by (pose proof (len_a _ NE); lia). rewrite Rmult_0_r. apply Rabs_R0.
  - intros L. apply Rabs_no_R0. apply Rmult_integral_contrapositive_currified; [unfold Rdiv; repeat apply Rmult_integral_contrapositive_currified; lra |].
    set (d := bin_dist b J) in *. unfold K in L. unfold lobe. destruct wt; try contradiction; cbn [default_side_bin] in L; do 5 (destruct d as [| d]; [cbn [Nat.eqb win_coefs nth]; first [lra | lia] |]); lia.
Qed.
(** The name table: unknown names mean Hann; automatic fallback half-widths. *)
Lemma c103_names s :
  (win_of_name s = Boxcar <-> s = "boxcar" \/ s = "rectangular") /\ (win_of_name s = Hamming <-> s = "hamming") /\ (win_of_name s = Blackman <-> s = "blackman") /\
  (win_of_name s = BlackmanHarris <-> s = "blackmanharris") /\ (win_of_name s = Flattop <-> s = "flattop") /\ (win_of_name s = Kaiser <-> s = "kaiser") /\ (win_of_name s = Chebwin <-> s = "chebwin").
Proof.
  unfold win_of_name.
  repeat (match goal with |- context [(?a =? ?b)%string] => destruct (String.eqb_spec a b) as [-> | ] end);
  repeat split; intros Q; try discriminate; try reflexivity; try (left; reflexivity); try (right; reflexivity); try (destruct Q as [Q | Q]); try discriminate; try (subst; contradiction).
Qed.
Lemma c103_half_widths : map default_side_bin [Boxcar; Hann; Hamming; Blackman; BlackmanHarris; Flattop; Kaiser; Chebwin] = [0; 1; 1; 2; 3; 4; 8; 4]%nat /\
  forall w, auto_fallback w = (default_side_bin w + (match w with Boxcar => 1 | _ => 2 end))%nat.
Proof. split; [reflexivity | intros []; reflexivity]. Qed.
Lemma c103_hann_ex kz cz : create_window kz cz Hann 4 = [0; 1 / 2; 1; 1 / 2].
Proof.
  apply (nth_ext _ _ 0 0); [reflexivity |]. intros i I. cbn [length create_window] in I. rewrite cos_window_length in I.
  destruct (c103_samples kz cz 4 i ltac:(lia) I) as (_ & E & _). rewrite E. unfold hann_at. replace (2 * PI * INR i / INR 4) with (INR i * (PI / 2)) by (simpl; field).
  destruct i as [| [| [| [| i]]]]; [| | | | lia]; cbn [nth]; rewrite INR_IZR_INZ; cbn [Z.of_nat Pos.of_succ_nat Pos.succ].
  - rewrite Rmult_0_l, cos_0. lra.
  - rewrite Rmult_1_l, cos_PI2. lra.
  - replace (2 * (PI / 2)) with PI by field. rewrite cos_PI. lra.
  - rewrite cos_3PI2. lra.
Qed.

(* ---------- C51: orientation ---------- *)
(** A tall capture is read column by column: record i of the result is column i with its mean removed, divided
    by the peak; any other capture is read row by row. *)
Lemma c51_orientation M K data p rows : rect M K data -> (0 < M)%nat -> (0 < K)%nat -> p <> 0 -> prepare_fft_input data (ScalePeak p) = Ok rows ->
  let x i j := nth j (nth i data []) 0 in
  (tall M K -> rect K M rows /\ forall i j, (i < K)%nat -> (j < M)%nat -> nth j (nth i rows []) 0 = (x j i - rsum M (fun m => x m i) / INR M) / p) /\
  (~ tall M K -> rect M K rows /\ forall i j, (i < M)%nat -> (j < K)%nat -> nth j (nth i rows []) 0 = (x i j - rsum K (fun m => x i m) / INR K) / p).
Proof.
  intros HR HM HK HP E x. unfold prepare_fft_input in E. cbn [peak_of bind] in E. apply Ok_inj in E. subst rows.
  assert (G : forall M K d, rect M K d -> let rows := map (fun row => map (fun v => if Reqb p 0 then v - lmean row else (v - lmean row) / p) row) d in
     rect M K rows /\ forall i j, (i < M)%nat -> (j < K)%nat -> nth j (nth i rows []) 0 = (nth j (nth i d []) 0 - rsum K (fun m => nth m (nth i d []) 0) / INR K) / p).
  { clear - HP. intros M K d [L1 L2] rows.
    assert (NR : forall i, (i < M)%nat -> nth i rows [] = map (fun v => if Reqb p 0 then v - lmean (nth i d []) else (v - lmean (nth i d [])) / p) (nth i d [])) by (intros i Hi; unfold rows; rewrite (nth_map_in _ _ _ []) by lia; reflexivity).
    split; [split; [unfold rows; rewrite map_length; exact L1 | intros i Hi; rewrite NR, map_length by exact Hi; apply L2, Hi] |].
    intros i j Hi Hj. rewrite NR by exact Hi. rewrite (nth_map_in _ _ _ 0) by (rewrite L2; assumption). destruct (Reqb_spec p 0); [contradiction |]. unfold lmean. rewrite lsum_rsum, L2 by exact Hi. reflexivity. }
  assert (T : orient data = if ((K =? 1) && (1 <? M) || (1 <? M) && (1 <? K) && (K * 2 <? M))%nat then transpose K data else data).
  { unfold orient. cbv zeta. rewrite (rect_ncols M K data HR HM). destruct HR as [-> _]. destruct ((K =? 1) && (1 <? M))%nat; [reflexivity |]. cbn [orb]. reflexivity. }
  rewrite T. clear T. split; intros TL.
  - assert (B : ((K =? 1) && (1 <? M) || (1 <? M) && (1 <? K) && (K * 2 <? M))%nat = true).
    { unfold tall in TL. destruct (Nat.eqb_spec K 1), (Nat.ltb_spec 1 M), (Nat.ltb_spec 1 K), (Nat.ltb_spec (K * 2) M); cbn [andb orb]; try reflexivity; exfalso; lia. }
    rewrite B. destruct HR as [R1 R2]. destruct (G K M (transpose K data) (transpose_rect M K data R1)) as [G1 G2]. split; [exact G1 |]. intros i j Hi Hj. rewrite G2 by assumption.
    rewrite transpose_nth by lia. f_equal. f_equal. f_equal. apply rsum_ext. intros m Hm. apply transpose_nth; lia.
  - assert (B : ((K =? 1) && (1 <? M) || (1 <? M) && (1 <? K) && (K * 2 <? M))%nat = false).
    { unfold tall in TL. destruct (Nat.eqb_spec K 1), (Nat.ltb_spec 1 M), (Nat.ltb_spec 1 K), (Nat.ltb_spec (K * 2) M); cbn [andb orb]; try reflexivity; exfalso; lia. }
    rewrite B. apply G, HR.
Qed.
Lemma c51_tall_ex : prepare_fft_input [[1; 2]; [3; 2]; [1; 2]; [3; 2]; [2; 7]] (ScalePeak 1) = Ok [[-1; 1; -1; 1; 0]; [-1; -1; -1; -1; 4]].
Proof.
  unfold prepare_fft_input. change (orient [[1; 2]; [3; 2]; [1; 2]; [3; 2]; [2; 7]]) with [[1; 3; 1; 3; 2]; [2; 2; 2; 2; 7]]. cbn [peak_of bind map]. destruct (Reqb_spec 1 0); [lra |].
  unfold lmean. cbn [lsum length]. change (INR 5) with (1 + 1 + 1 + 1 + 1). f_equal. repeat (apply f_equal2; [| try reflexivity]); try reflexivity; try field; try lra.
Qed.

(* ---------- C28: the automatic window's floor ---------- *)
Lemma median_middle l m : l <> [] -> middle_of l m -> median l = m.
Proof.
  intros HL (u & P1 & S1 & ->). unfold median. cbv zeta. replace (sortR l) with u; [rewrite (Permutation_length P1); reflexivity |].
  apply sorted_unique; [exact S1 | apply sortR_sorted |]. rewrite P1. symmetry. apply sortR_perm.
Qed.
(** Which floor and scale the automatic half-width uses: the floor is the middle of the in-band bins above
    1e-20 if there are at least three of those, else of all in-band bins, but at least 1e-24 of the peak; the
    ideal leakage is scaled to the peak of the measured spectrum. *)
Lemma c28_auto_reference P f frac nb N w corr fallback minimum med : (f < nb)%nat -> (0 < Nat.min nb (length P))%nat ->
  let big := filter (fun p => Rltb (/ 10 ^ 20) p) (firstn nb P) in
  middle_of (if (3 <=? length big)%nat then big else firstn nb P) med ->
  let sp := map (fun p => p * corr) (power_average N [map2 Rmult (map (fun n => sin (2 * PI * frac * INR n / INR N)) (seq 0 N)) w]) in
  let peak := Rmax (nth f P 0) (/ 10 ^ 30) in
  let fl := Rmax med (peak * / 10 ^ 24) in
  let ideal k := nth k sp 0 * (peak / Rmax (nth f sp 0) (/ 10 ^ 30)) in
  let sb := side_bin_auto P f frac nb N w corr fallback minimum in
  let mx := Nat.min f (nb - 1 - f) in let mn := Nat.min minimum mx in
  (exists s, (1 <= s <= mx)%nat /\ ideal (f - s)%nat <= fl /\ ideal (f + s)%nat <= fl /\
     (forall s', (1 <= s' < s)%nat -> fl < ideal (f - s')%nat \/ fl < ideal (f + s')%nat) /\ sb = Nat.max (s - 1) mn) \/
  ((forall s, (1 <= s <= mx)%nat -> fl < ideal (f - s)%nat \/ fl < ideal (f + s)%nat) /\ sb = Nat.min (Nat.max fallback mn) mx).
Proof.
  intros Hf HB big HM sp peak fl ideal sb mx mn.
  assert (MD : (if (3 <=? length big)%nat then median big else median (firstn nb P)) = med).
  { destruct (Nat.leb_spec 3 (length big)) as [L | L]; apply median_middle; try exact HM; intros Z.
    - rewrite Z in L. cbn [length] in L. lia.
    - apply (f_equal (@length R)) in Z. rewrite firstn_len_min in Z. cbn [length] in Z. lia. }
  unfold sb, side_bin_auto. cbv zeta. fold sp. fold peak. fold big. rewrite MD. fold fl. fold mx. fold mn.
  assert (ID : forall k, nth k (map (fun p => p * (peak / Rmax (nth f sp 0) (/ 10 ^ 30))) sp) 0 = ideal k).
  { intros k. unfold ideal. destruct (Nat.lt_ge_cases k (length sp)) as [I | I]; [rewrite (nth_map_in _ _ _ 0) by exact I; reflexivity |]. rewrite !nth_overflow by (rewrite ?map_length; exact I). ring. }
  set (idl := map _ sp) in *.
  pose proof (first_below_spec idl fl nb f mn mx 1 ltac:(unfold mx; lia) ltac:(unfold mx; lia)) as H.
  destruct (first_below idl fl nb f mn 1 mx) as [r |].
  - left. destruct H as (s & R1 & R2 & R3 & R4 & R5). exists s. rewrite <- !ID. split; [lia |]. split; [exact R2 |]. split; [exact R3 |]. split; [intros s' Hs'; rewrite <- !ID; apply R4; lia | exact R5].
  - right. split; [| reflexivity]. intros s Hs. rewrite <- !ID. apply H. lia.
Qed.
