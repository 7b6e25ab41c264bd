(** * Proofs about the spectrum plots (C136-C140). *)
From Coq Require Import Sorted Permutation String.
From Verif Require Import Base BaseLemmas Cplx FreqModel FreqProofs UnitsModel UnitsSpec UnitsProofs TiModel TiProofs TiToneProofs SpecModel SpecLemmas SpecSpec SpecProofs SpecMetricProofs SpecToneSpec SpecToneProofs SpecReportSpec SpecReportProofs PlaneProofs PlotModel PlotSpec.
Local Open Scope list_scope.
Local Open Scope R_scope.

(* ---------- C136: axes ---------- *)
(** The lower end of the level axis is the highest multiple of the step that is the margin below the given
    level, unless that is below the smallest allowed end; the given level itself is on the axis unless it is
    below that end. *)
Lemma c136_axis_min l step (margin : Z) floor fb : 0 < step ->
  let m := axis_min (Fin l) step (IZR margin) floor fb in
  floor <= m /\
  (floor + (IZR margin + 1) * step <= l -> multiple_of step m /\ m <= l - IZR margin * step < m + step) /\
  (0 <= IZR margin -> floor <= l -> m <= l) /\
  (forall k : Z, IZR k * step <= l - IZR margin * step -> IZR k * step <= m).
Proof.
  intros Hs m. unfold m, axis_min. cbv zeta.
  pose proof (Zfloor_lb (l / step)) as A. pose proof (Zfloor_ub (l / step)) as B.
  set (q := Zfloor (l / step)) in *.
  assert (E : l = l / step * step) by (field; lra).
  assert (A' : IZR q * step <= l) by (rewrite E at 1; apply Rmult_le_compat_r; lra).
  assert (B' : l < (IZR q + 1) * step) by (rewrite E at 1; apply Rmult_lt_compat_r; lra).
  split; [apply Rmax_r |]. split; [| split].
  - intros H. rewrite Rmax_left by nra. split; [exists (q - margin)%Z; rewrite minus_IZR; ring | split; nra].
  - intros H1 H2. apply Rmax_lub; [nra | exact H2].
  - intros k Hk. eapply Rle_trans; [| apply Rmax_l].
    assert (IZR (k + margin) <= l / step) by (apply Rmult_le_reg_r with step; [lra |]; rewrite <- E, plus_IZR; lra).
    assert (k + margin <= q)%Z by (apply Zfloor_lub; exact H).
    apply IZR_le in H0. rewrite plus_IZR in H0. nra.
Qed.
Lemma c136_axis_min_ex : axis_min (Fin (-93)) 20 1 (-200) None = -120 /\ axis_min (Fin (-230)) 20 1 (-200) None = -200.
Proof.
  split.
  - destruct (c136_axis_min (-93) 20 1 (-200) None ltac:(lra)) as (_ & M & _ & _). destruct M as [[k Ek] [M1 M2]]; [lra |].
    rewrite Ek in *. assert (k = -6)%Z; [| subst; lra]. assert (-7 < k < -5)%Z; [| lia]. split; apply lt_IZR; lra.
  - unfold axis_min. apply Rmax_right. pose proof (Zfloor_lb (-230 / 20)). set (q := Zfloor _) in *. lra.
Qed.
(** Without a finite level the second choice is used, and without that one too the axis ends at -100 dB. *)
Lemma c136_axis_fallback level fb step margin floor : xfinite level = false ->
  (forall l, fb = Some (Fin l) -> axis_min level step margin floor fb = axis_min (Fin l) step margin floor None) /\
  ((forall l, fb <> Some (Fin l)) -> axis_min level step margin floor fb = -100).
Proof.
  intros H. split.
  - intros l ->. destruct level; [discriminate | reflexivity ..].
  - intros N. destruct level as [x | | |]; [discriminate H | | |]; unfold axis_min; (destruct fb as [[l | | |] |]; [destruct (N l eq_refl) | reflexivity ..]).
Qed.
Lemma c136_axis_fallback_ex : axis_min NaN 20 1 (-200) (Some (Fin (-93))) = -120 /\ axis_min PInf 20 1 (-200) (Some NInf) = -100.
Proof.
  split; [| reflexivity]. destruct (c136_axis_fallback NaN (Some (Fin (-93))) 20 1 (-200) eq_refl) as [H _]. rewrite (H _ eq_refl). apply c136_axis_min_ex.
Qed.

(** A successful plot, opened. *)
Lemma plot_ok xa p st sl up fig : plot_spectrum xa p st sl up = Ok fig ->
  exists spur_db nb hs x inband fund, nget (pi_db p) (pi_spur p) = Ok spur_db /\ inband_count (Z.of_nat (pi_N p)) (pi_osr p) = Ok nb /\ harmonics p = Ok hs /\
  firstn (Z.to_nat nb) (pi_db p) = x :: inband /\
  (sl = true -> exists a b, fund = (a, b) /\ nget (pi_freq p) (pi_fund p) = Ok a /\ nget (pi_db p) (pi_fund p) = Ok b) /\
  let N := INR (pi_N p) in let fs := pi_fs p in let ratio := INR (pi_fund p) / N in
  let minx := match line_level p with Fin _ => Rmin (Rmax (median (x :: inband) - 20) (-200)) (-40)
              | _ => noise_floor_axis_min (line_level p) (Some (xsub_l (pi_sig p) (pi_sndr p))) end in
  let spur_x := INR (pi_spur p) / N * fs in
  fig = {| fg_curve := combine (pi_freq p) (pi_db p); fg_xlim := (fs / N, fs / 2); fg_ylim := (minx, 0);
            fg_marks := if sl then Some
              {| mk_span := combine (slice (pi_start p) (pi_end p) (pi_freq p)) (slice (pi_start p) (pi_end p) (pi_db p));
                 mk_fund := fund; mk_harm := drawn_harmonics p up hs; mk_spur := (spur_x, spur_db);
                 mk_spur_label := refresh_spur minx 0 (Fin spur_db) (xa spur_x spur_db) 10 8;
                 mk_osr_line := Some (fs / 2 / pi_osr p); mk_noise_line := noise_line p; mk_block_x := block_x p;
                 mk_rows := metric_rows p (format_fin (ratio * fs));
                 mk_sig_x := if Rltb 1 (pi_osr p) then fst fund else (ratio + (if Rltb 0.4 ratio then - 0.01 else 0.01)) * fs;
                 mk_sig_ha := if Rltb 1 (pi_osr p) then HLeft else if Rltb 0.4 ratio then HRight else HLeft |} else None;
            fg_title := if st then plot_title p else TNone |}.
Proof.
  unfold plot_spectrum. cbv zeta. intros H.
  destruct (nget (pi_db p) (pi_spur p)) as [sd |]; [| discriminate]. cbn [bind] in H.
  destruct (inband_count _ _) as [nb |]; [| discriminate]. cbn [bind] in H.
  destruct (harmonics p) as [hs |]; [| discriminate]. cbn [bind] in H.
  destruct (firstn (Z.to_nat nb) (pi_db p)) as [| x l] eqn:EF.
  { exfalso. destruct sl; cbn [bind] in H; [| discriminate]. destruct (nget (pi_freq p) _); [| discriminate]. cbn [bind] in H. destruct (nget (pi_db p) _); discriminate. }
  destruct sl.
  - destruct (nget (pi_freq p) (pi_fund p)) as [a |] eqn:Ea; [| discriminate]. cbn [bind] in H.
    destruct (nget (pi_db p) (pi_fund p)) as [b |] eqn:Eb; [| discriminate]. cbn [bind] in H. apply Ok_inj in H. subst fig.
    exists sd, nb, hs, x, l, (a, b). do 3 (split; [reflexivity |]). split; [exact EF |]. split; [intros _; exists a, b; split; [reflexivity | split; first [exact Ea | exact Eb | reflexivity]] | reflexivity].
  - cbn [bind] in H. apply Ok_inj in H. subst fig. exists sd, nb, hs, x, l, (0, 0). do 3 (split; [reflexivity |]). split; [exact EF |]. split; [discriminate | reflexivity].
Qed.
Lemma rltb_imp_filter (l : list R) a b : a <= b -> (List.length (filter (fun x => Rltb x a) l) <= List.length (filter (fun x => Rltb x b) l))%nat.
Proof. intros H. apply filter_le_length. intros x _ Hx. apply Rltb_true in Hx. apply Rltb_true. lra. Qed.
(** With a noise floor the level axis of plot_spectrum ends 20 dB below the middle of the in-band bins, but
    between -200 and -40 dB; unless it ends at -200, at most half of the in-band bins are below it.  The upper end is 0. *)
Lemma c136_level_axis xa p st sl up fig nb : plot_spectrum xa p st sl up = Ok fig -> inband_count (Z.of_nat (pi_N p)) (pi_osr p) = Ok nb ->
  xfinite (pi_floor p) = true ->
  let B := firstn (Z.to_nat nb) (pi_db p) in
  exists lo, fg_ylim fig = (lo, 0) /\ -200 <= lo <= -40 /\
  (forall m, middle_of B m -> (m <= -180 -> lo = -200) /\ (-180 <= m <= -20 -> lo = m - 20) /\ (-20 <= m -> lo = -40)) /\
  (lo = -200 \/ (2 * List.length (filter (fun x => Rltb x lo) B) <= List.length B)%nat).
Proof.
  intros H HB HF B. destruct (plot_ok _ _ _ _ _ _ H) as (sd & nb' & hs & x & l & fund & _ & E2 & _ & E4 & _ & E6). cbv zeta in E6.
  rewrite HB in E2. apply Ok_inj in E2. subst nb'. unfold B. rewrite E4.
  assert (EL : exists v, line_level p = Fin v) by (unfold line_level; destruct (pi_floor p); [eexists; reflexivity | discriminate ..]).
  destruct EL as [v EL]. rewrite EL in E6. subst fig. cbn [fg_ylim]. eexists. split; [reflexivity |].
  assert (NE : x :: l <> []) by discriminate. set (L := x :: l) in *. set (m0 := median L).
  split; [split; [apply Rmin_glb; [apply Rmax_r | lra] | apply Rmin_r] |]. split.
  - intros m Hm. assert (EM : m0 = m) by exact (median_middle L m NE Hm). rewrite EM. repeat split; intros.
    + rewrite Rmax_right by lra. apply Rmin_left. lra.
    + rewrite Rmax_left by lra. apply Rmin_left. lra.
    + rewrite Rmax_left by lra. apply Rmin_right. lra.
  - destruct (Rle_dec (m0 - 20) (-200)) as [C | C]; [left; rewrite Rmax_right by exact C; apply Rmin_left; lra | right].
    eapply Nat.le_trans; [| exact (below_median L NE)]. apply Nat.mul_le_mono_l. apply rltb_imp_filter.
    eapply Rle_trans; [apply Rmin_l |]. rewrite Rmax_left by lra. fold m0. lra.
Qed.

(** The drawing of a small record: 20 samples at 20 kHz, fundamental in bin 3. *)
Definition demo : plot_input :=
  {| pi_N := 20; pi_M := 1; pi_fs := 20000; pi_osr := 1;
     pi_db := [-130; -110; -112; -1; -108; -105; -60; -104; -111; -80; -109]; pi_freq := map (fun k => INR k * (20000 / INR 20)) (seq 0 11);
     pi_fund := 3; pi_start := 2; pi_end := 5; pi_spur := 6; pi_coherent := false; pi_harm_bins := [6; 9; 8]%Z; pi_collided := [];
     pi_harm_dbc := [Fin (-59); Fin (-79); Fin (-110)]; pi_enob := Fin 9.2; pi_sndr := Fin 58; pi_sfdr := Fin 59; pi_thd := Fin (-58); pi_snr := Fin 89;
     pi_sig := -1; pi_floor := Fin (-90); pi_nsd := NaN |}.
Lemma demo_level : line_level demo = Fin (-100).
Proof.
  unfold line_level, demo, xaxpy. cbn [pi_N pi_osr pi_floor]. f_equal. replace (INR 20 / (2 * 1)) with 10 by (change (INR 20) with (IZR (Z.of_nat 20)) || rewrite INR_IZR_INZ; cbn [Z.of_nat Pos.of_succ_nat Pos.succ]; lra).
  change (ln 10 / ln 10) with (lg 10). rewrite lg_10. lra.
Qed.
Lemma demo_band : inband_count (Z.of_nat (pi_N demo)) (pi_osr demo) = Ok 11%Z.
Proof. unfold demo. cbn [pi_N pi_osr]. rewrite c23_full_band by (lra || lia). reflexivity. Qed.
Lemma demo_harmonics : harmonics demo = Ok [(2%nat, (6 * 20000 / INR 20, -60)); (3%nat, (9 * 20000 / INR 20, -80)); (4%nat, (8 * 20000 / INR 20, -111))].
Proof. reflexivity. Qed.
Lemma demo_drawn xa st sl up : exists fig, plot_spectrum xa demo st sl up = Ok fig.
Proof.
  unfold plot_spectrum. change (nget (pi_db demo) (pi_spur demo)) with (@Ok R (-60)). cbn [bind]. rewrite demo_band, demo_harmonics. cbn [bind].
  change (nget (pi_freq demo) (pi_fund demo)) with (@Ok R (INR 3 * (20000 / INR 20))). change (nget (pi_db demo) (pi_fund demo)) with (@Ok R (-1)).
  destruct sl; cbn [bind]; (change (firstn (Z.to_nat 11) (pi_db demo)) with (pi_db demo); unfold demo at 1; cbn [pi_db]; eexists; reflexivity).
Qed.
Lemma demo_middle : middle_of (pi_db demo) (-108).
Proof.
  exists [-130; -112; -111; -110; -109; -108; -105; -104; -80; -60; -1]. split; [| split; [| reflexivity]].
  - unfold demo. cbn [pi_db].
    replace [-130; -112; -111; -110; -109; -108; -105; -104; -80; -60; -1] with (sortR [-130; -110; -112; -1; -108; -105; -60; -104; -111; -80; -109]); [apply sortR_perm |].
    unfold sortR. cbn [fold_right]. cbn [insR]. repeat (match goal with |- context [Rleb ?a ?b] => destruct (Rleb_spec a b); try lra end; cbn [insR]). reflexivity.
  - repeat constructor; lra.
Qed.
Lemma c136_level_axis_ex xa : exists fig, plot_spectrum xa demo true true 3 = Ok fig /\ fg_ylim fig = (-128, 0).
Proof.
  destruct (demo_drawn xa true true 3%Z) as [fig H]. exists fig. split; [exact H |].
  destruct (c136_level_axis xa demo true true 3%Z fig 11 H demo_band eq_refl) as (lo & -> & _ & A & _). destruct (A _ demo_middle) as (_ & B & _). rewrite B by lra. f_equal. lra.
Qed.
Lemma combine_nth_error {A B} (a : list A) (b : list B) k x y : nth_error a k = Some x -> nth_error b k = Some y -> nth_error (combine a b) k = Some (x, y).
Proof.
  revert b k. induction a as [| a0 a IH]; intros b k; [destruct k; discriminate |]. destruct b as [| b0 b]; [destruct k; discriminate |]. destruct k as [| k]; cbn [nth_error combine].
  - intros [= ->] [= ->]. reflexivity.
  - apply IH.
Qed.
(** On the frequency axis, from fs/N to fs/2, are exactly the bins other than DC: bin k of an N-sample record is drawn at k fs / N. *)
Lemma c136_frequency_axis xa sp N M fs osr coh st sl up fig k : plot_spectrum xa (plot_input_of sp N M fs osr coh) st sl up = Ok fig -> (0 < N)%nat -> 0 < fs ->
  List.length (sp_power sp) = (N / 2 + 1)%nat -> (k <= N / 2)%nat ->
  exists x y lo hi, nth_error (fg_curve fig) k = Some (x, y) /\ fg_xlim fig = (lo, hi) /\ x = INR k * fs / INR N /\ lo = fs / INR N /\ hi = fs / 2 /\ (lo <= x <= hi <-> (1 <= k)%nat).
Proof.
  intros H HN Hf HL Hk. destruct (plot_ok _ _ _ _ _ _ H) as (sd & nb & hs & x0 & l & fund & _ & _ & _ & _ & _ & E). cbv zeta in E. subst fig. cbn [fg_curve fg_xlim plot_input_of pi_freq pi_db pi_N pi_fs].
  pose proof (INR_pos N HN) as PN. pose proof (Rinv_0_lt_compat _ PN) as IN.
  exists (INR k * (fs / INR N)), (nth k (spectrum_db (sp_power sp)) 0), (fs / INR N), (fs / 2).
  split; [apply combine_nth_error |].
  - rewrite nth_error_map. rewrite (nth_error_nth' (seq 0 (List.length (sp_power sp))) 0%nat) by (rewrite seq_length; lia). rewrite seq_nth by lia. reflexivity.
  - apply nth_error_nth'. unfold spectrum_db. rewrite map_length. lia.
  - split; [reflexivity |]. split; [unfold Rdiv; ring |]. split; [reflexivity |]. split; [reflexivity |].
    assert (P : 0 < fs / INR N) by (apply Rdiv_lt_0_compat; assumption). split.
    + intros [A _]. destruct k; [cbn [INR] in A; lra | lia].
    + intros K1. assert (1 <= INR k) by (apply (le_INR 1); exact K1). split; [nra |].
      assert (2 * INR k <= INR N). { pose proof (Nat.div_mod N 2 ltac:(lia)). rewrite <- (mult_INR 2). apply le_INR. lia. }
      apply Rmult_le_reg_r with (INR N); [exact PN |]. replace (INR k * (fs / INR N) * INR N) with (INR k * fs) by (field; lra). nra.
Qed.
Lemma c136_frequency_axis_ex xa : exists fig, plot_spectrum xa demo true true 3 = Ok fig /\ fg_xlim fig = (1000, 10000) /\ nth_error (fg_curve fig) 3 = Some (3000, -1).
Proof.
  destruct (demo_drawn xa true true 3%Z) as [fig H]. exists fig. split; [exact H |]. destruct (plot_ok _ _ _ _ _ _ H) as (sd & nb & hs & x0 & l & fund & _ & _ & _ & _ & _ & E). cbv zeta in E. subst fig.
  cbn [fg_curve fg_xlim demo pi_freq pi_db pi_N pi_fs seq map combine nth_error].
  assert (E20 : INR 20 = 20) by (rewrite INR_IZR_INZ; reflexivity). rewrite E20. split; [f_equal; lra |]. f_equal. f_equal. cbn [INR]. lra.
Qed.

(** The dashed line is drawn at the noise power of the band, shared by N / (2 osr) bins, in dB: over the whole
    spectrum without oversampling, else from the first bin to the band edge. *)
Lemma c136_noise_line kz cz data fs sc wt side osr mh nf assumed r N M coh v :
  compute_spectrum kz cz data fs sc wt side osr mh nf assumed 0 = Ok r -> 0 < fs -> (0 < N)%nat -> 0 < osr -> sp_noise r = Some v -> 0 < sp_sig r ->
  (assumed = None -> / 10 ^ 30 <= sp_sig r) ->
  let p := plot_input_of r N M fs osr coh in
  exists lvl, line_level p = Fin lvl /\ pow10 (lvl / 10) = v / (INR N / (2 * osr)) /\
  noise_line p = Some (if Rltb 1 osr then (fs / INR N, fs / (2 * osr), lvl) else (0, fs / 2, lvl)).
Proof.
  intros H Hf HN Ho Hv Hs Ha p. pose proof (c100_noise _ _ _ _ _ _ _ _ _ _ _ _ _ H Hf) as C. rewrite Hv in C. destruct C as (V0 & C). destruct (C Hs) as (_ & CF & _). clear C.
  pose proof (INR_pos N HN) as PN. assert (Q : 0 < INR N / (2 * osr)) by (apply Rdiv_lt_0_compat; lra).
  assert (D : sp_sig_dbfs r = 10 * lg (sp_sig r)).
  { pose proof (c100_signal _ _ _ _ _ _ _ _ _ _ _ _ _ H) as S. destruct assumed as [a |]; [destruct S as (-> & _ & <-); reflexivity |]. destruct S as [_ ->]. rewrite Rmax_left by (apply Ha; reflexivity). reflexivity. }
  assert (EL : line_level p = Fin (10 * lg (v / (INR N / (2 * osr))))).
  { unfold line_level, p, plot_input_of. cbn [pi_N pi_osr pi_floor]. rewrite CF, D. unfold xaxpy. f_equal. fold (lg (INR N / (2 * osr))). rewrite (lg_div (sp_sig r) v), (lg_div v (INR N / (2 * osr))) by assumption. ring. }
  exists (10 * lg (v / (INR N / (2 * osr)))). split; [exact EL |]. split.
  - replace (10 * lg (v / (INR N / (2 * osr))) / 10) with (lg (v / (INR N / (2 * osr)))) by field. unfold pow10, Rpower, lg.
    assert (0 < ln 10) by (rewrite <- ln_1; apply ln_increasing; lra). replace (ln (v / (INR N / (2 * osr))) / ln 10 * ln 10) with (ln (v / (INR N / (2 * osr)))) by (field; lra).
    apply exp_ln. apply Rdiv_lt_0_compat; assumption.
  - unfold noise_line. rewrite EL. unfold p, plot_input_of. cbn [pi_N pi_osr pi_fs]. destruct (Rltb 1 osr); [| reflexivity]. replace (fs / 2 / osr) with (fs / (2 * osr)) by (field; lra). reflexivity.
Qed.
Lemma c136_noise_line_ex : noise_line demo = Some (0, 10000, -100).
Proof. unfold noise_line. rewrite demo_level. unfold demo. cbn [pi_osr pi_fs]. destruct (Rltb_spec 1 1); [lra |]. repeat f_equal. lra. Qed.
(** In the dark plot the dashed line is always on the level axis, at least 20 dB above its lower end, down to levels of -180 dB; a requested baseline is on the axis too. *)
Lemma c136_virtuoso_axis xa p st sl up base b fig l : plot_virtuoso xa p st sl up base = Ok (b, fig) -> line_level p = Fin l ->
  exists lo, fg_ylim fig = (lo, 0) /\ lo <= b /\ (-180 <= l -> lo <= l - 20) /\ (-200 <= l -> lo <= l) /\
  match base with None => b = lo /\ -200 <= lo /\ (-160 <= l -> l - 40 < lo /\ multiple_of 20 lo) | Some v => b = v end.
Proof.
  intros H EL. unfold plot_virtuoso in H. cbv zeta in H. destruct (nget (pi_db p) (pi_spur p)) as [sd |]; [| discriminate]. cbn [bind] in H.
  set (flo := noise_floor_axis_min (line_level p) _) in *.
  assert (G : fg_ylim fig = (match base with None => flo | Some b => Rmin flo b end, 0) /\ b = match base with None => flo | Some b => b end).
  { destruct (negb sl); [injection H as <- <-; split; reflexivity |].
    destruct (nget (pi_freq p) _); [| discriminate]. cbn [bind] in H. destruct (nget (pi_db p) (pi_fund p)); [| discriminate]. cbn [bind] in H.
    match type of H with bind ?x _ = _ => destruct x; [| discriminate] end. cbn [bind] in H. injection H as <- <-. split; reflexivity. }
  destruct G as [-> ->]. assert (E : flo = axis_min (Fin l) 20 (IZR 1) (-200) (Some (xsub_l (pi_sig p) (pi_sndr p)))) by (unfold flo, noise_floor_axis_min; rewrite EL; reflexivity).
  destruct (c136_axis_min l 20 1 (-200) (Some (xsub_l (pi_sig p) (pi_sndr p))) ltac:(lra)) as (A & B & C & _). rewrite <- E in A, B, C. clearbody flo.
  eexists. split; [reflexivity |].
  assert (B' : -180 <= l -> flo <= l - 20).
  { intros L. rewrite E. unfold axis_min. apply Rmax_lub; [| lra]. pose proof (Zfloor_lb (l / 20)). lra. }
  destruct base as [v |].
  - split; [apply Rmin_r |]. split; [intros L; eapply Rle_trans; [apply Rmin_l | apply B', L] |]. split; [intros L; eapply Rle_trans; [apply Rmin_l | apply C; lra] | reflexivity].
  - split; [lra |]. split; [exact B' |]. split; [intros L; apply C; lra |]. split; [reflexivity |]. split; [exact A |]. intros L. destruct B as [B1 B2]; [lra |]. split; [lra | exact B1].
Qed.
Lemma c136_virtuoso_axis_ex xa : exists b fig, plot_virtuoso xa demo true false 3 None = Ok (b, fig) /\ b = -120 /\ fg_ylim fig = (-120, 0).
Proof.
  assert (F : noise_floor_axis_min (line_level demo) (Some (xsub_l (pi_sig demo) (pi_sndr demo))) = -120).
  { rewrite demo_level. unfold noise_floor_axis_min, axis_min. replace (Zfloor (-100 / 20)) with (-5)%Z by (symmetry; apply Zfloor_imp; simpl; lra). rewrite Rmax_left; lra. }
  unfold plot_virtuoso. change (nget (pi_db demo) (pi_spur demo)) with (@Ok R (-60)). cbn [bind negb]. rewrite F. do 2 eexists. split; [reflexivity |]. split; reflexivity.
Qed.

(* ---------- C137: the MaxSpur annotation ---------- *)
Lemma room_margin span : 0 <= span -> room span (spur_margin span).
Proof.
  intros H. unfold room, spur_margin. repeat split; intros.
  - rewrite Rmax_right by lra. apply Rmin_left. lra.
  - rewrite Rmax_left by lra. rewrite Rmin_left; lra.
  - rewrite Rmax_left by lra. apply Rmin_right. lra.
Qed.
Lemma margin_bounds span : 1 <= spur_margin span <= 6.
Proof. unfold spur_margin. split; [apply Rmin_glb; [apply Rmax_r | lra] | apply Rmin_r]. Qed.
Lemma margin_room span m : 0 <= span -> room span m -> spur_margin span = m.
Proof.
  intros H (A & B & C). destruct (room_margin span H) as (A' & B' & C').
  destruct (Rle_dec span 25); [rewrite A, A' by lra; reflexivity |]. destruct (Rle_dec span 150); [rewrite B, B' by lra; reflexivity |]. rewrite C, C' by lra. reflexivity.
Qed.
(** The marker and its label are shown exactly when the spur is inside the axes: above the lower end by more
    than the room kept free there, not above the upper end, and within the frequency limits. *)
Lemma c137_visible a b s x m : a <> b -> room (Rabs (b - a)) m ->
  (refresh_spur a b (Fin s) (Fin x) 10 8 <> Hidden <-> Rmin a b + m < s <= Rmax a b /\ 0 <= x <= 1).
Proof.
  intros N HM. assert (ES : Rmax a b - Rmin a b = Rabs (b - a)) by (unfold Rmax, Rmin, Rabs; destruct (Rle_dec a b), (Rcase_abs (b - a)); lra).
  assert (P : Rmin a b < Rmax a b) by (unfold Rmax, Rmin; destruct (Rle_dec a b); lra).
  unfold refresh_spur. cbv zeta. rewrite ES, (margin_room _ m (Rabs_pos _) HM).
  destruct (Rleb_spec (Rmax a b) (Rmin a b)); [lra |]. destruct (Rleb_spec s (Rmin a b + m)); cbn [orb]; [split; [intros Q; contradiction | lra] |].
  destruct (Rltb_spec (Rmax a b) s); cbn [orb]; [split; [intros Q; contradiction | lra] |].
  destruct (Rltb_spec x 0); cbn [orb]; [split; [intros Q; contradiction | lra] |]. destruct (Rltb_spec 1 x); cbn [orb]; [split; [intros Q; contradiction | lra] |].
  split; [intros _; lra | intros _]. destruct (Rltb _ (s + 10)); (match goal with |- context [if Rltb ?u ?v then _ else _] => destruct (Rltb u v) end; discriminate).
Qed.
Lemma c137_visible_ex : refresh_spur (-120) 0 (Fin (-117)) (Fin 0.3) 10 8 = Hidden /\ refresh_spur (-120) 0 (Fin (-115)) (Fin 0.3) 10 8 <> Hidden.
Proof.
  assert (M : room (Rabs (0 - -120)) 4.8) by (rewrite Rabs_pos_eq by lra; repeat split; intros; lra).
  assert (A : Rmin (-120) 0 = -120) by (apply Rmin_left; lra). assert (B : Rmax (-120) 0 = 0) by (apply Rmax_right; lra).
  split; [| apply (c137_visible (-120) 0 (-115) 0.3 4.8); [lra | exact M | rewrite A, B; lra]].
  destruct (refresh_spur (-120) 0 (Fin (-117)) (Fin 0.3) 10 8) eqn:E; [reflexivity |]. exfalso.
  assert (Q : refresh_spur (-120) 0 (Fin (-117)) (Fin 0.3) 10 8 <> Hidden) by (rewrite E; discriminate). apply (c137_visible (-120) 0 (-117) 0.3 4.8) in Q; [| lra | exact M]. rewrite A, B in Q. lra.
Qed.
(** A spur, position or axis that is not finite or has no height hides both. *)
Lemma c137_hidden a b s x : xfinite s = false \/ xfinite x = false \/ a = b -> refresh_spur a b s x 10 8 = Hidden.
Proof.
  intros H. unfold refresh_spur. cbv zeta. destruct s as [v | | |]; [| reflexivity ..]. destruct (Rleb_spec (Rmax a b) (Rmin a b)) as [L | L]; [reflexivity |].
  destruct (_ || _)%bool; [reflexivity |]. destruct x as [w | | |]; [| reflexivity ..]. destruct H as [H | [H | H]]; [discriminate | discriminate |]. subst b. exfalso. unfold Rmax, Rmin in L. destruct (Rle_dec a a); lra.
Qed.
Lemma c137_hidden_ex : refresh_spur (-120) 0 NInf (Fin 0.5) 10 8 = Hidden /\ refresh_spur 0 0 (Fin 0) (Fin 0.5) 10 8 = Hidden.
Proof. split; apply c137_hidden; [left; reflexivity | right; right; reflexivity]. Qed.
(** Where the label goes: 10 dB above the marker if that keeps the room at the top free, else 8 dB below if that
    keeps the room at the bottom free, else at the marker; so it is always inside the axes, and clear of the room
    at both ends on an axis of at least 2 dB.  Near the left or right end it is aligned inwards. *)
Lemma c137_label a b s x m y va ha : room (Rabs (b - a)) m -> refresh_spur a b (Fin s) (Fin x) 10 8 = Shown y va ha ->
  placed (Rmin a b + m) (Rmax a b - m) s y va /\ Rmin a b <= y <= Rmax a b /\
  (2 <= Rabs (b - a) -> Rmin a b + m <= y <= Rmax a b - m) /\
  (ha = HRight <-> 0.95 < x) /\ (ha = HLeft <-> x < 0.05).
Proof.
  intros HM H. assert (ES : Rmax a b - Rmin a b = Rabs (b - a)) by (unfold Rmax, Rmin, Rabs; destruct (Rle_dec a b), (Rcase_abs (b - a)); lra).
  assert (NE : a <> b) by (intros ->; rewrite c137_hidden in H; [discriminate | right; right; reflexivity]).
  assert (V : Rmin a b + m < s <= Rmax a b /\ 0 <= x <= 1) by (apply (c137_visible a b s x m NE HM); rewrite H; discriminate).
  destruct V as [[V1 V2] V3]. pose proof (margin_bounds (Rabs (b - a))) as MB. rewrite (margin_room _ m (Rabs_pos _) HM) in MB.
  assert (M2 : 2 <= Rabs (b - a) -> 2 * m <= Rabs (b - a)).
  { intros Q. destruct HM as (M0 & M1 & M3). destruct (Rle_dec (Rabs (b - a)) 25); [rewrite M0 by lra; lra |]. destruct (Rle_dec (Rabs (b - a)) 150); [rewrite M1 by lra; lra | rewrite M3 by lra; lra]. }
  unfold refresh_spur in H. cbv zeta in H. rewrite ES, (margin_room _ m (Rabs_pos _) HM) in H. set (lo := Rmin a b) in *. set (hi := Rmax a b) in *. clearbody lo hi. rewrite <- ES in *.
  destruct (Rleb_spec hi lo); [discriminate |]. destruct (Rleb_spec s (lo + m)); [lra |]. destruct (Rltb_spec hi s); [lra |]. destruct (Rltb_spec x 0); [lra |]. destruct (Rltb_spec 1 x); [lra |]. cbn [orb] in H.
  assert (HA : forall h, (if Rltb 0.95 x then HRight else if Rltb x 0.05 then HLeft else HCenter) = h -> (h = HRight <-> 0.95 < x) /\ (h = HLeft <-> x < 0.05)).
  { intros h <-. destruct (Rltb_spec 0.95 x); [split; split; (lra || discriminate || reflexivity || auto) |]. destruct (Rltb_spec x 0.05); (split; split; (intros; lra || discriminate || reflexivity || auto)). }
  destruct (Rltb_spec (hi - m) (s + 10)) as [T | T].
  - destruct (Rltb_spec (s - 8) (lo + m)) as [B | B].
    + assert (EY : y = Rmin (Rmax s (lo + m)) (hi - m)) by (injection H; intros; congruence). assert (EV : va = VCenter) by (injection H; intros; congruence). assert (EH := HA ha ltac:(injection H; intros; congruence)).
      rewrite Rmax_left in EY by lra. subst va. split; [| split; [| split; [| exact EH]]].
      * constructor; [lra | lra | intros; rewrite EY; apply Rmin_left; lra | intros; rewrite EY; apply Rmin_right; lra].
      * rewrite EY. split; [apply Rmin_glb; lra | eapply Rle_trans; [apply Rmin_r | lra]].
      * intros Q. specialize (M2 Q). rewrite EY. split; [apply Rmin_glb; lra | apply Rmin_r].
    + assert (EY : y = s - 8) by (injection H; intros; congruence). assert (EV : va = VTop) by (injection H; intros; congruence). assert (EH := HA ha ltac:(injection H; intros; congruence)). subst y va.
      split; [constructor; lra |]. split; [lra |]. split; [intros; lra | exact EH].
  - destruct (Rltb_spec (s + 10) (lo + m)); [lra |]. assert (EY : y = s + 10) by (injection H; intros; congruence). assert (EV : va = VBottom) by (injection H; intros; congruence). assert (EH := HA ha ltac:(injection H; intros; congruence)). subst y va.
    split; [constructor; lra |]. split; [lra |]. split; [intros; lra | exact EH].
Qed.
Lemma c137_label_ex : refresh_spur (-120) 0 (Fin (-60)) (Fin 0.3) 10 8 = Shown (-60 + 10) VBottom HCenter /\ refresh_spur (-120) 0 (Fin (-6)) (Fin 0.97) 10 8 = Shown (-6 - 8) VTop HRight.
Proof.
  assert (A : Rmin (-120) 0 = -120) by (apply Rmin_left; lra). assert (B : Rmax (-120) 0 = 0) by (apply Rmax_right; lra).
  assert (M : spur_margin (0 - -120) = 4.8) by (unfold spur_margin; rewrite Rmax_left by lra; rewrite Rmin_left; lra).
  split; unfold refresh_spur; cbv zeta; rewrite A, B, M; repeat (match goal with |- context [Rleb ?u ?v] => destruct (Rleb_spec u v); try lra | |- context [Rltb ?u ?v] => destruct (Rltb_spec u v); try lra end; cbn [orb]); reflexivity.
Qed.
(** In the plot of a spectrum the annotation belongs to the strongest remaining bin: it is hidden exactly when
    that bin is off the axes, and its marker is at that bin's frequency and level. *)
Lemma c137_in_plot xa p st up fig mk sd m lo hi : plot_spectrum xa p st true up = Ok fig -> fg_marks fig = Some mk -> nget (pi_db p) (pi_spur p) = Ok sd ->
  fg_ylim fig = (lo, hi) -> maps_limits xa (fst (fg_xlim fig)) (snd (fg_xlim fig)) -> lo <> hi -> room (Rabs (hi - lo)) m ->
  mk_spur mk = (INR (pi_spur p) / INR (pi_N p) * pi_fs p, sd) /\
  (mk_spur_label mk <> Hidden <-> Rmin lo hi + m < sd <= Rmax lo hi /\ fst (fg_xlim fig) <= fst (mk_spur mk) <= snd (fg_xlim fig)).
Proof.
  intros H EM ED EY HT NE HM. destruct (plot_ok _ _ _ _ _ _ H) as (sd' & nb & hs & x0 & l & fund & E1 & _ & _ & _ & _ & E). cbv zeta in E. rewrite ED in E1. apply Ok_inj in E1. subst sd'.
  subst fig. cbn [fg_marks fg_ylim fg_xlim fst snd] in *. injection EM as <-. cbn [mk_spur mk_spur_label fst]. split; [reflexivity |].
  pose proof (f_equal fst EY) as EL. pose proof (f_equal snd EY) as EH. cbn [fst snd] in EL, EH. subst hi. rewrite EL. clear EY EL.
  destruct (HT (INR (pi_spur p) / INR (pi_N p) * pi_fs p) sd) as (v & -> & Q). rewrite (c137_visible lo 0 sd v m NE HM). rewrite Q. reflexivity.
Qed.
Lemma c137_in_plot_ex : exists fig mk, plot_spectrum (fun x _ => Fin ((x - 1000) / 9000)) demo true true 3 = Ok fig /\ fg_marks fig = Some mk /\ mk_spur mk = (6000, -60) /\ mk_spur_label mk = Shown (-60 + 10) VBottom HCenter.
Proof.
  destruct (c136_level_axis_ex (fun x _ => Fin ((x - 1000) / 9000))) as (fig & H & EY). exists fig. destruct (plot_ok _ _ _ _ _ _ H) as (sd & nb & hs & x0 & l & fund & E1 & _ & _ & _ & _ & E). cbv zeta in E.
  change (nget (pi_db demo) (pi_spur demo)) with (@Ok R (-60)) in E1. apply Ok_inj in E1. subst sd. subst fig. cbn [fg_ylim] in EY. eexists. split; [exact H |]. cbn [fg_marks]. split; [reflexivity |]. cbn [mk_spur mk_spur_label].
  assert (EQ : forall a, (a, 0) = (-128, 0) -> a = -128) by (intros a [= ->]; reflexivity). apply EQ in EY. rewrite EY.
  assert (SX : INR (pi_spur demo) / INR (pi_N demo) * pi_fs demo = 6000) by (unfold demo; cbn [pi_spur pi_N pi_fs]; rewrite !INR_IZR_INZ; cbn [Z.of_nat Pos.of_succ_nat Pos.succ]; lra). rewrite SX. split; [reflexivity |].
  assert (A : Rmin (-128) 0 = -128) by (apply Rmin_left; lra). assert (B : Rmax (-128) 0 = 0) by (apply Rmax_right; lra).
  assert (M : spur_margin (0 - -128) = 5.12) by (unfold spur_margin; rewrite Rmax_left by lra; rewrite Rmin_left; lra).
  unfold refresh_spur; cbv zeta; rewrite A, B, M; repeat (match goal with |- context [Rleb ?u ?v] => destruct (Rleb_spec u v); try lra | |- context [Rltb ?u ?v] => destruct (Rltb_spec u v); try lra end; cbn [orb]); reflexivity.
Qed.

(* ---------- C138: frequency texts ---------- *)
Lemma fixed_says d v s p : prefix_scale p = s -> says (fixed d (v / s), p) v.
Proof.
  intros E. assert (S : 0 < s) by (subst s; destruct p; cbn [prefix_scale]; lra). unfold says, fixed. rewrite E. pose proof (pow_lt 10 d ltac:(lra)) as T.
  pose proof (round_he_half (v / s * 10 ^ d)) as Q. set (z := round_he _) in *. replace (IZR z / 10 ^ d * s - v) with (s / 10 ^ d * (IZR z - v / s * 10 ^ d)) by (field; split; lra).
  assert (SD : 0 < s / 10 ^ d) by (apply Rdiv_lt_0_compat; assumption).
  rewrite Rabs_mult, (Rabs_pos_eq (s / 10 ^ d)) by lra. replace (s / (2 * 10 ^ d)) with (s / 10 ^ d * / 2) by (field; lra).
  apply Rmult_le_compat_l; [lra | exact Q].
Qed.
(** The text of the sampling rate (and of the input frequency in the dark plot) is right to half a unit of its last digit. *)
Lemma c138_rate_text f : says (format_freq f) f.
Proof.
  unfold format_freq. destruct (Rleb (10 ^ 9) f); [replace (10 ^ 9) with 1000000000 by lra; apply fixed_says; reflexivity |].
  destruct (Rleb (10 ^ 6) f); [replace (10 ^ 6) with 1000000 by lra; apply fixed_says; reflexivity |].
  destruct (Rleb (10 ^ 3) f); [replace (10 ^ 3) with 1000 by lra; apply fixed_says; reflexivity |].
  replace f with (f / 1) at 1 by lra. apply fixed_says. reflexivity.
Qed.
Lemma fixed_exact d x z : x * 10 ^ d = IZR z -> fixed d x = Num d z.
Proof. intros H. unfold fixed. rewrite H, round_he_IZR. reflexivity. Qed.
Lemma c138_rate_text_ex : format_freq 2500000 = (Num 1 25, Mega) /\ format_freq 800 = (Num 1 8000, Unit).
Proof.
  unfold format_freq. split.
  - destruct (Rleb_spec (10 ^ 9) 2500000); [lra |]. destruct (Rleb_spec (10 ^ 6) 2500000); [| lra]. f_equal. apply fixed_exact. lra.
  - destruct (Rleb_spec (10 ^ 9) 800); [lra |]. destruct (Rleb_spec (10 ^ 6) 800); [lra |]. destruct (Rleb_spec (10 ^ 3) 800); [lra |]. f_equal. apply fixed_exact. lra.
Qed.
(** So is the text of the input frequency in the light plot, except from 1 Hz up to 1 kHz. *)
Lemma c138_fin_text f : f < 1 \/ 1000 <= f -> says (format_fin f) f.
Proof.
  intros H. unfold format_fin. destruct (Rleb (10 ^ 9) f); [replace (10 ^ 9) with 1000000000 by lra; apply fixed_says; reflexivity |].
  destruct (Rleb (10 ^ 6) f); [replace (10 ^ 6) with 1000000 by lra; apply fixed_says; reflexivity |].
  destruct (Rleb_spec (10 ^ 3) f); [replace (10 ^ 3) with 1000 by lra; apply fixed_says; reflexivity |]. destruct (Rleb_spec 1 f); [lra |].
  replace f with (f / 1) at 1 by lra. apply fixed_says. reflexivity.
Qed.
Lemma c138_fin_text_ex : format_fin 0.15 = (Num 3 150, Unit) /\ format_fin 12345 = (Num 1 123, Kilo).
Proof.
  unfold format_fin. split.
  - destruct (Rleb_spec (10 ^ 9) 0.15); [lra |]. destruct (Rleb_spec (10 ^ 6) 0.15); [lra |]. destruct (Rleb_spec (10 ^ 3) 0.15); [lra |]. destruct (Rleb_spec 1 0.15); [lra |]. f_equal. apply fixed_exact. lra.
  - destruct (Rleb_spec (10 ^ 9) 12345); [lra |]. destruct (Rleb_spec (10 ^ 6) 12345); [lra |]. destruct (Rleb_spec (10 ^ 3) 12345); [| lra]. f_equal. unfold fixed. f_equal. apply Znearest_imp. unfold Rabs. destruct (Rcase_abs _); lra.
Qed.
(** From 1 Hz up to 1 kHz the text is the frequency in kHz without the unit: every such text is wrong from 2 Hz on. *)
Lemma c138_fin_refuted : exists f, 1 <= f < 1000 /\ ~ says (format_fin f) f.
Proof.
  exists 500. split; [lra |]. unfold format_fin. destruct (Rleb_spec (10 ^ 9) 500); [lra |]. destruct (Rleb_spec (10 ^ 6) 500); [lra |]. destruct (Rleb_spec (10 ^ 3) 500); [lra |]. destruct (Rleb_spec 1 500); [| lra].
  rewrite (fixed_exact 1 _ 5) by lra. unfold says. cbn [prefix_scale]. rewrite Rabs_left by lra. lra.
Qed.

(* ---------- C139: harmonics ---------- *)
Lemma mem_In n l : mem n l = true <-> In n l.
Proof. unfold mem. rewrite existsb_exists. split; [intros (x & H & E); apply Nat.eqb_eq in E; subst; exact H | intros H; exists n; split; [exact H | apply Nat.eqb_refl]]. Qed.
Lemma zget_nat l b y : (0 <= b)%Z -> zget l b = Ok y <-> nth_error l (Z.to_nat b) = Some y.
Proof.
  intros H. unfold zget. cbv zeta. destruct (Z.leb_spec 0 b); [| lia]. cbn [andb]. destruct (Z.ltb_spec b (Z.of_nat (List.length l))) as [L | L].
  - rewrite (nth_error_nth' l 0) by lia. split; intros E; [apply Ok_inj in E; rewrite E; reflexivity | injection E as ->; reflexivity].
  - destruct (Z.ltb_spec b 0); [lia |]. rewrite andb_false_r. split; [discriminate |]. intros E. assert (N : nth_error l (Z.to_nat b) <> None) by (rewrite E; discriminate). apply nth_error_Some in N. lia.
Qed.
Lemma harmonics_from_spec p n : forall i hs, harmonics_from p i n = Ok hs ->
  (forall h x y, In (h, (x, y)) hs <-> exists j b, (i <= j < i + n)%nat /\ h = (j + 2)%nat /\ ~ In h (pi_collided p) /\
     nth_error (pi_harm_bins p) j = Some b /\ zget (pi_db p) b = Ok y /\ x = IZR b * pi_fs p / INR (pi_N p)) /\
  StronglySorted lt (map fst hs).
Proof.
  induction n as [| n IH]; intros i hs H; cbn [harmonics_from] in H.
  - apply Ok_inj in H. subst hs. split; [| constructor]. intros h x y. split; [intros [] | intros (j & b & Hj & _); lia].
  - destruct (mem (i + 2) (pi_collided p)) eqn:EM.
    + destruct (IH _ _ H) as [A B]. split; [| exact B]. intros h x y. rewrite A. split; intros (j & b & Hj & R); exists j, b; (split; [| exact R]); [lia |].
      destruct (Nat.eq_dec j i) as [-> | NE]; [| lia]. destruct R as (-> & NI & _). apply mem_In in EM. contradiction.
    + destruct (nth_error (pi_harm_bins p) i) as [b0 |] eqn:EB; [| discriminate]. destruct (zget (pi_db p) b0) as [v |] eqn:EZ; [| discriminate]. cbn [bind] in H.
      destruct (harmonics_from p (S i) n) as [rest |] eqn:ER; [| discriminate]. cbn [bind] in H. apply Ok_inj in H. subst hs. destruct (IH _ _ ER) as [A B].
      assert (NI : ~ In (i + 2)%nat (pi_collided p)) by (intros Q; apply mem_In in Q; congruence). split.
      * intros h x y. split.
        -- intros [E | E]; [injection E as <- <- <-; exists i, b0; repeat split; [lia | lia | exact NI | exact EB | exact EZ] |]. apply A in E. destruct E as (j & b & Hj & R). exists j, b. split; [lia | exact R].
        -- intros (j & b & Hj & R). destruct (Nat.eq_dec j i) as [-> | NE].
           ++ left. destruct R as (-> & _ & EB' & EZ' & ->). rewrite EB in EB'. injection EB' as <-. rewrite EZ in EZ'. apply Ok_inj in EZ'. subst v. reflexivity.
           ++ right. apply A. exists j, b. split; [lia | exact R].
      * cbn [map fst]. constructor; [exact B |]. apply Forall_forall. intros h Hh. apply in_map_iff in Hh. destruct Hh as ((h' & (x & y)) & E & Hin). cbn [fst] in E. subst h'.
        apply A in Hin. destruct Hin as (j & b & Hj & -> & _). lia.
Qed.
Lemma filter_sorted (f : nat * (R * R) -> bool) l : StronglySorted lt (map fst l) -> StronglySorted lt (map fst (filter f l)).
Proof.
  induction l as [| a l IH]; intros H; cbn [filter map]; [constructor |]. cbn [map] in H. apply StronglySorted_inv in H. destruct H as [H1 H2]. specialize (IH H1). destruct (f a); [| exact IH]. cbn [map]. constructor; [exact IH |].
  apply Forall_forall. intros h Hh. apply in_map_iff in Hh. destruct Hh as (q & <- & Q). apply filter_In in Q. rewrite Forall_forall in H2. apply H2. apply in_map. apply Q.
Qed.
Lemma harmonics_spec p hs : harmonics p = Ok hs ->
  (forall h x y, In (h, (x, y)) hs <-> exists j b, (j < List.length (pi_harm_dbc p))%nat /\ h = (j + 2)%nat /\ ~ In h (pi_collided p) /\
     nth_error (pi_harm_bins p) j = Some b /\ zget (pi_db p) b = Ok y /\ x = IZR b * pi_fs p / INR (pi_N p)) /\
  StronglySorted lt (map fst hs).
Proof.
  unfold harmonics. intros H. destruct (pi_harm_bins p) as [| b0 bs] eqn:EB.
  - apply Ok_inj in H. subst hs. split; [| constructor]. intros h x y. split; [intros [] | intros (j & b & _ & _ & _ & E & _)]. destruct j; discriminate.
  - destruct (harmonics_from_spec _ _ _ _ H) as [A B]. split; [| exact B]. intros h x y. rewrite A, EB. split; intros (j & b & Hj & R); exists j, b; (split; [lia | exact R]).
Qed.
(** Which harmonics are marked, and where: in increasing order, each order from 2 up to the requested one that
    did not fall on the fundamental and is not more than 20 dB below the dashed line, at the frequency and level of its bin. *)
Lemma c139_marked xa p st up fig mk : plot_spectrum xa p st true up = Ok fig -> fg_marks fig = Some mk -> (forall b, In b (pi_harm_bins p) -> (0 <= b)%Z) ->
  (forall h x y, In (h, (x, y)) (mk_harm mk) <->
     (2 <= h < 2 + List.length (pi_harm_dbc p))%nat /\ (Z.of_nat h <= up)%Z /\ ~ In h (pi_collided p) /\
     (exists b, nth_error (pi_harm_bins p) (h - 2) = Some b /\ nth_error (pi_db p) (Z.to_nat b) = Some y /\ x = IZR b * pi_fs p / INR (pi_N p)) /\
     (forall l, line_level p = Fin l -> l - 20 <= y)) /\
  StronglySorted lt (map fst (mk_harm mk)).
Proof.
  intros H EM NN. destruct (plot_ok _ _ _ _ _ _ H) as (sd & nb & hs & x0 & l0 & fund & _ & _ & EH & _ & _ & E). cbv zeta in E. subst fig. cbn [fg_marks] in EM. injection EM as <-. cbn [mk_harm].
  destruct (harmonics_spec _ _ EH) as [A B]. split.
  - intros h x y. unfold drawn_harmonics. destruct (Z.ltb_spec 0 up) as [U | U]; [| split; [intros [] | intros (Q & Q2 & _); lia]].
    rewrite filter_In, A. cbn [fst snd]. rewrite andb_true_iff, Z.leb_le. split.
    + intros ((j & b & Hj & -> & NI & EB & EZ & ->) & L & S). replace (j + 2 - 2)%nat with j by lia. split; [lia |]. split; [exact L |]. split; [exact NI |]. split.
      * exists b. split; [exact EB |]. split; [| reflexivity]. apply zget_nat; [apply NN; eapply nth_error_In; exact EB | exact EZ].
      * intros l EL. unfold should_label_harmonic in S. rewrite EL in S. apply Rleb_true in S. exact S.
    + intros (Hh & L & NI & (b & EB & EZ & ->) & S). split.
      * exists (h - 2)%nat, b. split; [lia |]. split; [lia |]. split; [exact NI |]. split; [exact EB |]. split; [| reflexivity]. apply zget_nat; [apply NN; eapply nth_error_In; exact EB | exact EZ].
      * split; [exact L |]. unfold should_label_harmonic. destruct (line_level p) as [l | | |]; [| reflexivity ..]. apply Rleb_true. apply S. reflexivity.
  - unfold drawn_harmonics. destruct (0 <? up)%Z; [apply filter_sorted, B | constructor].
Qed.
Lemma c139_marked_ex xa : exists fig mk, plot_spectrum xa demo true true 3 = Ok fig /\ fg_marks fig = Some mk /\ map fst (mk_harm mk) = [2; 3]%nat.
Proof.
  destruct (demo_drawn xa true true 3%Z) as [fig H]. exists fig. destruct (plot_ok _ _ _ _ _ _ H) as (sd & nb & hs & x0 & l & fund & _ & _ & EH & _ & _ & E). cbv zeta in E. subst fig. cbn [fg_marks]. eexists. split; [exact H |]. split; [reflexivity |]. cbn [mk_harm].
  rewrite demo_harmonics in EH. apply Ok_inj in EH. subst hs. unfold drawn_harmonics. cbn [Z.ltb Z.compare filter fst snd Z.of_nat Pos.of_succ_nat Pos.succ Z.leb Pos.compare Pos.compare_cont andb]. unfold should_label_harmonic. rewrite demo_level.
  destruct (Rleb_spec (-100 - 20) (-60)); [| lra]. destruct (Rleb_spec (-100 - 20) (-80)); [| lra]. reflexivity.
Qed.
Lemma virtuoso_filter p up n : (0 < up)%Z -> forall i hs, harmonics_from p i n = Ok hs -> virtuoso_harmonics p up i n = Ok (drawn_harmonics p up hs).
Proof.
  intros U. assert (DR : forall hs, drawn_harmonics p up hs = filter (fun h => (Z.of_nat (fst h) <=? up)%Z && should_label_harmonic (Fin (snd (snd h))) (line_level p) 20) hs) by (intros hs; unfold drawn_harmonics; destruct (Z.ltb_spec 0 up); [reflexivity | lia]).
  induction n as [| n IH]; intros i hs H; cbn [harmonics_from virtuoso_harmonics] in *.
  - apply Ok_inj in H. subst hs. rewrite DR. reflexivity.
  - destruct (mem (i + 2) (pi_collided p)); [rewrite orb_true_r; apply IH, H |]. rewrite orb_false_r.
    destruct (nth_error (pi_harm_bins p) i) as [b |]; [| discriminate]. destruct (zget (pi_db p) b) as [v |]; [| discriminate]. cbn [bind] in H.
    destruct (harmonics_from p (S i) n) as [rest |] eqn:ER; [| discriminate]. cbn [bind] in H. apply Ok_inj in H. subst hs. specialize (IH _ _ ER). rewrite DR in *. cbn [filter fst snd].
    destruct (Z.ltb_spec up (Z.of_nat (i + 2))) as [L | L]; destruct (Z.leb_spec (Z.of_nat (i + 2)) up) as [L' | L']; try lia; cbn [andb]; [exact IH |].
    cbn [bind]. rewrite IH. cbn [bind]. destruct (should_label_harmonic _ _ _); reflexivity.
Qed.
(** The two plots agree: where the light plot is drawn, the dark one is too, with the same curve, frequency axis,
    marked harmonics, fundamental, spur position, dashed line and place of the text block. *)
Lemma c139_both_plots xa p st st' up fig mk base : plot_spectrum xa p st true up = Ok fig -> fg_marks fig = Some mk ->
  exists b fig' mk', plot_virtuoso xa p st' true up base = Ok (b, fig') /\ fg_marks fig' = Some mk' /\
  fg_curve fig' = fg_curve fig /\ fg_xlim fig' = fg_xlim fig /\ mk_harm mk' = mk_harm mk /\ mk_fund mk' = mk_fund mk /\ mk_spur mk' = mk_spur mk /\
  mk_noise_line mk' = mk_noise_line mk /\ mk_block_x mk' = mk_block_x mk /\ tl (mk_rows mk') = tl (mk_rows mk).
Proof.
  intros H EM. destruct (plot_ok _ _ _ _ _ _ H) as (sd & nb & hs & x0 & l0 & fund & E1 & _ & EH & _ & EF & E). cbv zeta in E. destruct (EF eq_refl) as (fx & fy & -> & F1 & F2). subst fig. cbn [fg_marks] in EM. injection EM as <-.
  unfold plot_virtuoso. rewrite E1. cbn [bind negb]. rewrite F1, F2. cbn [bind].
  assert (EV : (match pi_harm_bins p with [] => Ok [] | _ => if (0 <? up)%Z then virtuoso_harmonics p up 0 (List.length (pi_harm_dbc p)) else Ok [] end) = Ok (drawn_harmonics p up hs)).
  { unfold harmonics in EH. destruct (pi_harm_bins p) as [| b bs]; [apply Ok_inj in EH; subst hs; unfold drawn_harmonics; destruct (0 <? up)%Z; reflexivity |].
    destruct (Z.ltb_spec 0 up) as [U | U]; [apply virtuoso_filter; [exact U | exact EH] |]. unfold drawn_harmonics. destruct (Z.ltb_spec 0 up); [lia | reflexivity]. }
  rewrite EV. cbn [bind]. do 3 eexists. split; [reflexivity |]. cbn [fg_marks fg_curve fg_xlim]. split; [reflexivity |]. cbn [mk_harm mk_fund mk_spur mk_noise_line mk_block_x mk_rows]. repeat split; reflexivity.
Qed.
Lemma c139_both_plots_ex xa : exists b fig mk, plot_virtuoso xa demo true true 3 None = Ok (b, fig) /\ fg_marks fig = Some mk /\ map fst (mk_harm mk) = [2; 3]%nat.
Proof.
  destruct (c139_marked_ex xa) as (fig & mk & H & EM & EH). destruct (c139_both_plots xa demo true true 3%Z fig mk None H EM) as (b & fig' & mk' & H' & EM' & _ & _ & E & _). exists b, fig', mk'. rewrite E. split; [exact H' |]. split; [exact EM' | exact EH].
Qed.
(** Whatever compute_spectrum returns can be drawn when every harmonic bin is a bin of the spectrum. *)
Lemma harmonics_defined p n : forall i, (i + n <= List.length (pi_harm_bins p))%nat -> (forall b, In b (pi_harm_bins p) -> (0 <= b < Z.of_nat (List.length (pi_db p)))%Z) -> exists hs, harmonics_from p i n = Ok hs.
Proof.
  induction n as [| n IH]; intros i Hi HB; cbn [harmonics_from]; [eexists; reflexivity |]. destruct (IH (S i) ltac:(lia) HB) as [rest ER]. rewrite ER. destruct (mem _ _); [eexists; reflexivity |].
  destruct (nth_error (pi_harm_bins p) i) as [b |] eqn:EB; [| apply nth_error_None in EB; lia]. destruct (HB b ltac:(eapply nth_error_In; exact EB)) as [B1 B2].
  assert (EZ : zget (pi_db p) b = Ok (nth (Z.to_nat b) (pi_db p) 0)) by (apply zget_nat; [exact B1 | apply nth_error_nth'; lia]). rewrite EZ. cbn [bind]. eexists. reflexivity.
Qed.
Lemma nget_ok l i : (i < List.length l)%nat -> nget l i = Ok (nth i l 0).
Proof. intros H. apply zget_nat; [lia |]. rewrite Nat2Z.id. apply nth_error_nth'. exact H. Qed.
Lemma fund_in_spectrum P nb : (1 <= nb <= List.length P)%nat -> (fundamental_bin P nb < nb)%nat.
Proof.
  intros H. unfold fundamental_bin. cbv zeta. assert (L : List.length (firstn nb P) = nb) by (rewrite firstn_length; lia). rewrite L. destruct (Nat.ltb_spec 1 nb); [| lia].
  destruct (firstn nb P) as [| a t]; [cbn [List.length] in L; lia |]. cbn [tl List.length] in *. destruct (argmax_spec t) as [A _]; [intros ->; cbn [List.length] in L; lia | lia].
Qed.
Lemma zero_range_len lo hi l : List.length (zero_range lo hi l) = List.length l.
Proof. unfold zero_range. rewrite map_length, seq_length. reflexivity. Qed.
Lemma spur_in_spectrum P nb f sb : (1 <= nb <= List.length P)%nat -> (argmax (zeroed P nb f sb) < nb)%nat.
Proof.
  intros H. assert (L : List.length (zeroed P nb f sb) = nb) by (unfold zeroed; cbv zeta; rewrite !zero_range_len, firstn_length; lia).
  destruct (argmax_spec (zeroed P nb f sb)) as [A _]; [intros E; rewrite E in L; cbn [List.length] in L; lia | lia].
Qed.
Lemma drawable_plot xa r P M N nb fs osr wt w side mh nf assumed coh st sl up : analyse_power P M N nb fs osr wt w side mh nf assumed = Ok r -> inband_count (Z.of_nat N) osr = Ok (Z.of_nat nb) ->
  List.length P = (N / 2 + 1)%nat -> (1 <= nb <= N / 2 + 1)%nat -> (forall b, In b (sp_harm_bins r) -> (0 <= b <= Z.of_nat (N / 2))%Z) ->
  exists fig, plot_spectrum xa (plot_input_of r N M fs osr coh) st sl up = Ok fig.
Proof.
  intros HA EI LP Hnb HB. pose proof (analyse_fields _ _ _ _ _ _ _ _ _ _ _ _ _ HA) as (E1 & _ & E2 & _ & _ & _ & _ & _ & E3 & _ & E4 & _). destruct (analyse_more _ _ _ _ _ _ _ _ _ _ _ _ _ HA) as (A1 & _ & A2 & _).
  set (p := plot_input_of r N M fs osr coh). assert (LD : List.length (pi_db p) = (N / 2 + 1)%nat) by (cbn [p plot_input_of pi_db]; unfold spectrum_db; rewrite map_length, E1; exact LP).
  assert (LF : List.length (pi_freq p) = (N / 2 + 1)%nat) by (cbn [p plot_input_of pi_freq]; rewrite map_length, seq_length, E1; exact LP).
  assert (SB : (pi_spur p < N / 2 + 1)%nat) by (cbn [p plot_input_of pi_spur]; rewrite E4; pose proof (spur_in_spectrum P nb (sp_fund r) (sp_side r) ltac:(lia)); lia).
  assert (FB : (pi_fund p < N / 2 + 1)%nat) by (cbn [p plot_input_of pi_fund]; rewrite E2; pose proof (fund_in_spectrum P nb ltac:(lia)); lia).
  assert (HH : exists hs, harmonics p = Ok hs).
  { destruct (harmonics_defined p (List.length (pi_harm_dbc p)) 0) as [hs EH]; [cbn [p plot_input_of pi_harm_bins pi_harm_dbc]; rewrite A2, A1, !map_length; lia | intros b' Hb'; rewrite LD; specialize (HB b' Hb'); lia |].
    unfold harmonics. destruct (pi_harm_bins p); [eexists; reflexivity | exists hs; exact EH]. }
  destruct HH as [hs HH]. unfold plot_spectrum. rewrite (nget_ok _ _ ltac:(rewrite LD; exact SB)). cbn [bind]. replace (inband_count (Z.of_nat (pi_N p)) (pi_osr p)) with (Ok (Z.of_nat nb)) by (symmetry; exact EI). cbn [bind]. rewrite HH. cbn [bind].
  rewrite (nget_ok _ _ ltac:(rewrite LF; exact FB)), (nget_ok (pi_db p) _ ltac:(rewrite LD; exact FB)).
  assert (LB : List.length (firstn (Z.to_nat (Z.of_nat nb)) (pi_db p)) = nb) by (rewrite Nat2Z.id, firstn_length, LD; lia).
  destruct (firstn (Z.to_nat (Z.of_nat nb)) (pi_db p)) as [| a t]; [cbn [List.length] in LB; lia |]. destruct sl; cbn [bind]; eexists; reflexivity.
Qed.
(** Analysing and plotting never fails where analysing alone succeeds, for records of even length and for tones in the middle of a bin. *)
Lemma c139_drawable kz cz xa data fs sc wt side osr mh nf assumed r st sl up rows : compute_spectrum kz cz data fs sc wt side osr mh nf assumed 0 = Ok r ->
  prepare_fft_input data sc = Ok rows -> Nat.Even (ncols rows) \/ (exists k, sp_frac r = IZR k) ->
  exists fig, analyze_spectrum kz cz xa data fs sc wt side osr mh nf assumed true st sl up = Ok (r, Some fig).
Proof.
  intros H EP HC. unfold analyze_spectrum. rewrite H, EP. cbn [bind].
  apply compute_inv in H. destruct H as (rows' & nb & P & EP' & EI & EC & HA & Pn & LP & Hnb & HN). rewrite EP in EP'. apply Ok_inj in EP'. subst rows'. cbv zeta in *.
  pose proof (analyse_fields _ _ _ _ _ _ _ _ _ _ _ _ _ HA) as (_ & _ & _ & _ & _ & _ & _ & _ & E3 & _).
  destruct (drawable_plot xa r P (List.length rows) (ncols rows) nb fs osr wt _ side mh nf assumed false st sl up HA EI LP Hnb) as [fig EF]; [| rewrite EF; cbn [bind]; exists fig; reflexivity].
  intros b Hb. rewrite E3 in Hb. apply In_nth_error in Hb. destruct Hb as [i Hi].
  assert (Li : (i < Z.to_nat mh - 1)%nat) by (assert (Q : nth_error (harmonic_bins (sp_frac r) (Z.to_nat mh) (ncols rows)) i <> None) by (rewrite Hi; discriminate); apply nth_error_Some in Q; unfold harmonic_bins in Q; rewrite map_length, seq_length in Q; exact Q).
  destruct HC as [HE | [k HK]].
  - destruct (c24_even_length (sp_frac r) (Z.to_nat mh) (ncols rows) i HN HE Li) as (b' & d & Eb & _ & _ & B). rewrite Hi in Eb. injection Eb as <-. exact B.
  - rewrite HK in Hi. destruct (c24_integer_fundamental k (Z.to_nat mh) (ncols rows) i HN Li) as (b' & Eb & _ & B). rewrite Hi in Eb. injection Eb as <-. exact B.
Qed.
Lemma c139_drawable_ex kz cz xa : exists r fig,
  analyze_spectrum kz cz xa [map (multitone 64 3 7 (fun i => nth i [2; 0.02; 0.002] 0) (fun i => INR i) (fun i => nth i [5; 10; 15] 0)%nat) (seq 0 64)] 1 (ScalePeak 2) Hann (Some 1%nat) 1 5 3 None true true true 3 = Ok (r, Some fig) /\ sp_fund r = 5%nat.
Proof.
  destruct (c61_three_tones_ex kz cz) as (r & E & F & _). exists r.
  set (data := map _ (seq 0 64)) in *. assert (LD : List.length data = 64%nat) by (unfold data; rewrite map_length, seq_length; reflexivity). clearbody data.
  destruct (prepare_fft_input [data] (ScalePeak 2)) as [rows |] eqn:EP; [| unfold prepare_fft_input in EP; discriminate EP].
  assert (EN : ncols rows = 64%nat).
  { unfold prepare_fft_input in EP. replace (orient [data]) with [data] in EP by (unfold orient; cbn [List.length]; change (1 <? 1)%nat with false; rewrite andb_false_r; reflexivity). cbn [peak_of bind map] in EP. apply Ok_inj in EP. subst rows. unfold ncols. cbn [hd]. rewrite map_length. exact LD. }
  destruct (c139_drawable kz cz xa _ _ _ _ _ _ _ _ _ _ true true 3%Z rows E EP) as [fig EF]; [left; rewrite EN; exists 32%nat; reflexivity |]. exists fig. split; [exact EF | exact F].
Qed.
(** False for records of odd length: the second harmonic of a tone at bin 1.7 of 7 is taken to fold to bin 4, one past the last bin 3,
    and drawing the figure raises IndexError although the analysis of the same record succeeds. *)
Definition odd_A (i : nat) : R := nth i [1; / sqrt 10; / 100] 0.
Definition odd_J (i : nat) : nat := nth i [2; 1; 3]%nat 0%nat.
Definition odd_record : list R := map (multitone 7 3 0 odd_A (fun _ => 0) odd_J) (seq 0 7).
Lemma odd_J_range i : (i < 3)%nat -> (0 < odd_J i)%nat /\ (2 * odd_J i < 7)%nat.
Proof. intros H. do 3 (destruct i as [| i]; [cbn; lia |]). lia. Qed.
Lemma odd_bin k : (k <= 3)%nat -> rdft 7 (multitone 7 3 0 (fun i => odd_A i / 1) (fun _ => 0) odd_J) k = Cscale (7 * nth k [0; / sqrt 10; 1; / 100] 0 / 2) (cis 0).
Proof.
  intros Hk. rewrite (rdft_ext 7 _ (fun n => rsum 3 (fun i => odd_A i / 1 * cos (2 * PI * INR (odd_J i) * INR n / INR 7 + 0)))) by (intros n _; unfold multitone; rewrite Rplus_0_l; reflexivity).
  rewrite (rdft_rsum 7 3 (fun i n => odd_A i / 1 * cos (2 * PI * INR (odd_J i) * INR n / INR 7 + 0))).
  rewrite (csum_ext 3 _ (fun i => if (k =? odd_J i)%nat then Cscale (INR 7 * (odd_A i / 1) / 2) (cis 0) else C0)).
  2:{ intros i Hi. rewrite tone_rdft by (try apply odd_J_range; try exact Hi; exact Hk). destruct (odd_J_range i Hi). destruct (Nat.eqb_spec (odd_J i) 0); [lia | reflexivity]. }
  cbn [csum]. unfold odd_A, odd_J. replace (INR 7) with 7 by (simpl; lra).
  do 4 (destruct k as [| k]; [cbn [nth Nat.eqb]; unfold Cplus, Cscale, C0; cbn [fst snd]; f_equal; field; try (apply Rgt_not_eq, sqrt_lt_R0; lra) |]). lia.
Qed.
Lemma odd_power kz cz : corrected_power [map (multitone 7 3 0 (fun i => odd_A i / 1) (fun _ => 0) odd_J) (seq 0 7)] (create_window kz cz Boxcar 7) 7 = [0; / 10; 1; / 10000].
Proof.
  assert (W : create_window kz cz Boxcar 7 = [1; 1; 1; 1; 1; 1; 1]) by reflexivity. rewrite W. unfold corrected_power. rewrite correction_general by (cbn [lsum]; lra).
  replace (4 / lmean (map (fun x => x ^ 2) [1; 1; 1; 1; 1; 1; 1])) with 4 by (unfold lmean; cbn [map lsum List.length]; replace (INR 7) with 7 by (simpl; lra); field).
  unfold power_average. rewrite map_map. change (7 / 2 + 1)%nat with 4%nat.
  set (row := map (multitone 7 3 0 (fun i => odd_A i / 1) (fun _ => 0) odd_J) (seq 0 7)). assert (LR : List.length row = 7%nat) by (unfold row; rewrite map_length, seq_length; reflexivity).
  assert (B : forall k, (k <= 3)%nat -> power_bin 7 (windowed [row] [1; 1; 1; 1; 1; 1; 1]) k * 4 = nth k [0; / 10; 1; / 10000] 0).
  { intros k Hk. unfold power_bin, windowed. cbn [map]. unfold lmean. cbn [map lsum List.length]. replace (INR 1) with 1 by reflexivity. replace (INR 7) with 7 by (simpl; lra).
    assert (E : rfft (map2 Rmult row [1; 1; 1; 1; 1; 1; 1]) k = Cscale (7 * nth k [0; / sqrt 10; 1; / 100] 0 / 2) (cis 0)).
    { unfold rfft. rewrite map2_length by (rewrite LR; reflexivity). rewrite LR. rewrite <- (odd_bin k Hk). apply rdft_ext. intros n Hn. unfold row.
      do 7 (destruct n as [| n]; [cbn [map seq map2 nth]; ring |]). lia. }
    rewrite E. rewrite Cmod_scale, Cmod_cis, Rmult_1_r, RPow_abs. rewrite Rabs_pos_eq by apply pow2_ge_0.
    assert (S10 : (/ sqrt 10) ^ 2 = / 10) by (rewrite pow_inv; rewrite <- (Rsqr_pow2 (sqrt 10)), Rsqr_sqrt by lra; reflexivity).
    change (Nat.even 7) with false. cbn [andb].
    do 4 (destruct k as [| k]; [cbn [nth Nat.eqb]; try field; try (set (q := / sqrt 10) in *; replace (((7 * q / 2) ^ 2 + 0) / 1 / 7 ^ 2 * 4) with (q ^ 2) by field; exact S10) |]). lia. }
  cbn [seq map]. rewrite !B by lia. reflexivity.
Qed.
Lemma odd_fund : fundamental_bin [0; / 10; 1; / 10000] 4 = 2%nat.
Proof.
  unfold fundamental_bin. cbn [firstn List.length Nat.ltb Nat.leb tl argmax argmax_from]. destruct (Rltb_spec (/ 10) 1); [| lra]. destruct (Rltb_spec 1 (/ 10000)); [lra | reflexivity].
Qed.
Lemma odd_frac : fundamental_frac [0; / 10; 1; / 10000] 4 = 1.7.
Proof.
  unfold fundamental_frac. rewrite odd_fund. cbn [firstn List.length Nat.ltb Nat.leb Nat.sub andb Nat.add nth].
  assert (L1 : log_floor (/ 10) = -1) by (unfold log_floor; rewrite Rmax_left by lra; rewrite ln_Rinv by lra; field; apply Rgt_not_eq; rewrite <- ln_1; apply ln_increasing; lra).
  assert (L2 : log_floor 1 = 0) by (unfold log_floor; rewrite Rmax_left by lra; rewrite ln_1; unfold Rdiv; ring).
  assert (L3 : log_floor (/ 10000) = -4) by (unfold log_floor; rewrite Rmax_left by lra; rewrite ln_Rinv by lra; replace 10000 with (10 ^ 4) by lra; rewrite ln_pow by lra; replace (INR 4) with 4 by (simpl; lra); field; apply Rgt_not_eq; rewrite <- ln_1; apply ln_increasing; lra).
  rewrite L1, L2, L3. rewrite Rmin_right by lra. destruct (Rleb_spec (0 - 4) (-4)); [| lra]. destruct (Reqb_spec (2 * (2 * 0 - -1 - -4)) 0); [lra |]. replace (INR 2) with 2 by reflexivity. lra.
Qed.
Lemma odd_bins : harmonic_bins 1.7 2 7 = [4%Z].
Proof.
  unfold harmonic_bins. cbn [Nat.sub seq map Nat.add]. f_equal. unfold fold_bin. change (Z.of_nat 7) with 7%Z. change (INR 2) with (1 + 1).
  replace (Zfloor (1.7 * (1 + 1) / 7)) with 0%Z by (symmetry; apply Zfloor_imp; simpl; lra). change (7 / 2)%Z with 3%Z. destruct (Rltb_spec 3 (1.7 * (1 + 1) - 7 * 0)); [| lra].
  apply Znearest_imp. unfold Rabs. destruct (Rcase_abs _); lra.
Qed.
Lemma c139_odd_refuted : exists data : list R, forall kz cz xa fs st sl up,
  (exists r, compute_spectrum kz cz [data] fs (ScalePeak 1) Boxcar (Some 0%nat) 1 2 0 None 0 = Ok r) /\
  analyze_spectrum kz cz xa [data] fs (ScalePeak 1) Boxcar (Some 0%nat) 1 2 0 None true st sl up = Err IndexError.
Proof.
  exists odd_record. intros kz cz xa fs st sl up.
  destruct (c61_defined kz cz odd_record fs 1 Boxcar 0 1 2 0) as (r & H & _); [discriminate | lra | lia | lia |]. split; [exists r; exact H |].
  assert (EP : prepare_fft_input [odd_record] (ScalePeak 1) = Ok [map (multitone 7 3 0 (fun i => odd_A i / 1) (fun _ => 0) odd_J) (seq 0 7)]) by (apply prepare_tones; [lia | apply odd_J_range | lra]).
  unfold analyze_spectrum. rewrite H, EP. cbn [bind]. apply compute_inv in H. destruct H as (rows & nb & P & EP' & EI & EC & HA & Pn & LP & Hnb & HN). rewrite EP in EP'. apply Ok_inj in EP'. subst rows. cbv zeta in *.
  change (ncols [map (multitone 7 3 0 (fun i => odd_A i / 1) (fun _ => 0) odd_J) (seq 0 7)]) with 7%nat in *. cbn [List.length] in HA.
  unfold apply_cutoff in EC. destruct (Rltb_spec 0 0); [lra |]. rewrite odd_power in EC. apply Ok_inj in EC. subst P.
  assert (NB : nb = 4%nat) by (rewrite c23_full_band in EI by (lra || lia); apply Ok_inj in EI; change (Z.of_nat 7 / 2 + 1)%Z with 4%Z in EI; lia). subst nb.
  pose proof (analyse_fields _ _ _ _ _ _ _ _ _ _ _ _ _ HA) as (E1 & _ & E2 & EF & ES & _ & _ & _ & E3 & _ & E4 & _). destruct (analyse_more _ _ _ _ _ _ _ _ _ _ _ _ _ HA) as (A1 & AC & A2 & _).
  rewrite odd_fund in E2. rewrite odd_frac in EF. rewrite EF in E3. change (Z.to_nat 2) with 2%nat in E3. rewrite odd_bins in E3. rewrite E2, E3 in AC. rewrite ES in AC. cbn in AC.
  set (p := plot_input_of r 7 1 fs 1 false). assert (LD : List.length (pi_db p) = 4%nat) by (cbn [p plot_input_of pi_db]; unfold spectrum_db; rewrite map_length, E1; reflexivity).
  assert (EH : harmonics p = Err IndexError).
  { unfold harmonics. replace (pi_harm_bins p) with [4%Z] by (symmetry; exact E3). replace (List.length (pi_harm_dbc p)) with 1%nat by (cbn [p plot_input_of pi_harm_dbc]; rewrite A2, A1, E3; reflexivity).
    cbn [harmonics_from]. replace (pi_collided p) with (@nil nat) by (symmetry; exact AC). replace (pi_harm_bins p) with [4%Z] by (symmetry; exact E3). cbn [mem existsb nth_error]. unfold zget. rewrite LD. reflexivity. }
  match goal with |- context [plot_spectrum _ ?q _ _ _] => change q with p end. unfold plot_spectrum. assert (SB : (pi_spur p < 4)%nat) by (cbn [p plot_input_of pi_spur]; rewrite E4; apply spur_in_spectrum; cbn [List.length]; lia). rewrite (nget_ok _ _ ltac:(rewrite LD; exact SB)). cbn [bind].
  replace (inband_count (Z.of_nat (pi_N p)) (pi_osr p)) with (Ok (Z.of_nat 4)) by (symmetry; exact EI). cbn [bind]. 
  rewrite EH. reflexivity.
Qed.

(* ---------- C140: text block ---------- *)
Lemma fmt2_reads x : reads false (fmt2 x) x.
Proof. destruct x; [| reflexivity ..]. cbn [fmt2 reads]. split; [eexists; reflexivity |]. replace x with (x / 1) at 1 by lra. apply fixed_says. reflexivity. Qed.
Lemma fmt2_or_na_reads x : reads true (fmt2_or_na x) x.
Proof. destruct x; [| reflexivity ..]. cbn [fmt2_or_na reads]. split; [eexists; reflexivity |]. replace x with (x / 1) at 1 by lra. apply fixed_says. reflexivity. Qed.
Lemma plot_marks xa p st up fig mk : plot_spectrum xa p st true up = Ok fig -> fg_marks fig = Some mk ->
  mk_rows mk = metric_rows p (format_fin (INR (pi_fund p) / INR (pi_N p) * pi_fs p)) /\ mk_block_x mk = block_x p /\
  mk_span mk = combine (slice (pi_start p) (pi_end p) (pi_freq p)) (slice (pi_start p) (pi_end p) (pi_db p)) /\
  (pi_osr p <= 1 -> let ratio := INR (pi_fund p) / INR (pi_N p) in
     mk_sig_x mk = (ratio + (if Rltb 0.4 ratio then - 0.01 else 0.01)) * pi_fs p /\ mk_sig_ha mk = (if Rltb 0.4 ratio then HRight else HLeft)) /\
  fg_title fig = (if st then plot_title p else TNone) /\ fg_xlim fig = (pi_fs p / INR (pi_N p), pi_fs p / 2).
Proof.
  intros H EM. destruct (plot_ok _ _ _ _ _ _ H) as (sd & nb & hs & x0 & l0 & fund & _ & _ & _ & _ & _ & E). cbv zeta in E. subst fig. cbn [fg_marks] in EM. injection EM as <-. cbn [mk_rows mk_block_x mk_span mk_sig_x mk_sig_ha fg_title fg_xlim].
  repeat split; try reflexivity; destruct (Rltb_spec 1 (pi_osr p)); try lra; reflexivity.
Qed.
(** The eight rows every text block has, in order, with the numbers they show. *)
Lemma c140_metrics xa p st up fig mk : plot_spectrum xa p st true up = Ok fig -> fg_marks fig = Some mk ->
  exists fin rate enob sndr sfdr thd snr floor nsd notes,
  mk_rows mk = [RFreq fin rate; RMetric "ENoB" enob; RMetric "SNDR" sndr; RMetric "SFDR" sfdr; RMetric "THD" thd; RMetric "SNR" snr;
                RMetric "Noise Floor" floor; RMetric "NSD" nsd] ++ notes /\
  says rate (pi_fs p) /\ (let f := INR (pi_fund p) / INR (pi_N p) * pi_fs p in f < 1 \/ 1000 <= f -> says fin f) /\
  reads false enob (pi_enob p) /\ reads false sndr (pi_sndr p) /\ reads false sfdr (pi_sfdr p) /\ reads false thd (pi_thd p) /\
  reads true snr (pi_snr p) /\ reads true floor (pi_floor p) /\ reads true nsd (pi_nsd p) /\
  (forall r, In r notes -> match r with ROsr _ | RGain _ | RCollided _ => True | _ => False end).
Proof.
  intros H EM. destruct (plot_marks _ _ _ _ _ _ H EM) as (-> & _). unfold metric_rows. do 10 eexists. split; [reflexivity |].
  split; [apply c138_rate_text |]. split; [cbv zeta; apply c138_fin_text |]. do 4 (split; [apply fmt2_reads |]). do 3 (split; [apply fmt2_or_na_reads |]).
  intros r Hr. apply in_app_iff in Hr. destruct Hr as [Hr | Hr].
  - destruct (_ && _); [destruct Hr as [<- | []]; exact I | destruct Hr].
  - unfold gain_and_collisions in Hr. apply in_app_iff in Hr. destruct Hr as [Hr | Hr]; [destruct (_ && _); [destruct Hr as [<- | []]; exact I | destruct Hr] |]. destruct (pi_collided p); [destruct Hr | destruct Hr as [<- | []]; exact I].
Qed.
Lemma demo_marks xa : exists fig mk, plot_spectrum xa demo true true 3 = Ok fig /\ fg_marks fig = Some mk.
Proof. destruct (c139_marked_ex xa) as (fig & mk & H & E & _). exists fig, mk. split; assumption. Qed.
Lemma c140_metrics_ex xa : exists fig mk enob, plot_spectrum xa demo true true 3 = Ok fig /\ fg_marks fig = Some mk /\ nth_error (mk_rows mk) 1 = Some (RMetric "ENoB" enob) /\ reads false enob (pi_enob demo).
Proof.
  destruct (demo_marks xa) as (fig & mk & H & E). exists fig, mk. destruct (c140_metrics _ _ _ _ _ _ H E) as (a & b & enob & x1 & x2 & x3 & x4 & x5 & x6 & x7 & -> & _ & _ & R & _). exists enob. split; [exact H |]. split; [exact E |]. split; [reflexivity | exact R].
Qed.
Lemma insN_In x l y : In y (insN x l) <-> y = x \/ In y l.
Proof. induction l as [| z t IH]; cbn [insN In]; [intuition |]. destruct (x <=? z)%nat; cbn [In]; [intuition |]. rewrite IH. intuition. Qed.
Lemma sortN_In l y : In y (sortN l) <-> In y l.
Proof. induction l as [| z t IH]; cbn [sortN fold_right In]; [tauto |]. fold (sortN t). rewrite insN_In, IH. intuition. Qed.
Lemma insN_sorted x l : StronglySorted le l -> StronglySorted le (insN x l).
Proof.
  induction l as [| z t IH]; intros H; cbn [insN]; [constructor; [constructor | constructor] |]. apply StronglySorted_inv in H. destruct H as [H1 H2]. destruct (Nat.leb_spec x z).
  - constructor; [constructor; assumption |]. constructor; [assumption |]. rewrite Forall_forall in *. intros y Hy. specialize (H2 y Hy). lia.
  - constructor; [apply IH, H1 |]. rewrite Forall_forall in *. intros y Hy. apply insN_In in Hy. destruct Hy as [-> | Hy]; [lia | apply H2, Hy].
Qed.
Lemma sortN_sorted l : StronglySorted le (sortN l).
Proof. induction l as [| z t IH]; [constructor |]. cbn [sortN fold_right]. apply insN_sorted, IH. Qed.
Lemma insN_length x l : List.length (insN x l) = S (List.length l).
Proof. induction l as [| z t IH]; cbn [insN List.length]; [reflexivity |]. destruct (x <=? z)%nat; cbn [List.length]; [reflexivity | rewrite IH; reflexivity]. Qed.
Lemma sortN_length l : List.length (sortN l) = List.length l.
Proof. induction l as [| z t IH]; [reflexivity |]. cbn [sortN fold_right]. fold (sortN t). rewrite insN_length, IH. reflexivity. Qed.
(** The optional rows: the oversampling ratio exactly when it exceeds one and there is a noise line, the processing gain exactly after coherent
    averaging of several records, and the collided harmonics, sorted, exactly when there are some. *)
Lemma c140_notes xa p st up fig mk : plot_spectrum xa p st true up = Ok fig -> fg_marks fig = Some mk ->
  ((exists t, In (ROsr t) (mk_rows mk)) <-> 1 < pi_osr p /\ xfinite (line_level p) = true) /\
  (forall t, In (ROsr t) (mk_rows mk) -> says (t, Unit) (pi_osr p)) /\
  ((exists t, In (RGain t) (mk_rows mk)) <-> pi_coherent p = true /\ (1 < pi_M p)%nat) /\
  (forall t, In (RGain t) (mk_rows mk) -> says (t, Unit) (10 * (ln (INR (pi_M p)) / ln 10))) /\
  ((exists l, In (RCollided l) (mk_rows mk)) <-> pi_collided p <> []) /\
  (forall l, In (RCollided l) (mk_rows mk) -> StronglySorted le l /\ List.length l = List.length (pi_collided p) /\ forall h, In h l <-> In h (pi_collided p)).
Proof.
  intros H EM. destruct (plot_marks _ _ _ _ _ _ H EM) as (-> & _). unfold metric_rows.
  set (base := [RFreq _ _; _; _; _; _; _; _; _]). assert (NB : forall r, In r base -> match r with ROsr _ | RGain _ | RCollided _ => False | _ => True end) by (intros r Hr; unfold base in Hr; cbn [In] in Hr; repeat (destruct Hr as [<- | Hr]; [exact I |]); destruct Hr).
  clearbody base. set (o := if _ && _ then [ROsr _] else []).
  assert (IO : forall r, In r o <-> r = ROsr (fixed 2 (pi_osr p)) /\ 1 < pi_osr p /\ xfinite (line_level p) = true).
  { intros r. unfold o. destruct (Rltb_spec 1 (pi_osr p)); destruct (xfinite (line_level p)); cbn [andb In]; split; intros Q; try (destruct Q as [<- | []]; repeat split; assumption || reflexivity); try (destruct Q as [-> _]; left; reflexivity); try (destruct Q; fail); try (exfalso; destruct Q as (_ & ? & ?); lra || discriminate). }
  clearbody o. unfold gain_and_collisions. set (g := if _ && _ then [RGain _] else []).
  assert (IG : forall r, In r g <-> r = RGain (fixed 2 (10 * (ln (INR (pi_M p)) / ln 10))) /\ pi_coherent p = true /\ (1 < pi_M p)%nat).
  { intros r. unfold g. destruct (pi_coherent p); destruct (Nat.ltb_spec 1 (pi_M p)); cbn [andb In]; split; intros Q; try (destruct Q as [<- | []]; repeat split; assumption || reflexivity); try (destruct Q as [-> _]; left; reflexivity); try (destruct Q; fail); try (exfalso; destruct Q as (_ & ? & ?); lia || discriminate). }
  clearbody g. set (c := match pi_collided p with [] => [] | _ => _ end).
  assert (IC : forall r, In r c <-> r = RCollided (sortN (pi_collided p)) /\ pi_collided p <> []).
  { intros r. unfold c. destruct (pi_collided p) as [| h t]; cbn [In]; split; intros Q; [destruct Q | destruct Q as [_ Q]; contradiction | destruct Q as [<- | []]; split; [reflexivity | discriminate] | destruct Q as [-> _]; left; reflexivity]. }
  clearbody c.
  assert (IA : forall r, In r (base ++ o ++ g ++ c) <-> In r base \/ In r o \/ In r g \/ In r c) by (intros r; rewrite !in_app_iff; tauto).
  assert (FS : forall x, says (fixed 2 x, Unit) x) by (intros x; replace x with (x / 1) at 1 by lra; apply fixed_says; reflexivity).
  assert (QO : forall t, In (ROsr t) (base ++ o ++ g ++ c) <-> t = fixed 2 (pi_osr p) /\ 1 < pi_osr p /\ xfinite (line_level p) = true).
  { intros t. rewrite IA, IO, IG, IC. split; [intros [Q | [[Q Q'] | [[Q _] | [Q _]]]]; [destruct (NB _ Q) | injection Q as ->; split; [reflexivity | exact Q'] | discriminate | discriminate] | intros [-> Q]; right; left; split; [reflexivity | exact Q]]. }
  assert (QG : forall t, In (RGain t) (base ++ o ++ g ++ c) <-> t = fixed 2 (10 * (ln (INR (pi_M p)) / ln 10)) /\ pi_coherent p = true /\ (1 < pi_M p)%nat).
  { intros t. rewrite IA, IO, IG, IC. split; [intros [Q | [[Q _] | [[Q Q'] | [Q _]]]]; [destruct (NB _ Q) | discriminate | injection Q as ->; split; [reflexivity | exact Q'] | discriminate] | intros [-> Q]; right; right; left; split; [reflexivity | exact Q]]. }
  assert (QC : forall t, In (RCollided t) (base ++ o ++ g ++ c) <-> t = sortN (pi_collided p) /\ pi_collided p <> []).
  { intros t. rewrite IA, IO, IG, IC. split; [intros [Q | [[Q _] | [[Q _] | [Q Q']]]]; [destruct (NB _ Q) | discriminate | discriminate | injection Q as ->; split; [reflexivity | exact Q']] | intros [-> Q]; right; right; right; split; [reflexivity | exact Q]]. }
  split; [split; [intros [t Q]; apply QO in Q; tauto | intros Q; eexists; apply QO; split; [reflexivity | exact Q]] |].
  split; [intros t Q; apply QO in Q; destruct Q as [-> _]; apply FS |].
  split; [split; [intros [t Q]; apply QG in Q; tauto | intros Q; eexists; apply QG; split; [reflexivity | exact Q]] |].
  split; [intros t Q; apply QG in Q; destruct Q as [-> _]; apply FS |].
  split; [split; [intros [t Q]; apply QC in Q; tauto | intros Q; eexists; apply QC; split; [reflexivity | exact Q]] |].
  intros l Q. apply QC in Q. destruct Q as [-> _]. split; [apply sortN_sorted |]. split; [apply sortN_length | intros h; apply sortN_In].
Qed.
Lemma c140_notes_ex : sortN [5; 3; 4]%nat = [3; 4; 5]%nat.
Proof. reflexivity. Qed.
(** At most eleven rows, all between 34 and 94 percent of the height, so nothing of the block leaves the axes. *)
Lemma c140_block_height xa p st up fig mk : plot_spectrum xa p st true up = Ok fig -> fg_marks fig = Some mk ->
  (8 <= List.length (mk_rows mk) <= 11)%nat /\ forall i, (i < List.length (mk_rows mk))%nat -> 0.34 <= row_y i <= 0.94 /\ (forall j, (i < j)%nat -> row_y j + 0.06 <= row_y i).
Proof.
  intros H EM. destruct (plot_marks _ _ _ _ _ _ H EM) as (-> & _).
  assert (L : (8 <= List.length (metric_rows p (format_fin (INR (pi_fund p) / INR (pi_N p) * pi_fs p))) <= 11)%nat).
  { unfold metric_rows, gain_and_collisions. rewrite !app_length. cbn [List.length]. destruct (_ && _), (_ && _), (pi_collided p); cbn [List.length]; lia. }
  split; [exact L |]. intros i Hi. unfold row_y. assert (I0 : (i <= 10)%nat) by (clear - L Hi; lia). apply le_INR in I0. replace (INR 10) with 10 in I0 by (simpl; lra). pose proof (pos_INR i). split; [lra |].
  intros j Hj. apply le_INR in Hj. rewrite S_INR in Hj. lra.
Qed.
Lemma c140_block_height_ex : row_y 0 = 0.94 /\ row_y 10 = 0.34.
Proof. unfold row_y. simpl. split; lra. Qed.
(** The block keeps clear of the fundamental: it starts at 60 percent of the width when the fundamental is in the left 40 percent, and
    otherwise at the left edge, with the fundamental at least about 40 percent across. *)
Lemma c140_block_side xa p st up fig mk : plot_spectrum xa p st true up = Ok fig -> fg_marks fig = Some mk -> (3 <= pi_N p)%nat -> 0 < pi_fs p -> pi_osr p <= 1 ->
  let t := along (fst (fg_xlim fig)) (snd (fg_xlim fig)) (INR (pi_fund p) / INR (pi_N p) * pi_fs p) in
  (mk_block_x mk = 0.60 /\ t < 0.4) \/ (mk_block_x mk = 0.02 /\ 0.4 - 1.2 / (INR (pi_N p) - 2) <= t).
Proof.
  intros H EM HN Hf Ho. destruct (plot_marks _ _ _ _ _ _ H EM) as (_ & -> & _ & _ & _ & ->). cbv zeta. cbn [fst snd]. unfold block_x, along. apply le_INR in HN. replace (INR 3) with 3 in HN by (simpl; lra).
  set (N := INR (pi_N p)) in *. set (f := INR (pi_fund p)) in *. set (fs := pi_fs p) in *. replace (fs / 2 - fs / N) with (fs * (N - 2) / (2 * N)) by (field; lra). replace ((f / N * fs - fs / N) / (fs * (N - 2) / (2 * N))) with ((2 * f - 2) / (N - 2)) by (field; repeat split; lra).
  destruct (Rltb_spec 1 (pi_osr p)); [lra |]. cbn [orb]. destruct (Rleb_spec 0.2 (f / N)) as [Q | Q]; [right | left]; (split; [reflexivity |]).
  - assert (0.2 * N <= f) by (apply (Rmult_le_compat_r N) in Q; [| lra]; unfold Rdiv in Q; rewrite (Rmult_assoc f), Rinv_l, Rmult_1_r in Q by lra; exact Q).
    change (1.2 / (N - 2)) with (1.2 * / (N - 2)). change ((2 * f - 2) / (N - 2)) with ((2 * f - 2) * / (N - 2)). set (u := / (N - 2)) in *.
    assert (U0 : 0 < u) by (apply Rinv_0_lt_compat; lra). assert (U1 : (N - 2) * u = 1) by (apply Rinv_r; lra). assert (U2 : 0.2 * N * u <= f * u) by (apply Rmult_le_compat_r; lra). lra.
  - assert (f < 0.2 * N) by (apply (Rmult_lt_compat_r N) in Q; [| lra]; unfold Rdiv in Q; rewrite (Rmult_assoc f), Rinv_l, Rmult_1_r in Q by lra; exact Q).
    apply (Rmult_lt_reg_r (N - 2)); [lra |]. unfold Rdiv. rewrite Rmult_assoc, Rinv_l, Rmult_1_r by lra. lra.
Qed.
(** The text at the fundamental starts a hundredth of the sampling rate away from it, inside the axis and reading towards the middle. *)
Lemma c140_signal_text xa p st up fig mk : plot_spectrum xa p st true up = Ok fig -> fg_marks fig = Some mk -> (3 <= pi_N p)%nat -> (1 <= pi_fund p <= pi_N p / 2)%nat -> 0 < pi_fs p -> pi_osr p <= 1 ->
  let f := INR (pi_fund p) / INR (pi_N p) * pi_fs p in
  fst (fg_xlim fig) <= mk_sig_x mk <= snd (fg_xlim fig) /\
  (f <= 0.4 * pi_fs p -> mk_sig_x mk = f + pi_fs p / 100 /\ mk_sig_ha mk = HLeft) /\ (0.4 * pi_fs p < f -> mk_sig_x mk = f - pi_fs p / 100 /\ mk_sig_ha mk = HRight).
Proof.
  intros H EM HN HF Hf Ho. destruct (plot_marks _ _ _ _ _ _ H EM) as (_ & _ & _ & ES & _ & ->). destruct (ES Ho) as [-> ->]. cbv zeta. cbn [fst snd].
  apply le_INR in HN. replace (INR 3) with 3 in HN by (simpl; lra). destruct HF as [F1 F2]. assert (F3 : (2 * pi_fund p <= pi_N p)%nat) by (pose proof (Nat.mul_div_le (pi_N p) 2 ltac:(lia)); lia). clear F2. apply le_INR in F1. apply le_INR in F3. rewrite mult_INR in F3. replace (INR 2) with 2 in F3 by reflexivity. replace (INR 1) with 1 in F1 by reflexivity.
  set (N := INR (pi_N p)) in *. set (f := INR (pi_fund p)) in *. set (fs := pi_fs p) in *.
  assert (R1 : 1 / N <= f / N) by (apply Rmult_le_compat_r; [apply Rlt_le, Rinv_0_lt_compat; lra | lra]). assert (R2 : f / N <= 1 / 2) by (apply (Rmult_le_reg_r N); [lra |]; unfold Rdiv; rewrite Rmult_assoc, Rinv_l by lra; lra).
  assert (R3 : 1 / N <= 1 / 3) by (apply Rmult_le_compat_l; [lra |]; apply Rinv_le_contravar; lra). replace (fs / N) with (1 / N * fs) by (field; lra). set (u := 1 / N) in *. set (r := f / N) in *.
  destruct (Rltb_spec 0.4 r).
  - split; [split; [apply Rmult_le_compat_r; lra | replace (fs / 2) with (1 / 2 * fs) by lra; apply Rmult_le_compat_r; lra] |]. split; intros Q; [exfalso; assert (0.4 * fs < r * fs) by (apply Rmult_lt_compat_r; lra); lra | split; [lra | reflexivity]].
  - split; [split; [apply Rmult_le_compat_r; lra | replace (fs / 2) with (1 / 2 * fs) by lra; apply Rmult_le_compat_r; lra] |]. split; intros Q; [split; [lra | reflexivity] | exfalso; assert (r * fs <= 0.4 * fs) by (apply Rmult_le_compat_r; lra); lra].
Qed.
Lemma c140_signal_text_ex xa : exists fig mk, plot_spectrum xa demo true true 3 = Ok fig /\ fg_marks fig = Some mk /\ mk_block_x mk = 0.60 /\ mk_sig_ha mk = HLeft /\ fg_title fig = TPower.
Proof.
  destruct (demo_marks xa) as (fig & mk & H & E). exists fig, mk. destruct (plot_marks _ _ _ _ _ _ H E) as (_ & -> & _ & ES & -> & _). destruct ES as [_ ->]; [cbn; lra |].
  split; [exact H |]. split; [exact E |]. unfold block_x. cbn [demo pi_osr pi_fund pi_N]. destruct (Rltb_spec 1 1); [lra |]. cbn [orb]. replace (INR 20) with 20 by (simpl; lra). replace (INR 3) with 3 by (simpl; lra).
  destruct (Rleb_spec 0.2 (3 / 20)); [lra |]. destruct (Rltb_spec 0.4 (3 / 20)); [lra |]. repeat split.
Qed.
(** The highlighted stretch of the curve consists of exactly the in-band bins counted as signal: those within the side bins of the fundamental. *)
Lemma slice_combine {A B : Type} (s e : nat) (a : list A) (b : list B) : combine (slice s e a) (slice s e b) = slice s e (combine a b).
Proof.
  unfold slice. assert (SK : forall n (x : list A) (y : list B), combine (skipn n x) (skipn n y) = skipn n (combine x y)).
  { induction n as [| n IH]; intros x y; [reflexivity |]. destruct x as [| u x]; [reflexivity |]. destruct y as [| v y]; [cbn [skipn combine]; destruct (skipn n x); reflexivity |]. cbn [skipn combine]. apply IH. }
  assert (FN : forall n (x : list A) (y : list B), combine (firstn n x) (firstn n y) = firstn n (combine x y)) by (induction n as [| n IH]; intros [| u x] [| v y]; cbn [firstn combine]; try reflexivity; rewrite IH; reflexivity).
  rewrite ?SK, ?FN, ?SK. reflexivity.
Qed.
Lemma nth_error_skip {A} (n : nat) : forall (l : list A) k, nth_error (skipn n l) k = nth_error l (n + k).
Proof. induction n as [| n IH]; intros l k; [reflexivity |]. destruct l as [| a l]; [cbn [skipn Nat.add nth_error]; destruct k; reflexivity |]. cbn [skipn Nat.add nth_error]. apply IH. Qed.
Lemma nth_error_first {A} (n : nat) : forall (l : list A) k, (k < n)%nat -> nth_error (firstn n l) k = nth_error l k.
Proof. induction n as [| n IH]; intros l k H; [lia |]. destruct l as [| a l]; [reflexivity |]. destruct k as [| k]; [reflexivity |]. cbn [firstn nth_error]. apply IH. lia. Qed.
Lemma slice_In {A} (s e : nat) (l : list A) x : In x (slice s e l) <-> exists k, (s <= k < e)%nat /\ nth_error l k = Some x.
Proof.
  unfold slice. split.
  - intros H. apply In_nth_error in H. destruct H as [i Hi]. assert (L : (i < e - s)%nat).
    { assert (Q : nth_error (firstn (e - s) (skipn s l)) i <> None) by (rewrite Hi; discriminate). apply nth_error_Some in Q. rewrite firstn_length in Q. lia. }
    rewrite nth_error_first, nth_error_skip in Hi by exact L. exists (s + i)%nat. split; [lia | exact Hi].
  - intros (k & Hk & E). apply (nth_error_In _ (k - s)). rewrite nth_error_first by lia. rewrite nth_error_skip. replace (s + (k - s))%nat with k by lia. exact E.
Qed.
Lemma nth_error_combine {A B} : forall (a : list A) (b : list B) k x y, nth_error (combine a b) k = Some (x, y) <-> nth_error a k = Some x /\ nth_error b k = Some y.
Proof.
  induction a as [| u a IH]; intros [| v b] [| k] x y; cbn [combine nth_error]; try (split; [discriminate | intros [? ?]; discriminate]); [| apply IH].
  split; [intros E; injection E as -> ->; split; reflexivity | intros [E1 E2]; injection E1 as ->; injection E2 as ->; reflexivity].
Qed.
Lemma c140_signal_span kz cz xa data fs sc wt side osr mh nf assumed st up r fig mk rows : analyze_spectrum kz cz xa data fs sc wt side osr mh nf assumed true st true up = Ok (r, Some fig) ->
  prepare_fft_input data sc = Ok rows -> fg_marks fig = Some mk ->
  forall x y, In (x, y) (mk_span mk) <-> exists k, (k < sp_inband r)%nat /\ (sp_fund r <= k + sp_side r)%nat /\ (k <= sp_fund r + sp_side r)%nat /\
    x = INR k * (fs / INR (ncols rows)) /\ y = 10 * (ln (nth k (sp_power r) 0 + / 10 ^ 20) / ln 10).
Proof.
  intros H EP EM x y. unfold analyze_spectrum in H. destruct (compute_spectrum kz cz data fs sc wt side osr mh nf assumed 0) as [r' |] eqn:EC; cbn [bind] in H; [| discriminate]. rewrite EP in H. cbn [bind] in H.
  destruct (plot_spectrum xa _ st true up) as [fig' |] eqn:EF; cbn [bind] in H; [| discriminate]. apply Ok_inj in H. injection H as -> ->.
  destruct (plot_marks _ _ _ _ _ _ EF EM) as (_ & _ & -> & _). cbn [plot_input_of pi_start pi_end pi_freq pi_db]. rewrite slice_combine, slice_In.
  apply compute_inv in EC. destruct EC as (rows' & nb & P & EP' & EI & ECut & HA & Pn & LP & Hnb & HN). rewrite EP in EP'. apply Ok_inj in EP'. subst rows'. cbv zeta in *.
  pose proof (analyse_fields _ _ _ _ _ _ _ _ _ _ _ _ _ HA) as (E1 & E2 & E3 & _ & _ & E4 & E5 & _). rewrite E4, E5, E2, E1. unfold spectrum_db.
  assert (NE : forall k, (k < List.length P)%nat -> nth_error (combine (map (fun k => INR k * (fs / INR (ncols rows))) (seq 0 (List.length P))) (map (fun p => 10 * (ln (p + / 10 ^ 20) / ln 10)) P)) k = Some (INR k * (fs / INR (ncols rows)), 10 * (ln (nth k P 0 + / 10 ^ 20) / ln 10))).
  { intros k Hk. apply nth_error_combine. split.
    - erewrite map_nth_error; [reflexivity |]. rewrite (nth_error_nth' _ O) by (rewrite seq_length; exact Hk). rewrite seq_nth by exact Hk. reflexivity.
    - rewrite (map_nth_error _ _ _ (nth_error_nth' P 0 Hk)). reflexivity. }
  split.
  - intros (k & Hk & E). exists k. rewrite NE in E by lia. injection E as <- <-. repeat split; lia.
  - intros (k & K1 & K2 & K3 & -> & ->). exists k. split; [lia | apply NE; lia].
Qed.
Lemma c140_signal_span_ex kz cz xa : exists r fig mk,
  analyze_spectrum kz cz xa [map (multitone 64 3 7 (fun i => nth i [2; 0.02; 0.002] 0) (fun i => INR i) (fun i => nth i [5; 10; 15] 0)%nat) (seq 0 64)] 1 (ScalePeak 2) Hann (Some 1%nat) 1 5 3 None true true true 3 = Ok (r, Some fig) /\
  fg_marks fig = Some mk /\ exists y, In (INR 6 * (1 / INR 64), y) (mk_span mk).
Proof.
  destruct (c139_drawable_ex kz cz xa) as (r & fig & E & F). exists r, fig.
  set (data := map _ (seq 0 64)) in *. assert (LD : List.length data = 64%nat) by (unfold data; rewrite map_length, seq_length; reflexivity). clearbody data.
  destruct (prepare_fft_input [data] (ScalePeak 2)) as [rows |] eqn:EP; [| unfold prepare_fft_input in EP; discriminate EP].
  assert (EN : ncols rows = 64%nat).
  { unfold prepare_fft_input in EP. replace (orient [data]) with [data] in EP by (unfold orient; cbn [List.length]; change (1 <? 1)%nat with false; rewrite andb_false_r; reflexivity). cbn [peak_of bind map] in EP. apply Ok_inj in EP. subst rows. unfold ncols. cbn [hd]. rewrite map_length. exact LD. }
  assert (EM : exists mk, fg_marks fig = Some mk).
  { pose proof E as E'. unfold analyze_spectrum in E'. destruct (compute_spectrum _ _ _ _ _ _ _ _ _ _ _ _) as [r' |]; cbn [bind] in E'; [| discriminate]. rewrite EP in E'. cbn [bind] in E'. destruct (plot_spectrum _ _ _ _ _) as [fig' |] eqn:EF; cbn [bind] in E'; [| discriminate].
    apply Ok_inj in E'. injection E' as _ <-. destruct (plot_ok _ _ _ _ _ _ EF) as (sd & nb & hs & x0 & l & fund & _ & _ & _ & _ & _ & Q). cbv zeta in Q. subst fig'. cbn [fg_marks]. eexists. reflexivity. }
  destruct EM as [mk EM]. exists mk. split; [exact E |]. split; [exact EM |].
  assert (Q : sp_inband r = 33%nat /\ sp_side r = 1%nat).
  { unfold analyze_spectrum in E. destruct (compute_spectrum _ _ _ _ _ _ _ _ _ _ _ _) as [r' |] eqn:EC; cbn [bind] in E; [| discriminate]. rewrite EP in E. cbn [bind] in E. destruct (plot_spectrum _ _ _ _ _) as [fig' |]; cbn [bind] in E; [| discriminate]. apply Ok_inj in E. injection E as -> _.
    apply compute_inv in EC. destruct EC as (rows' & nb & P & EP' & EI & ECut & HA & _). rewrite EP in EP'. apply Ok_inj in EP'. subst rows'. cbv zeta in *. pose proof (analyse_fields _ _ _ _ _ _ _ _ _ _ _ _ _ HA) as (_ & E2 & _ & _ & E3 & _). rewrite EN in EI. rewrite c23_full_band in EI by (lra || lia). apply Ok_inj in EI. change (Z.of_nat 64 / 2 + 1)%Z with 33%Z in EI. rewrite E2, E3. split; [lia | reflexivity]. }
  destruct Q as [Q1 Q2]. eexists. apply (c140_signal_span _ _ _ _ _ _ _ _ _ _ _ _ _ _ _ _ _ _ E EP EM). exists 6%nat. rewrite Q1, Q2, F, EN. split; [lia |]. split; [lia |]. split; [lia |]. split; reflexivity.
Qed.
(** The title names the averaging done and the number of records. *)
Lemma c140_title xa p st sl up fig : plot_spectrum xa p st sl up = Ok fig ->
  fg_title fig = (if st then match pi_coherent p, (2 <=? pi_M p)%nat with true, true => TCoherentAvg (pi_M p) | true, false => TCoherent | false, true => TPowerAvg (pi_M p) | false, false => TPower end else TNone).
Proof.
  intros H. destruct (plot_ok _ _ _ _ _ _ H) as (sd & nb & hs & x0 & l0 & fund & _ & _ & _ & _ & _ & E). cbv zeta in E. subst fig. cbn [fg_title]. unfold plot_title. change (1 <? pi_M p)%nat with (2 <=? pi_M p)%nat. destruct st, (pi_coherent p), (2 <=? pi_M p)%nat; reflexivity.
Qed.
Lemma c140_title_ex xa : exists fig, plot_spectrum xa demo true false 3 = Ok fig /\ fg_title fig = TPower /\ fg_marks fig = None.
Proof.
  destruct (demo_drawn xa true false 3%Z) as [fig H]. exists fig. split; [exact H |]. split; [rewrite (c140_title _ _ _ _ _ _ H); reflexivity |]. destruct (plot_ok _ _ _ _ _ _ H) as (sd & nb & hs & x0 & l0 & fund & _ & _ & _ & _ & _ & E). cbv zeta in E. subst fig. reflexivity.
Qed.
Lemma c140_block_side_ex : block_x demo = 0.60 /\ along 1000 10000 3000 < 0.4.
Proof.
  split; [| unfold along; lra]. unfold block_x. cbn [demo pi_osr pi_fund pi_N]. destruct (Rltb_spec 1 1); [lra |]. cbn [orb]. replace (INR 20) with 20 by (simpl; lra). replace (INR 3) with 3 by (simpl; lra). destruct (Rleb_spec 0.2 (3 / 20)); [lra | reflexivity].
Qed.
