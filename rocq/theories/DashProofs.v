(** * The dashboard of the digital output: the final lemmas are named c158_. *)
From Verif Require Import Base BaseLemmas Cplx FreqProofs UnitsModel SpecModel SpecLemmas SpecPrepProofs SpecProofs SineHistModel SineHistProofs SiggenModel SiggenProofs PlotModel PlotSpec PlotProofs DoutModel DoutSpec DoutProofs TiToneProofs CalModel CalSpec CalProofs CalMoreProofs CalExLemmas CalExProofs EnvModel EnvProofs SweepModel SweepSpec SweepProofs OsrSpec DrawModel DrawSpec DrawProofs PanelModel PanelSpec PanelProofs DplotModel DplotSpec DplotLemmas DplotProofs DashModel.
From Coq Require Import Psatz.
Local Open Scope R_scope.

(* ---------- C158: digital output ---------- *)
Lemma panel_defined kz cz xa x fs : x <> [] -> Nat.Even (length x) -> exists sp g, spectrum_panel kz cz xa x fs = Ok (sp, Some g).
Proof.
  intros NE EV. assert (D : exists sp, compute_spectrum kz cz [x] fs ScaleAuto Hann None 1 5 0 None 0 = Ok sp).
  { destruct (sweep_defined kz cz x 1 Hann NE ltac:(lra)) as (sp & E). unfold sweep_spectrum in E. unfold compute_spectrum in *. destruct (peak_one x NE) as [p P]. destruct (prepare_fft_input [x] ScaleAuto) as [rows|e] eqn:E1; [| discriminate].
    destruct (prepared_one _ _ E1) as (row & -> & L). cbn [bind length]. unfold ncols. cbn [hd]. rewrite L.
    assert (Lx : (0 < length x)%nat) by (destruct x; [contradiction|simpl; lia]). rewrite inband_eq by (lia || lra). cbn [bind].
    unfold apply_cutoff. destruct (Rltb_spec 0 0); [lra|]. cbn [bind]. apply analyse_defined; lia. }
  destruct D as (sp & D). exists sp. assert (PR : exists rows, prepare_fft_input [x] ScaleAuto = Ok rows) by (pose proof D as E'; unfold compute_spectrum in E'; destruct (prepare_fft_input [x] ScaleAuto) as [rows |]; [exists rows; reflexivity | discriminate E']).
  destruct PR as (rows & PR). apply (c139_drawable _ _ xa _ _ _ _ _ _ _ _ _ _ true true 3%Z rows D PR). left. destruct (prepared_one _ _ PR) as (row & -> & L). unfold ncols. cbn [hd]. rewrite L. exact EV.
Qed.
Lemma panel_affine kz cz xa x fs a b : 0 < a -> spectrum_panel kz cz xa (map (fun v => a * v + b) x) fs = spectrum_panel kz cz xa x fs.
Proof.
  intros Ha. unfold spectrum_panel, analyze_spectrum, compute_spectrum. change [map (fun v => a * v + b) x] with (affine a b [x]).
  rewrite (c51_gain_offset_invariant a b 1 (length x) [x] Ha); [reflexivity| |lia]. split; [reflexivity|]. intros m Hm. destruct m; [reflexivity|lia].
Qed.
(** What the calibration of one matrix returns. *)
Lemma calibrated_set lstsq rank est bits freq r : calibrate_weight_sine lstsq rank est [bits] freq None None 1 0.5 (1 / 10 ^ 12) 100 = Ok r -> (0 < m_n bits)%nat /\ (0 < m_m bits)%nat /\
  ((m_m bits <= m_n bits)%nat -> exists d, r_sets r = [d] /\ forall t, r_calibrated d t = rsum (m_m bits) (fun j => m_at bits t j * r_weight r j)).
Proof.
  unfold calibrate_weight_sine. unfold raise_if at 1. destruct (existsb _ _); [discriminate |].
  destruct (prepare_input [bits] None) as [[[segs bw] nw] |] eqn:P; [| discriminate]. cbn [bind]. cbv beta iota zeta.
  destruct (estimate_frequencies _ _ _) as [fr |]; [| discriminate]. cbn [bind].
  match goal with |- context [let '(_, _) := ?X in _] => destruct X as [[f' co] ch] end.
  destruct (recover_rank_deficiency _ _) as [w |]; [| discriminate]. cbn [bind]. intros E. apply Ok_inj in E.
  assert (SZ : (m_n bits * m_m bits <> 0)%nat) by (intros Z; unfold prepare_input in P; cbn [prepare_loop] in P; rewrite Z in P; discriminate P).
  split; [nia |]. split; [nia |]. intros T. unfold prepare_input in P. cbn [prepare_loop] in P. destruct (Nat.eqb_spec (m_n bits * m_m bits) 0); [contradiction |]. cbn [raise_if] in P.
  destruct (Nat.ltb_spec (m_n bits) (m_m bits)); [lia |]. cbn [raise_if bind setup_nominal_weights] in P. apply Ok_inj in P. injection P as <- <- <-. subst r.
  match goal with |- exists d, r_sets (post_process ?a ?b ?c ?e ?f ?g ?h ?i ?j ?k ?l) = _ /\ _ => pose proof (c40_invariants a b c e f g h i j k l) as K; cbv zeta in K; set (pp := post_process a b c e f g h i j k l) in * end.
  destruct K as (_ & L & Q); [intros [| d0] D; [reflexivity | cbn in D; lia] |].
  cbn [length] in L, Q. destruct (r_sets pp) as [| d [| ? ?]]; try discriminate L. exists d. split; [reflexivity |]. intros t. exact (proj1 (Q 0%nat t ltac:(lia))).
Qed.
Lemma rows_dot bits w : length w = m_m bits -> map (fun row => dot row w) (rows_of bits) = contribution (m_n bits) (m_at bits) (fun j => nth j w 0) (m_m bits).
Proof.
  intros L. unfold rows_of, contribution. rewrite map_map. apply map_ext. intros t. rewrite dot_rsum by (rewrite map_length, seq_length, L; reflexivity). rewrite map_length, seq_length. apply rsum_ext. intros j J. rewrite map_seq_nth by exact J. reflexivity.
Qed.
Definition nominal_weights (bits : mat) (weights : option (list R)) : list R := match weights with None => binary_weights (m_m bits) | Some l => l end.

(** Each panel is the single analysis of the same data.  The upper spectra are those of the record weighted with the nominal
    and with the calibrated weights (the first being powers of two unless given), the overflow and radix panels take the
    calibrated weights, and the sweep the refined frequency. *)
Lemma c158_panels kz cz xa argsort lstsq rank est bits freq weights d : generate_dout_dashboard kz cz xa argsort lstsq rank est bits freq weights = Ok d ->
  let n := m_n bits in let m := m_m bits in let rows := map (fun t => map (m_at bits t) (seq 0 m)) (seq 0 n) in
  let shown x := analyze_spectrum kz cz xa [x] 1 ScaleAuto Hann None 1 5 0 None true true true 3 in
  exists r w, calibrate_weight_sine lstsq rank est [bits] freq None None 1 0.5 (1 / 10 ^ 12) 100 = Ok r /\ (0 < m <= n)%nat /\
    length w = m /\ (forall l, weights = Some l -> w = l) /\ (weights = None -> forall j, (j < m)%nat -> nth j w 0 = 2 ^ (m - 1 - j)) /\
    shown (contribution n (m_at bits) (fun j => nth j w 0) m) = Ok (dd_nominal d) /\ shown (contribution n (m_at bits) (r_weight r) m) = Ok (dd_calibrated d) /\
    analyze_bit_activity rows m true = Ok (dd_activity d) /\ analyze_overflow_plot rows m (map (r_weight r) (seq 0 m)) None true = Ok (dd_overflow d) /\
    analyze_enob_sweep kz cz lstsq rank est bits (FScalar (r_freqs r 0%nat)) 1 1 Hamming true = Ok (dd_enob d) /\ analyze_radix_plot argsort (map (r_weight r) (seq 0 m)) true = Ok (dd_radix d).
Proof.
  intros E n m rows shown. unfold generate_dout_dashboard in E. fold (nominal_weights bits weights) in E. set (w := nominal_weights bits weights) in *. cbv zeta in E.
  destruct (calibrate_weight_sine _ _ _ _ _ _ _ _ _ _ _) as [r |] eqn:C; [| discriminate E]. cbn [bind] in E. destruct (calibrated_set _ _ _ _ _ _ C) as (Pn & Pm & CS).
  destruct (Nat.eqb_spec (length w) (m_m bits)) as [LW | LW]; [| discriminate E]. cbn [negb raise_if] in E. rewrite (rows_dot bits w LW) in E.
  destruct (spectrum_panel kz cz xa (contribution _ _ _ _) 1) as [p1 |] eqn:E1; [| discriminate E]. cbn [bind] in E.
  destruct (spectrum_panel kz cz xa (map (r_calibrated _) _) 1) as [p2 |] eqn:E2; [| discriminate E]. cbn [bind] in E.
  destruct (analyze_bit_activity _ _ _) as [p3 |] eqn:E3; [| discriminate E]. cbn [bind] in E. destruct (analyze_overflow_plot _ _ _ _ _) as [p4 |] eqn:E4; [| discriminate E]. cbn [bind] in E.
  destruct (analyze_enob_sweep _ _ _ _ _ _ _ _ _ _ _) as [p5 |] eqn:E5; [| discriminate E]. cbn [bind] in E. destruct (analyze_radix_plot _ _ _) as [p6 |] eqn:E6; [| discriminate E]. cbn [bind] in E. apply Ok_inj in E. subst d. cbn [dd_nominal dd_calibrated dd_activity dd_overflow dd_enob dd_radix].
  assert (T : (m <= n)%nat).
  { destruct (le_lt_dec m n) as [T | T]; [exact T |]. exfalso. destruct (c41_errors (rows_of bits) (m_m bits) (map (r_weight r) (seq 0 (Nat.min (m_n bits) (m_m bits)))) None) as (W & _). unfold analyze_overflow_plot in E4. rewrite W in E4; [discriminate E4 |]. rewrite map_length, seq_length. unfold m, n in T. lia. }
  destruct (CS T) as (ds & SE & CV). exists r, w. split; [reflexivity |]. split; [unfold m in *; lia |]. split; [exact LW |].
  split; [intros l WL; unfold w, nominal_weights; rewrite WL; reflexivity |]. split; [intros WN j J; unfold w, nominal_weights; rewrite WN; unfold binary_weights; rewrite map_seq_nth by exact J; reflexivity |].
  rewrite !Nat.min_r in * by exact T. rewrite Nat.max_l in E2 by exact T. split; [first [exact E1 | reflexivity] |]. split; [| repeat split; first [reflexivity | assumption]].
  rewrite SE in E2. cbn [hd] in E2. replace (contribution n (m_at bits) (r_weight r) m) with (map (r_calibrated ds) (seq 0 (m_n bits))) by (apply map_ext; intros t; apply CV). exact E2.
Qed.
(** The nominal weights have no influence on any other panel than the first. *)
Lemma c158_nominal kz cz xa argsort lstsq rank est bits freq w w' d d' : generate_dout_dashboard kz cz xa argsort lstsq rank est bits freq w = Ok d -> generate_dout_dashboard kz cz xa argsort lstsq rank est bits freq w' = Ok d' ->
  dd_calibrated d = dd_calibrated d' /\ dd_activity d = dd_activity d' /\ dd_overflow d = dd_overflow d' /\ dd_enob d = dd_enob d' /\ dd_radix d = dd_radix d'.
Proof.
  intros E E'. destruct (c158_panels _ _ _ _ _ _ _ _ _ _ _ E) as (r & v & C & _ & _ & _ & _ & _ & P2 & P3 & P4 & P5 & P6). destruct (c158_panels _ _ _ _ _ _ _ _ _ _ _ E') as (r' & v' & C' & _ & _ & _ & _ & _ & Q2 & Q3 & Q4 & Q5 & Q6).
  assert (r' = r) by congruence. subst r'. repeat split; congruence.
Qed.
(** For a record of even length on which the calibration succeeds (also when repeated with the frequency it has found), the
    dashboard is drawn exactly if the nominal weights have the right length, the matrix is not wider than tall, and no
    leading group of bits gives a constant; otherwise it raises ValueError. *)
Lemma c158_accepts kz cz xa argsort lstsq rank est bits freq weights r r' : Nat.Even (m_n bits) ->
  calibrate_weight_sine lstsq rank est [bits] freq None None 1 0.5 (1 / 10 ^ 12) 100 = Ok r -> calibrate_weight_sine lstsq rank est [bits] (FScalar (r_freqs r 0%nat)) None None 1 0.5 (1 / 10 ^ 12) 100 = Ok r' ->
  let good := (forall l, weights = Some l -> length l = m_m bits) /\ (m_m bits <= m_n bits)%nat /\ (forall k, (1 <= k <= m_m bits)%nat -> ~ constant_list (contribution (m_n bits) (m_at bits) (r_weight r') k)) in
  (good -> exists d, generate_dout_dashboard kz cz xa argsort lstsq rank est bits freq weights = Ok d) /\
  (~ good -> (m_m bits <= m_n bits)%nat \/ Nat.Even (m_m bits) -> generate_dout_dashboard kz cz xa argsort lstsq rank est bits freq weights = Err ValueError).
Proof.
  intros EV C C' good. destruct (calibrated_set _ _ _ _ _ _ C) as (Pn & Pm & CS). unfold generate_dout_dashboard. fold (nominal_weights bits weights). set (w := nominal_weights bits weights) in *. cbv zeta. rewrite C. cbn [bind].
  assert (LW : length w = m_m bits <-> forall l, weights = Some l -> length l = m_m bits).
  { unfold w, nominal_weights. destruct weights as [l |]; [split; [intros H l' E; injection E as <-; exact H | intros H; exact (H l eq_refl)] |]. unfold binary_weights. rewrite map_length, seq_length. split; [intros _ l E; discriminate | reflexivity]. }
  destruct (Nat.eqb_spec (length w) (m_m bits)) as [L | L]; cbn [negb raise_if]; [| split; [intros (H & _); apply LW in H; contradiction | reflexivity]]. rewrite (rows_dot bits w L).
  assert (LC : forall v, length (contribution (m_n bits) (m_at bits) v (m_m bits)) = m_n bits) by (intros v; unfold contribution; rewrite map_length, seq_length; reflexivity).
  assert (NN : forall l : list R, (0 < length l)%nat -> l <> []) by (intros l H ->; cbn in H; lia).
  destruct (panel_defined kz cz xa (contribution (m_n bits) (m_at bits) (fun j => nth j w 0) (m_m bits)) 1) as (s1 & g1 & ->); [apply NN; rewrite LC; exact Pn | rewrite LC; exact EV |]. cbn [bind].
  set (cal := map _ (seq 0 (Nat.max _ _))). assert (LL : length cal = Nat.max (m_n bits) (m_m bits)) by (unfold cal; rewrite map_length, seq_length; reflexivity).
  assert (P2 : Nat.Even (Nat.max (m_n bits) (m_m bits)) -> exists s g, spectrum_panel kz cz xa cal 1 = Ok (s, Some g)) by (intros Hev; apply panel_defined; [apply NN; lia | rewrite LL; exact Hev]).
  destruct (proj1 (proj2 (c150_errors (rows_of bits) (m_m bits))) Pm) as (g3 & E3).
  destruct (c41_errors (rows_of bits) (m_m bits) (map (r_weight r) (seq 0 (Nat.min (m_n bits) (m_m bits)))) None) as (OW & _ & OK). rewrite map_length, seq_length in OW, OK.
  destruct (le_lt_dec (m_m bits) (m_n bits)) as [T | T].
  - destruct P2 as (s2 & g2 & P2); [rewrite Nat.max_l by exact T; exact EV |]. rewrite P2, E3. cbn [bind].
    destruct OK as (st & OK); [lia | exact Pm | unfold rows_of; intros Z; apply (f_equal (@length _)) in Z; rewrite map_length, seq_length in Z; cbn in Z; lia |]. destruct (c151_default _ _ _ _ OK) as (_ & (g4 & E4 & _) & _). rewrite E4. cbn [bind].
    pose proof (c122_errors kz cz lstsq rank est bits (FScalar (r_freqs r 0%nat)) 1 1 Hamming) as Q. rewrite C' in Q. destruct (Rlt_dec 0 1); [| lra]. destruct (Nat.leb_spec (m_m bits) (m_n bits)); [| lia]. destruct Q as (e & Q).
    destruct (c153_drawn kz cz _ _ _ _ _ _ Hamming _ _ _ (or_intror (or_intror eq_refl)) Q C') as (D1 & D2).
    split.
    + intros (_ & _ & NC). destruct (proj1 D1 NC) as (g5 & E5). rewrite E5. cbn [bind]. destruct (proj2 (c152_errors argsort (map (r_weight r) (seq 0 (Nat.min (m_n bits) (m_m bits)))) true)) as (ra & sca & er & _ & _ & g6 & E6); [apply NN; rewrite map_length, seq_length; lia |]. rewrite E6. cbn [bind]. eexists. reflexivity.
    + intros NG _. destruct (analyze_enob_sweep kz cz lstsq rank est bits _ 1 1 Hamming true) as [[[e' ns'] g'] | x] eqn:E5.
      * exfalso. apply NG. split; [apply LW; exact L |]. split; [exact T |]. apply D1. unfold analyze_enob_sweep in E5. rewrite Q in E5. cbn [bind] in E5. destruct (plot_enob_sweep e) as [g5 |] eqn:PE; [| discriminate]. exists g5. cbn [bind] in E5. symmetry. exact E5.
      * cbn [bind]. unfold analyze_enob_sweep in E5. rewrite Q in E5. cbn [bind] in E5. destruct (plot_enob_sweep e) eqn:PE; [discriminate |]. destruct (Classical_Prop.classic (forall k, (1 <= k <= m_m bits)%nat -> ~ constant_list (contribution (m_n bits) (m_at bits) (r_weight r') k))) as [NC | NC].
        -- exfalso. apply D1 in NC. destruct NC as (g & G). discriminate G.
        -- apply Classical_Pred_Type.not_all_ex_not in NC. destruct NC as (k & NC). apply Classical_Prop.imply_to_and in NC. destruct NC as (K & NC). apply Classical_Prop.NNPP in NC. pose proof (proj1 D2 (ex_intro _ k (conj K NC))) as X. injection X as ->. reflexivity.
  - split; [intros (_ & T' & _); lia |]. intros _ [T' | EM]; [lia |]. destruct P2 as (s2 & g2 & P2); [rewrite Nat.max_r by lia; exact EM |]. rewrite P2, E3. cbn [bind]. unfold analyze_overflow_plot. rewrite OW by lia. reflexivity.
Qed.

(** A record whose first bit never changes, or that has more bits than samples, never gets a dashboard. *)
Lemma c158_stuck kz cz xa argsort lstsq rank est bits freq weights c : (forall t, (t < m_n bits)%nat -> m_at bits t 0%nat = c) \/ (m_n bits < m_m bits)%nat ->
  forall d, generate_dout_dashboard kz cz xa argsort lstsq rank est bits freq weights <> Ok d.
Proof.
  intros H d E. destruct (c158_panels _ _ _ _ _ _ _ _ _ _ _ E) as (r & w & _ & T & _ & _ & _ & _ & _ & _ & _ & P5 & _). destruct H as [H | H]; [| lia].
  destruct (enob_sweep kz cz lstsq rank est bits (FScalar (r_freqs r 0%nat)) 1 1 Hamming) as [[e ns] | x] eqn:Q; [| unfold analyze_enob_sweep in P5; rewrite Q in P5; discriminate].
  destruct (c153_stuck _ _ _ _ _ _ _ _ _ _ _ _ c Q H) as (_ & F). rewrite F in P5. discriminate.
Qed.
(** With a frequency given, the sweep is made at that frequency. *)
Lemma c158_frequency kz cz xa argsort lstsq rank est bits f weights d : f <> 0 -> generate_dout_dashboard kz cz xa argsort lstsq rank est bits (FScalar f) weights = Ok d ->
  analyze_enob_sweep kz cz lstsq rank est bits (FScalar f) 1 1 Hamming true = Ok (dd_enob d).
Proof.
  intros NZ E. destruct (c158_panels _ _ _ _ _ _ _ _ _ _ _ E) as (r & w & C & _ & _ & _ & _ & _ & _ & _ & _ & P5 & _).
  destruct (c81_known_frequencies lstsq rank est [bits] (FScalar f) None None 1 0.5 (1 / 10 ^ 12) 100 (or_introl eq_refl)) as (K & _); [intros x [<- | []]; exact NZ |]. rewrite (K f r eq_refl C 0%nat ltac:(cbn; lia)) in P5. exact P5.
Qed.
(** If the nominal weights are the true ones (with a positive sum) and the record determines them, the spectra before and
    after calibration are the same. *)
Lemma c158_ideal kz cz xa argsort lstsq rank est bits freq f w off a b d : least_squares lstsq -> rank_correct rank -> freq_is freq f -> f <> 0 -> f <= 1 / 2 ->
  true_weights bits 1 f w off a b -> identifiable bits 1 f w off a b -> a 0%nat <> 0 \/ b 0%nat <> 0 -> 0 < rsum (m_m bits) w ->
  generate_dout_dashboard kz cz xa argsort lstsq rank est bits freq (Some (map w (seq 0 (m_m bits)))) = Ok d -> dd_nominal d = dd_calibrated d.
Proof.
  intros LS RC FI NZ F2 TW ID AB SP E. destruct (c158_panels _ _ _ _ _ _ _ _ _ _ _ E) as (r & v & C & T & LV & VE & _ & P1 & P2 & _). specialize (VE _ eq_refl). subst v. cbv zeta in *.
  destruct (c55_recovers lstsq rank est bits freq f None None 1 0.5 (1 / 10 ^ 12) 100 w off a b LS RC FI NZ F2 (or_introl eq_refl) T I (le_n 1) TW ID AB) as (r' & ds & s & C' & _ & _ & _ & S1 & _ & W & _). assert (r' = r) by congruence. subst r'. rewrite (S1 SP) in W.
  set (am := amplitude (a 0%nat) (b 0%nat)) in *. assert (PA : 0 < am) by (unfold am, amplitude; apply sqrt_lt_R0; destruct AB; nra).
  change (spectrum_panel kz cz xa (contribution (m_n bits) (m_at bits) (fun j => nth j (map w (seq 0 (m_m bits))) 0) (m_m bits)) 1 = Ok (dd_nominal d)) in P1.
  rewrite <- (panel_affine kz cz xa _ 1 (/ am) 0) in P1 by (apply Rinv_0_lt_compat; exact PA).
  change (spectrum_panel kz cz xa (contribution (m_n bits) (m_at bits) (r_weight r) (m_m bits)) 1 = Ok (dd_calibrated d)) in P2.
  replace (map (fun v => / am * v + 0) (contribution (m_n bits) (m_at bits) (fun j => nth j (map w (seq 0 (m_m bits))) 0) (m_m bits))) with (contribution (m_n bits) (m_at bits) (r_weight r) (m_m bits)) in P1; [congruence |].
  unfold contribution. rewrite map_map. apply map_ext. intros t. rewrite Rplus_0_r, <- rsum_scale. apply rsum_ext. intros j J. rewrite map_seq_nth, W by exact J. field. lra.
Qed.

(** Eight samples of a converter with weights 2, 1, 1, dashboard called with them: it is drawn, its two spectra are the same
    and the activity of all bits is shown. *)
Lemma ex_accepted kz cz xa argsort : exists d, generate_dout_dashboard kz cz xa argsort gs_lstsq gs_rank (fun _ => 0) ex_bits (FScalar (1 / 4)) (Some [2; 1; 1]) = Ok d.
Proof.
  destruct (c55_recovers gs_lstsq gs_rank (fun _ => 0) ex_bits (FScalar (1 / 4)) (1 / 4) None None 1 0.5 (1 / 10 ^ 12) 100 ex_w (3 / 2) ex_a ex_b) as (r & ds & s & E & _ & FR & Sg & _ & _ & W & _);
    try (exact gs_least_squares || exact gs_rank_correct || exact ex_true || exact ex_identifiable || exact I || (left; reflexivity) || lra || (cbn; lia)).
  { unfold ex_a. left. lra. }
  apply (c158_accepts kz cz xa argsort gs_lstsq gs_rank (fun _ => 0) ex_bits (FScalar (1 / 4)) (Some [2; 1; 1]) r r); [exists 4%nat; reflexivity | exact E | rewrite FR; exact E |].
  split; [intros l X; injection X as <-; reflexivity |]. split; [cbn; lia |].
  set (am := amplitude (ex_a 0%nat) (ex_b 0%nat)) in *. assert (Pa : 0 < am) by (unfold am, amplitude, ex_a, ex_b; apply sqrt_lt_R0; lra).
  assert (Wt : forall j, (j < 3)%nat -> r_weight r j = s / am * ex_w j) by (intros j Hj; rewrite W by exact Hj; field; lra). assert (NZ : s / am <> 0) by (apply Rmult_integral_contrapositive_currified; [destruct Sg; lra | apply Rinv_neq_0_compat; lra]).
  intros n Hn (c & K). change (m_m ex_bits) with 3%nat in Hn. pose proof (K (rsum n (fun j => m_at ex_bits 0 j * r_weight r j))) as K0. pose proof (K (rsum n (fun j => m_at ex_bits 2 j * r_weight r j))) as K2.
  rewrite <- K0 in K2; [| apply in_map_iff; exists 0%nat; split; [reflexivity | apply in_seq; cbn; lia]]. specialize (K2 ltac:(apply in_map_iff; exists 2%nat; split; [reflexivity | apply in_seq; cbn; lia])).
  apply NZ. destruct n as [| [| [| [| n]]]]; try lia; cbn [rsum] in K2; rewrite !Wt in K2 by lia; cbn in K2; lra.
Qed.
Lemma c158_ideal_ex kz cz xa argsort : exists d g, generate_dout_dashboard kz cz xa argsort gs_lstsq gs_rank (fun _ => 0) ex_bits (FScalar (1 / 4)) (Some [2; 1; 1]) = Ok d /\
  dd_nominal d = dd_calibrated d /\ dd_activity d = ([37.5; 37.5; 37.5], Some g).
Proof.
  destruct (ex_accepted kz cz xa argsort) as (d & D). exists d. destruct (c158_panels _ _ _ _ _ _ _ _ _ _ _ D) as (r & w & _ & _ & _ & _ & _ & _ & _ & P3 & _). cbv zeta in P3.
  change (m_m ex_bits) with 3%nat in P3. change (m_n ex_bits) with 8%nat in P3. destruct (proj1 (proj2 (c150_errors (map (fun t => map (m_at ex_bits t) (seq 0 3)) (seq 0 8)) 3)) ltac:(lia)) as (g & G). exists g. split; [exact D |]. split.
  - refine (c158_ideal kz cz xa argsort _ _ _ _ (FScalar (1 / 4)) (1 / 4) ex_w (3 / 2) ex_a ex_b d gs_least_squares gs_rank_correct (or_introl eq_refl) ltac:(lra) ltac:(lra) ex_true ex_identifiable _ _ D); [left; unfold ex_a; lra | cbn; lra].
  - rewrite G in P3. apply Ok_inj in P3. rewrite <- P3. f_equal. unfold bit_activity, lmean. cbn. repeat (f_equal; try lra).
Qed.
(** Four samples of two bits, the first of them stuck at 0: the calibration succeeds, the dashboard raises ValueError. *)
Lemma c158_stuck_refuted kz cz xa argsort : exists bits r, calibrate_weight_sine gs_lstsq gs_rank (fun _ => 0) [bits] (FScalar (1 / 4)) None None 1 0.5 (1 / 10 ^ 12) 100 = Ok r /\
  generate_dout_dashboard kz cz xa argsort gs_lstsq gs_rank (fun _ => 0) bits (FScalar (1 / 4)) None = Err ValueError.
Proof.
  set (bits := mkMat 4 2 (fun t j => if ((t =? 1) && (j =? 1))%nat then 1 else 0)). exists bits.
  destruct (calibrate_answers gs_lstsq gs_rank (fun _ => 0) bits (1 / 4) None None 1 0.5 (1 / 10 ^ 12) 100) as (r & C); [apply gs_rank_correct | lra | cbn; lia | exact I | |].
  - exists 1%nat. split; [cbn; lia |]. exists 1%nat, 0%nat. split; [cbn; lia |]. split; [cbn; lia |]. unfold colm. cbn [bits m_at Nat.eqb andb]. rewrite Rabs_right by lra. lra.
  - exists r. split; [exact C |]. destruct (c81_known_frequencies gs_lstsq gs_rank (fun _ => 0) [bits] (FScalar (1 / 4)) None None 1 0.5 (1 / 10 ^ 12) 100 (or_introl eq_refl)) as (K & _); [intros x [<- | []]; lra |].
    apply (c158_accepts kz cz xa argsort _ _ _ bits (FScalar (1 / 4)) None r r); [exists 2%nat; reflexivity | exact C | rewrite (K _ r eq_refl C 0%nat ltac:(cbn; lia)); exact C | | left; cbn; lia].
    intros (_ & _ & NC). apply (NC 1%nat ltac:(cbn; lia)). exists 0. intros v V. unfold contribution in V. apply in_map_iff in V. destruct V as (t & <- & _). cbn [rsum bits m_at]. rewrite andb_false_r. ring.
Qed.
