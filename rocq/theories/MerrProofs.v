(** * errsin.m against the specification and against the Python functions: final lemmas c170_, c171_. *)
From Coq Require Import Psatz.
From Verif Require Import Base BaseLemmas Cplx SpecModel SpecLemmas TiModel TiToneProofs CalModel CalSpec CalProofs CalExLemmas FitModel FitSpec FitProofs BandModel RearModel RearSpec RearProofs MatModel MatSpec MatProofs MsinModel MsinProofs MerrModel MerrSpec.
Local Open Scope R_scope.

Lemma column_single sig : m_column (map (fun x => [x]) sig) = sig.
Proof.
  assert (E : map lmean (map (fun x : R => [x]) sig) = sig) by (induction sig as [| x r IH]; [reflexivity |]; cbn [map]; rewrite IH; f_equal; unfold lmean; cbn; field).
  destruct sig as [| x [| y r]]; [reflexivity | reflexivity | exact E].
Qed.
Lemma map2_nth_R (f : R -> R -> R) a b t : length a = length b -> (t < length a)%nat -> nth t (map2 f a b) 0 = f (nth t a 0) (nth t b 0).
Proof. revert b t. induction a as [| x a IH]; intros [| y b] t L T; cbn in *; try lia. destruct t; [reflexivity |]. apply IH; lia. Qed.

(** ** Statistics of a bin *)
Lemma bin_count_total idx b : INR (bin_count idx b) = total_in (length idx) (fun i => (nth i idx 0 =? b)%nat) (fun _ => 1).
Proof.
  unfold total_in. induction idx as [| x r IH]; [reflexivity |]. cbn [length]. rewrite rsum_shift. cbn [nth]. unfold bin_count in *. cbn [filter]. destruct (x =? b)%nat; [cbn [length]; rewrite S_INR |]; rewrite IH; ring.
Qed.
Lemma bin_sum_total idx w b : length idx = length w -> bin_sum idx w b = total_in (length idx) (fun i => (nth i idx 0 =? b)%nat) (fun i => nth i w 0).
Proof.
  unfold total_in, bin_sum. revert w. induction idx as [| x r IH]; intros [| y w] L; cbn in L; try lia; [reflexivity |]. cbn [length map2 lsum]. rewrite rsum_shift. cbn [nth]. rewrite IH by lia. reflexivity.
Qed.
Lemma average_ok idx err b : length idx = length err -> bin_average (length idx) (fun i => (nth i idx 0 =? b)%nat) (fun i => nth i err 0) (bin_mean idx err b).
Proof.
  intros L. unfold bin_average. rewrite <- bin_count_total, <- bin_sum_total by exact L. unfold bin_mean. destruct (Nat.ltb_spec 0 (bin_count idx b)) as [H | H].
  - assert (0 < INR (bin_count idx b)) by (apply lt_0_INR; exact H). split; [lra |]. intros _. eexists. split; [reflexivity |]. field. lra.
  - replace (bin_count idx b) with 0%nat by lia. cbn [INR]. split; [reflexivity | intros Q; contradiction].
Qed.
Lemma spread_ok idx err b : length idx = length err -> bin_spread (length idx) (fun i => (nth i idx 0 =? b)%nat) (fun i => nth i err 0) (bin_mean idx err b) (m_bin_dev idx err b).
Proof.
  intros L. unfold bin_spread, m_bin_dev, bin_mean. rewrite <- bin_count_total. destruct (Nat.ltb_spec 0 (bin_count idx b)) as [H | H].
  - assert (C : 0 < INR (bin_count idx b)) by (apply lt_0_INR; exact H). split; [lra |]. intros _. set (c := INR (bin_count idx b)) in *. set (m := bin_sum idx err b / c).
    exists m, (sqrt (bin_sum idx (map (fun e => (e - m) ^ 2) err) b / c)). split; [reflexivity |]. split; [reflexivity |]. split; [apply sqrt_pos |].
    assert (S1 : c * m = total_in (length idx) (fun i => (nth i idx 0 =? b)%nat) (fun i => nth i err 0)) by (unfold m; rewrite <- bin_sum_total by exact L; field; lra). split; [exact S1 |].
    assert (S2 : bin_sum idx (map (fun e => (e - m) ^ 2) err) b = total_in (length idx) (fun i => (nth i idx 0 =? b)%nat) (fun i => (nth i err 0 - m) ^ 2)).
    { rewrite bin_sum_total by (rewrite map_length; exact L). unfold total_in. apply rsum_ext. intros i I. rewrite (nth_map_in _ _ _ 0) by lia. reflexivity. }
    assert (S3 : 0 <= bin_sum idx (map (fun e => (e - m) ^ 2) err) b) by (rewrite S2; apply rsum_nonneg; intros i _; destruct (_ =? b)%nat; [apply pow2_ge_0 | lra]).
    assert (S4 : c * sqrt (bin_sum idx (map (fun e => (e - m) ^ 2) err) b / c) ^ 2 = bin_sum idx (map (fun e => (e - m) ^ 2) err) b) by (rewrite pow2_sqrt by (apply Rdiv_le_0_compat; assumption); field; lra).
    split; [rewrite S4; exact S2 |]. rewrite Rmult_plus_distr_l, S4, S2. replace (c * m ^ 2) with (2 * m * (c * m) - m ^ 2 * c) by ring. rewrite S1. unfold c. rewrite bin_count_total. unfold total_in. rewrite <- !rsum_scale, <- rsum_minus, <- rsum_plus. apply rsum_ext. intros i _. destruct (_ =? b)%nat; ring.
  - replace (bin_count idx b) with 0%nat by lia. cbn [INR]. split; [intros _; split; reflexivity | intros Q; contradiction].
Qed.

(** ** What a run returns *)
Lemma erange_none xs err : m_erange None xs err = (xs, err). Proof. reflexivity. Qed.
Definition run_err (sig : list R) (hann : bool) (osr : R) (q : m_fit) : list R := m_inband hann osr (map2 Rminus (mf_fitout q) sig).
Definition run_phase (sig : list R) (fin : option R) (q : m_fit) : list R := map (m_phase (mf_phi q) (match fin with Some f => f | None => mf_freq q end)) (seq 0 (length sig)).
(** The fit errsin asks for (l.125-129). *)
Definition run_fit (lin : lstsq_fun) (sig : list R) (fin : option R) := m_sinfit lin (map (fun x => [x]) sig) (match fin with Some f => f | None => 0 end) (1 / 10 ^ 12) (1 / 2) false 100.
Lemma errsin_inv lin sig bin fin value er osr hann r : m_errsin lin sig bin fin value er osr hann = Ok (Some r) ->
  (0 < bin)%Z /\ 1 <= osr /\ exists q, run_fit lin sig fin = Ok (Some q) /\
  r = if value then m_by_value bin er sig (run_err sig hann osr q) (run_phase sig fin q) else m_by_phase lin bin er (run_err sig hann osr q) (run_phase sig fin q).
Proof.
  unfold m_errsin. fold (run_fit lin sig fin). destruct (_ || Rltb osr 1)%bool eqn:G; [discriminate |]. cbn [raise_if]. rewrite !orb_false_iff in G. destruct G as [[G1 _] G3]. apply Z.leb_gt in G1. unfold Rltb in G3. destruct (Rlt_dec osr 1); [discriminate |].
  destruct (run_fit lin sig fin) as [[q |] | e]; cbn [bind]; [| destruct value; discriminate | discriminate]. intros E. apply Ok_inj in E. injection E as <-. split; [exact G1 |]. split; [lra |]. exists q. split; reflexivity.
Qed.
Lemma fitout_length lin sig fin q : run_fit lin sig fin = Ok (Some q) -> length (mf_fitout q) = length sig.
Proof.
  intros E. destruct (sinfit_inv _ _ _ _ _ _ _ _ E) as (s & ->). unfold m_out. cbn [mf_fitout]. rewrite map_length, seq_length, column_single. reflexivity.
Qed.
Lemma filter_col_length bs x : length (m_filter_col bs x) = length x.
Proof. unfold m_filter_col. rewrite map_length, seq_length. reflexivity. Qed.
Lemma inband_length hann osr err : length (m_inband hann osr err) = length err.
Proof. unfold m_inband. destruct (Rltb 1 osr); [rewrite map_length, seq_length |]; reflexivity. Qed.
Lemma run_lengths lin sig fin hann osr q : run_fit lin sig fin = Ok (Some q) -> length (run_err sig hann osr q) = length sig /\ length (run_phase sig fin q) = length sig.
Proof.
  intros E. unfold run_err, run_phase. rewrite inband_length, map_length, seq_length. rewrite map2_length; [| exact (fitout_length _ _ _ _ E)]. split; [exact (fitout_length _ _ _ _ E) | reflexivity].
Qed.

(** ** Phase mode *)
Lemma mod_range x m : 0 < m -> 0 <= m_mod x m < m.
Proof.
  intros M. unfold m_mod. pose proof (floor_split (x / m)) as [L U]. assert (E : x = x / m * m) by (field; lra). set (q := x / m) in *. set (k := IZR (Zfloor q)) in *. rewrite E. split; nra.
Qed.
Lemma round_floor x : 0 <= x -> m_round x = Zfloor (x + 1 / 2).
Proof. intros X. unfold m_round, Rleb. destruct (Rle_dec 0 x); [reflexivity | lra]. Qed.
Lemma phase_bin_near bin p : (0 < bin)%Z -> 0 <= p < 360 -> let k := Zfloor (p / 360 * IZR bin + 1 / 2) in
  (0 <= k <= bin)%Z /\ m_phase_bin bin p = Z.to_nat (k mod bin) /\ Rabs (p - 360 * IZR k / IZR bin) <= 180 / IZR bin.
Proof.
  intros B P k. assert (BR : 0 < IZR bin) by (apply (IZR_lt 0); exact B). assert (X : 0 <= p / 360 * IZR bin < IZR bin) by (split; [apply Rmult_le_pos; lra | nra]). pose proof (floor_split (p / 360 * IZR bin + 1 / 2)) as [L U]. fold k in L, U.
  split; [split; [apply Zfloor_lub; cbn; lra | apply Z.lt_succ_r, lt_IZR; rewrite succ_IZR; lra] |]. split; [unfold m_phase_bin; rewrite round_floor by lra; reflexivity |].
  replace (p - 360 * IZR k / IZR bin) with ((p / 360 * IZR bin - IZR k) * (360 / IZR bin)) by (field; lra). replace (180 / IZR bin) with (1 / 2 * (360 / IZR bin)) by (field; lra). rewrite Rabs_mult, (Rabs_pos_eq (360 / IZR bin)) by (apply Rlt_le, Rdiv_lt_0_compat; lra).
  apply Rmult_le_compat_r; [apply Rlt_le, Rdiv_lt_0_compat; lra |]. apply Rabs_le. lra.
Qed.
Lemma run_phase_nth sig fin q t : (t < length sig)%nat -> nth t (run_phase sig fin q) 0 = m_phase (mf_phi q) (match fin with Some f => f | None => mf_freq q end) t.
Proof. intros T. unfold run_phase. rewrite (nth_map_in _ _ _ 0%nat) by (rewrite seq_length; exact T). rewrite seq_nth by exact T. reflexivity. Qed.

(** Phase mode: every sample goes to the bin whose centre is nearest to its phase, the bins hold mean and standard deviation. *)
Lemma c170_bins lin sig bin fin osr hann r : m_errsin lin sig bin fin false None osr hann = Ok (Some r) ->
  (0 < bin)%Z /\ length (me_bins r) = length sig /\ length (me_err r) = length sig /\ length (me_errxx r) = length sig /\ length (me_mean r) = Z.to_nat bin /\ length (me_rms r) = Z.to_nat bin /\ length (me_xx r) = Z.to_nat bin /\
  (exists q, run_fit lin sig fin = Ok (Some q) /\ forall t, (t < length sig)%nat -> 0 <= nth t (me_errxx r) 0 < 360 /\
     exists turns : Z, nth t (me_errxx r) 0 = mf_phi q * (180 / PI) + 360 * (match fin with Some f => f | None => mf_freq q end) * INR t - 360 * IZR turns) /\
  (forall t, (t < length sig)%nat -> let b := nth t (me_bins r) 0%nat in (b < Z.to_nat bin)%nat /\ exists turns : Z, Rabs (nth t (me_errxx r) 0 - 360 * IZR turns - nth b (me_xx r) 0) <= 180 / IZR bin) /\
  (forall b, (b < Z.to_nat bin)%nat -> nth b (me_xx r) 0 = 360 * INR b / IZR bin /\
     bin_spread (length sig) (fun i => (nth i (me_bins r) 0 =? b)%nat) (fun i => nth i (me_err r) 0) (nth b (me_mean r) PInf) (nth b (me_rms r) PInf)).
Proof.
  intros E. destruct (errsin_inv _ _ _ _ _ _ _ _ _ E) as (B & _ & q & F & ->). clear E. destruct (run_lengths _ _ _ hann osr _ F) as [LE LP]. unfold m_by_phase. cbn [m_erange me_mean me_rms me_xx me_err me_errxx me_bins]. assert (BR : 0 < IZR bin) by (apply (IZR_lt 0); exact B). pose proof PI_RGT_0 as PP.
  rewrite !map_length, !seq_length. split; [exact B |]. split; [exact LP |]. split; [exact LE |]. split; [exact LP |]. do 3 (split; [reflexivity |]).
  assert (CX : forall b, (b < Z.to_nat bin)%nat -> nth b (map (m_phase_center bin) (seq 0 (Z.to_nat bin))) 0 = 360 * INR b / IZR bin).
  { intros b Hb. rewrite (nth_map_in _ _ _ 0%nat) by (rewrite seq_length; exact Hb). rewrite seq_nth by exact Hb. unfold m_phase_center. cbn [Nat.add]. field. lra. }
  split; [| split].
  - exists q. split; [exact F |]. intros t T. rewrite run_phase_nth by exact T. unfold m_phase. split; [apply mod_range; lra |]. exists (Zfloor ((mf_phi q / PI * 180 + INR t * match fin with Some f => f | None => mf_freq q end * 360) / 360)). unfold m_mod. field. lra.
  - intros t T. cbv zeta. rewrite (nth_map_in _ _ _ 0) by lia. rewrite run_phase_nth by exact T. set (p := m_phase _ _ _). assert (P : 0 <= p < 360) by (apply mod_range; lra). destruct (phase_bin_near bin p B P) as (K & KE & KD). set (k := Zfloor _) in *. rewrite KE. pose proof (Z.mod_pos_bound k bin B) as MB. split; [apply Z2Nat.inj_lt; lia |].
    exists (k / bin)%Z. rewrite CX by (apply Z2Nat.inj_lt; lia). rewrite INR_IZR_INZ, Z2Nat.id by lia. replace (p - 360 * IZR (k / bin) - 360 * IZR (k mod bin) / IZR bin) with (p - 360 * IZR k / IZR bin); [exact KD |]. rewrite (Z.div_mod k bin) at 1 by lia. rewrite plus_IZR, mult_IZR. field. lra.
  - intros b Hb. split; [apply CX; exact Hb |]. rewrite !(nth_map_in _ _ _ 0%nat) by (rewrite seq_length; exact Hb). rewrite !seq_nth by exact Hb. cbn [Nat.add]. pose proof (spread_ok (map (m_phase_bin bin) (run_phase sig fin q)) (run_err sig hann osr q) b) as S. rewrite !map_length, LP in S. apply S. symmetry. exact LE.
Qed.
(** The errors are fit minus signal, filtered when osr > 1: by ifilter alone with the rectangular window; with the Hann window
    between weighting and its undoing. *)
Lemma c170_error lin sig bin fin value osr hann r : m_errsin lin sig bin fin value None osr hann = Ok (Some r) ->
  exists q, run_fit lin sig fin = Ok (Some q) /\ let d := map2 Rminus (mf_fitout q) sig in
  (osr = 1 -> me_err r = d) /\
  (1 < osr -> hann = false -> me_err r = m_filter_col [(0, 0.5 / osr)] d) /\
  (1 < osr -> hann = true -> (2 <= length sig)%nat -> let w t := (1 - cos (2 * PI * INR t / INR (length sig))) / 2 in
     forall t, (t < length sig)%nat -> nth t (me_err r) 0 * Rmax (w t) (1 / 100) = nth t (m_filter_col [(0, 0.5 / osr)] (map (fun i => nth i d 0 * w i) (seq 0 (length sig)))) 0).
Proof.
  intros E. destruct (errsin_inv _ _ _ _ _ _ _ _ _ E) as (B & O & q & F & R). exists q. split; [exact F |]. intros d.
  assert (ME : me_err r = m_inband hann osr d) by (rewrite R; destruct value; reflexivity). assert (LD : length d = length sig) by (unfold d; rewrite map2_length; exact (fitout_length _ _ _ _ F)). rewrite ME. split; [| split].
  - intros ->. unfold m_inband, Rltb. destruct (Rlt_dec 1 1); [lra | reflexivity].
  - intros O1 ->. unfold m_inband, Rltb. destruct (Rlt_dec 1 osr); [| contradiction]. cbv zeta. replace (map (fun n => nth n d 0 * 1) (seq 0 (length d))) with d.
    + set (e2 := m_filter_col _ d). assert (L2 : length e2 = length d) by apply filter_col_length. rewrite <- L2. apply (nth_ext _ _ 0 0); [rewrite map_length, seq_length; reflexivity |]. intros t T. rewrite map_length, seq_length in T. rewrite (nth_map_in _ _ _ 0%nat) by (rewrite seq_length; exact T). rewrite seq_nth by exact T. cbn [Nat.add]. rewrite Rmax_left by lra. field.
    + apply (nth_ext _ _ 0 0); [rewrite map_length, seq_length; reflexivity |]. intros t T. rewrite (nth_map_in _ _ _ 0%nat) by (rewrite seq_length; exact T). rewrite seq_nth by exact T. cbn [Nat.add]. ring.
  - intros O1 -> N w t T. unfold m_inband, Rltb. destruct (Rlt_dec 1 osr); [| contradiction]. cbv zeta. rewrite LD. assert (W : forall i, m_hann (length sig) i = w i) by (intros i; unfold m_hann, w; destruct (Nat.eqb_spec (length sig) 1); [lia | lra]).
    rewrite (nth_map_in _ _ _ 0%nat) by (rewrite seq_length; exact T). rewrite seq_nth by exact T. cbn [Nat.add]. rewrite W. replace 0.01 with (1 / 100) by lra. rewrite (map_ext (fun n => nth n d 0 * m_hann (length sig) n) (fun i => nth i d 0 * w i)) by (intros i; rewrite W; reflexivity).
    field. pose proof (Rmax_r (w t) (1 / 100)). lra.
Qed.
(** erange only shortens the lists of errors and their positions to the positions in the range. *)
Lemma c170_range lin sig bin fin value a b osr hann r' : m_errsin lin sig bin fin value (Some (a, b)) osr hann = Ok (Some r') ->
  exists r, m_errsin lin sig bin fin value None osr hann = Ok (Some r) /\ me_mean r' = me_mean r /\ me_rms r' = me_rms r /\ me_xx r' = me_xx r /\ me_noise r' = me_noise r /\ me_bins r' = me_bins r /\ me_first r' = me_first r /\ me_second r' = me_second r /\
  length (me_err r') = length (me_errxx r') /\ combine (me_errxx r') (me_err r') = filter (fun p => Rleb a (fst p) && Rleb (fst p) b) (combine (me_errxx r) (me_err r)).
Proof.
  intros E. destruct (errsin_inv _ _ _ _ _ _ _ _ _ E) as (B & O & q & F & R). unfold m_errsin in *. fold (run_fit lin sig fin) in *. destruct (_ || Rltb osr 1)%bool; [discriminate |]. cbn [raise_if] in *. rewrite F. cbn [bind]. eexists. split; [reflexivity |]. fold (run_err sig hann osr q) (run_phase sig fin q). subst r'.
  assert (SP : forall l : list (R * R), combine (fst (List.split l)) (snd (List.split l)) = l) by (intros l; pose proof (split_combine l) as Q; destruct (List.split l); apply Q; reflexivity). 
  destruct value; unfold m_by_value, m_by_phase, m_erange.
  - destruct (List.split (filter (fun p => Rleb a (fst p) && Rleb (fst p) b) (combine sig (run_err sig hann osr q)))) as [xs es] eqn:S. cbn [me_mean me_rms me_xx me_noise me_err me_errxx me_bins me_first me_second]. do 7 (split; [reflexivity |]).
    pose proof (split_length_l (filter (fun p => Rleb a (fst p) && Rleb (fst p) b) (combine sig (run_err sig hann osr q)))) as L1. pose proof (split_length_r (filter (fun p => Rleb a (fst p) && Rleb (fst p) b) (combine sig (run_err sig hann osr q)))) as L2. pose proof (SP (filter (fun p => Rleb a (fst p) && Rleb (fst p) b) (combine sig (run_err sig hann osr q)))) as C. rewrite S in L1, L2, C. cbn [fst snd] in L1, L2, C. split; [congruence | exact C].
  - destruct (List.split (filter (fun p => Rleb a (fst p) && Rleb (fst p) b) (combine (run_phase sig fin q) (run_err sig hann osr q)))) as [xs es] eqn:S. cbn [me_mean me_rms me_xx me_noise me_err me_errxx me_bins me_first me_second]. do 7 (split; [reflexivity |]).
    pose proof (split_length_l (filter (fun p => Rleb a (fst p) && Rleb (fst p) b) (combine (run_phase sig fin q) (run_err sig hann osr q)))) as L1. pose proof (split_length_r (filter (fun p => Rleb a (fst p) && Rleb (fst p) b) (combine (run_phase sig fin q) (run_err sig hann osr q)))) as L2. pose proof (SP (filter (fun p => Rleb a (fst p) && Rleb (fst p) b) (combine (run_phase sig fin q) (run_err sig hann osr q)))) as C. rewrite S in L1, L2, C. cbn [fst snd] in L1, L2, C. split; [congruence | exact C].
Qed.
(** What is refused: a bin count that is not positive, a frequency not in (0, 1/2] (up to 1 by errsin's own check, above 1/2 by
    sinfit's), osr below 1, no samples. *)
Lemma c170_refuses lin sig bin f value er osr hann : let good := (0 < bin)%Z /\ 0 < f <= 1 / 2 /\ 1 <= osr /\ (0 < length sig)%nat in
  (good -> exists r, m_errsin lin sig bin (Some f) value er osr hann = Ok (Some r)) /\ (~ good -> m_errsin lin sig bin (Some f) value er osr hann = Err RuntimeError).
Proof.
  intros good. unfold m_errsin. fold (run_fit lin sig (Some f)). unfold Rleb, Rltb. split.
  - intros (G1 & G2 & G3 & G4). destruct (Z.leb_spec bin 0); [lia |]. destruct (Rle_dec f 0); [lra |]. destruct (Rle_dec 1 f); [lra |]. destruct (Rlt_dec osr 1); [lra |]. cbn [orb raise_if]. unfold run_fit. rewrite sinfit_given; [| lra | apply Rdiv_lt_0_compat; [lra | apply pow_lt; lra] | lra | lia | rewrite column_single; exact G4]. cbn [bind]. eexists. reflexivity.
  - intros NG. destruct (_ || _)%bool eqn:G; [reflexivity |]. cbn [raise_if]. rewrite !orb_false_iff in G. destruct G as [[G1 [G2 G3]] G4]. apply Z.leb_gt in G1. destruct (Rle_dec f 0); [discriminate |]. destruct (Rle_dec 1 f); [discriminate |]. destruct (Rlt_dec osr 1); [discriminate |].
    unfold run_fit. rewrite (proj2 (c168_refuses lin (map (fun x => [x]) sig) f (1 / 10 ^ 12) (1 / 2) false 100)); [reflexivity |]. rewrite column_single. intros (F & _ & _ & _ & L & _). apply NG. unfold good. repeat split; try lra; try lia; exact L.
Qed.

(** ** Noise *)
Lemma noise_design_at bin k j : m_at (m_noise_design bin) k j = nth j [cos (2 * PI * INR k / IZR bin) ^ 2; sin (2 * PI * INR k / IZR bin) ^ 2] 0 \/ (2 <= j)%nat.
Proof.
  destruct j as [| [| j]]; [left | left | right; lia]; unfold m_noise_design, of_cols; cbn [m_at nth]; replace (m_phase_center bin k / 360 * 2 * PI) with (2 * PI * INR k / IZR bin) by (unfold m_phase_center, Rdiv; replace (INR k * / IZR bin * 360 * / 360 * 2 * PI) with (INR k * / IZR bin * (360 * / 360) * 2 * PI) by ring; replace (360 * / 360) with 1 by field; ring); reflexivity.
Qed.
Lemma noise_row bin k x : rsum (m_m (m_noise_design bin)) (fun j => m_at (m_noise_design bin) k j * x j) = cos (2 * PI * INR k / IZR bin) ^ 2 * x 0%nat + sin (2 * PI * INR k / IZR bin) ^ 2 * x 1%nat.
Proof.
  change (m_m (m_noise_design bin)) with 2%nat. cbn [rsum]. destruct (noise_design_at bin k 0) as [-> | H]; [| lia]. destruct (noise_design_at bin k 1) as [-> | H]; [| lia]. cbn [nth]. ring.
Qed.
(** When the squared deviations follow A cos^2 + P sin^2 over at least three bins, sqrt A and sqrt P are reported. *)
Lemma c170_noise lin sig bin fin er osr hann r A P : least_squares lin -> m_errsin lin sig bin fin false er osr hann = Ok (Some r) -> (3 <= bin)%Z -> 0 <= A -> 0 <= P ->
  (forall b, (b < Z.to_nat bin)%nat -> exists d, nth b (me_rms r) PInf = Fin d /\ d ^ 2 = A * cos (2 * PI * INR b / IZR bin) ^ 2 + P * sin (2 * PI * INR b / IZR bin) ^ 2) ->
  me_noise r = Some (sqrt A, sqrt P).
Proof.
  intros L E B PA PP D. destruct (errsin_inv _ _ _ _ _ _ _ _ _ E) as (_ & _ & q & F & R). unfold m_by_phase in R. destruct (m_erange er (run_phase sig fin q) (run_err sig hann osr q)) as [xs es]. subst r. cbn [me_noise me_rms] in *. set (erms := map (m_bin_dev _ _) (seq 0 (Z.to_nat bin))) in *.
  assert (LN : length erms = Z.to_nat bin) by (unfold erms; rewrite map_length, seq_length; reflexivity). assert (BR : 3 <= IZR bin) by (apply (IZR_le 3); exact B). pose proof PI_RGT_0 as P0.
  f_equal. unfold m_noise. match goal with |- (if ?c then _ else _) = _ => replace c with true end.
  2:{ symmetry. apply forallb_forall. intros v IN. apply (In_nth _ _ PInf) in IN. destruct IN as (b & Hb & <-). rewrite LN in Hb. destruct (D b Hb) as (d & -> & _). reflexivity. }
  set (rhs := fun i => _). set (co := lin (m_noise_design bin) rhs).
  assert (RH : forall b, (b < Z.to_nat bin)%nat -> rhs b = A * cos (2 * PI * INR b / IZR bin) ^ 2 + P * sin (2 * PI * INR b / IZR bin) ^ 2).
  { intros b Hb. unfold rhs. destruct (D b Hb) as (d & Q1 & Q2). rewrite (nth_indep erms NaN PInf) by lia. rewrite Q1. exact Q2. }
  pose proof (L (m_noise_design bin) rhs (fun j => if (j =? 0)%nat then A else P)) as M. change (m_n (m_noise_design bin)) with (Z.to_nat bin) in M. cbv beta in M.
  rewrite (rsum_zero (Z.to_nat bin) (fun i => (rsum (m_m (m_noise_design bin)) (fun j => m_at (m_noise_design bin) i j * (if (j =? 0)%nat then A else P)) - rhs i) ^ 2)) in M by (intros i I; rewrite noise_row, RH by exact I; cbn [Nat.eqb]; ring). fold co in M.
  assert (Z : forall i, (i < Z.to_nat bin)%nat -> cos (2 * PI * INR i / IZR bin) ^ 2 * co 0%nat + sin (2 * PI * INR i / IZR bin) ^ 2 * co 1%nat = rhs i).
  { intros i I. assert (S : rsum (Z.to_nat bin) (fun i => (rsum (m_m (m_noise_design bin)) (fun j => m_at (m_noise_design bin) i j * co j) - rhs i) ^ 2) = 0) by (apply Rle_antisym; [exact M | apply rsum_nonneg; intros; apply pow2_ge_0]). pose proof (zero_terms _ _ (fun i _ => pow2_ge_0 _) S i I) as Q. cbv beta in Q. rewrite noise_row in Q. nra. }
  assert (C0 : co 0%nat = A). { pose proof (Z 0%nat ltac:(lia)) as Q. rewrite (RH 0%nat) in Q by lia. cbn [INR] in Q. replace (2 * PI * 0 / IZR bin) with 0 in Q by (field; lra). rewrite cos_0, sin_0 in Q. lra. }
  assert (C1 : co 1%nat = P). { pose proof (Z 1%nat ltac:(lia)) as Q. rewrite (RH 1%nat) in Q by lia. rewrite C0 in Q. change (INR 1) with 1 in Q. assert (S : 0 < sin (2 * PI * 1 / IZR bin)). { apply sin_gt_0; [apply Rdiv_lt_0_compat; lra |]. apply (Rmult_lt_reg_r (IZR bin)); [lra |]. replace (2 * PI * 1 / IZR bin * IZR bin) with (2 * PI) by (field; lra). nra. } set (s := sin _) in *. assert (S2 : 0 < s ^ 2) by (apply pow_lt; exact S). nra. }
  rewrite C0, C1, !Rmax_left by assumption. reflexivity.
Qed.
(** One empty bin makes both noises zero, whatever the errors: its NaN becomes max(NaN, 0) = 0. *)
Lemma c170_empty_bin lin sig bin fin er osr hann r b : m_errsin lin sig bin fin false er osr hann = Ok (Some r) -> (b < Z.to_nat bin)%nat -> (forall t, (t < length sig)%nat -> nth t (me_bins r) 0%nat <> b) -> me_noise r = Some (0, 0).
Proof.
  intros E Hb NB. destruct (errsin_inv _ _ _ _ _ _ _ _ _ E) as (_ & _ & q & F & R). destruct (run_lengths _ _ _ hann osr _ F) as [LE LP]. unfold m_by_phase in R. destruct (m_erange er (run_phase sig fin q) (run_err sig hann osr q)) as [xs es]. subst r. cbn [me_noise me_bins] in *. set (idx := map _ (run_phase sig fin q)) in *. f_equal. unfold m_noise.
  assert (BC : bin_count idx b = 0%nat). { apply INR_eq. rewrite bin_count_total. apply rsum_zero. intros i I. unfold idx in I. rewrite map_length, LP in I. pose proof (NB i I) as Q. apply Nat.eqb_neq in Q. fold idx. rewrite Q. reflexivity. }
  destruct (forallb _ _) eqn:A; [| reflexivity]. rewrite forallb_forall in A. specialize (A (m_bin_dev idx (run_err sig hann osr q) b)). assert (V : m_bin_dev idx (run_err sig hann osr q) b = NaN) by (unfold m_bin_dev, bin_mean; rewrite BC; reflexivity). rewrite V in A. discriminate A. rewrite <- V. apply in_map_iff. exists b. split; [reflexivity | apply in_seq; lia].
Qed.
(** In particular with fewer samples than bins (the default is 100 bins). *)
Lemma c170_few_samples lin sig bin fin er osr hann r : m_errsin lin sig bin fin false er osr hann = Ok (Some r) -> (length sig < Z.to_nat bin)%nat -> me_noise r = Some (0, 0).
Proof.
  intros E H. assert (LB : length (me_bins r) = length sig). { destruct (errsin_inv _ _ _ _ _ _ _ _ _ E) as (_ & _ & q & F & R). destruct (run_lengths _ _ _ hann osr _ F) as [LE LP]. unfold m_by_phase in R. destruct (m_erange er (run_phase sig fin q) (run_err sig hann osr q)). subst r. cbn [me_bins]. rewrite map_length. exact LP. }
  destruct (existsb (fun b => negb (existsb (Nat.eqb b) (me_bins r))) (seq 0 (Z.to_nat bin))) eqn:X.
  - apply existsb_exists in X. destruct X as (b & IB & NB). apply in_seq in IB. apply (c170_empty_bin _ _ _ _ _ _ _ _ b E); [lia |]. intros t T Q. apply negb_true_iff in NB. assert (existsb (Nat.eqb b) (me_bins r) = true); [| congruence]. apply existsb_exists. exists (nth t (me_bins r) 0%nat). split; [apply nth_In; lia | apply Nat.eqb_eq; symmetry; exact Q].
  - exfalso. assert (I : incl (seq 0 (Z.to_nat bin)) (me_bins r)). { intros b IB. destruct (existsb (Nat.eqb b) (me_bins r)) eqn:Y; [apply existsb_exists in Y; destruct Y as (x & IX & EX); apply Nat.eqb_eq in EX; subst; exact IX |]. assert (existsb (fun b => negb (existsb (Nat.eqb b) (me_bins r))) (seq 0 (Z.to_nat bin)) = true); [| congruence]. apply existsb_exists. exists b. split; [exact IB | rewrite Y; reflexivity]. }
    pose proof (NoDup_incl_length (seq_NoDup (Z.to_nat bin) 0) I) as Q. rewrite seq_length, LB in Q. lia.
Qed.

(** ** Against the Python function *)
Lemma wrap_turns x k : wrap2pi (x + 2 * PI * IZR k) = wrap2pi x.
Proof.
  pose proof PI_RGT_0 as P. unfold wrap2pi. replace ((x + 2 * PI * IZR k) / (2 * PI)) with (x / (2 * PI) + IZR k) by (field; lra). rewrite (floor_is (x / (2 * PI) + IZR k) (Zfloor (x / (2 * PI)) + k)); [rewrite plus_IZR; ring |]. rewrite plus_IZR. pose proof (floor_split (x / (2 * PI))). lra.
Qed.
Lemma phase_degrees phi f t : m_phase phi f t = 180 / PI * wrap2pi (2 * PI * f * INR t + phi).
Proof.
  pose proof PI_RGT_0 as P. unfold m_phase, m_mod, wrap2pi. replace ((phi / PI * 180 + INR t * f * 360) / 360) with ((2 * PI * f * INR t + phi) / (2 * PI)) by (field; lra). field. lra.
Qed.
Lemma half_floor x : Zfloor (x + 1 / 2) = ((Zfloor (2 * x) + 1) / 2)%Z.
Proof.
  apply floor_is. pose proof (floor_split (2 * x)) as [L U]. set (j := Zfloor (2 * x)) in *. pose proof (Z.div_mod (j + 1) 2 ltac:(lia)) as D. pose proof (Z.mod_pos_bound (j + 1) 2 ltac:(lia)) as M. set (h := ((j + 1) / 2)%Z) in *. set (m := ((j + 1) mod 2)%Z) in *. apply (f_equal IZR) in D. rewrite plus_IZR, plus_IZR, mult_IZR in D.
  assert (m = 0 \/ m = 1)%Z as [-> | ->] by lia; lra.
Qed.
Lemma bins_halved bin w : (0 < bin)%Z -> 0 <= w < 2 * PI -> m_phase_bin bin (180 / PI * w) = ((phase_bin (2 * bin) w + 1) / 2 mod Z.to_nat bin)%nat.
Proof.
  intros B W. pose proof PI_RGT_0 as P. assert (BR : 0 < IZR bin) by (apply (IZR_lt 0); exact B). unfold m_phase_bin, phase_bin, clip_bin. replace (180 / PI * w / 360 * IZR bin) with (w / (2 * PI) * IZR bin) by (field; lra). set (x := w / (2 * PI) * IZR bin).
  assert (X : 0 <= x < IZR bin). { unfold x. assert (E : w = w / (2 * PI) * (2 * PI)) by (field; lra). set (u := w / (2 * PI)) in *. split; nra. }
  replace (w / (2 * PI / IZR (2 * bin))) with (2 * x) by (unfold x; rewrite mult_IZR; field; lra). rewrite round_floor, half_floor by lra. pose proof (floor_split (2 * x)) as [L U]. set (j := Zfloor (2 * x)) in *.
  assert (J : (0 <= j < 2 * bin)%Z) by (split; [apply Zfloor_lub; cbn; lra | apply lt_IZR; rewrite mult_IZR; lra]). rewrite Z.max_l, Z.min_l by lia. rewrite Z2Nat.inj_mod by (try lia; apply Z.div_pos; lia). rewrite Z2Nat.inj_div by lia. rewrite Z2Nat.inj_add by lia. reflexivity.
Qed.
(** At the same given frequency, against rearrange_error_by_phase without refinement and twice as many bins: the errors are
    opposite, the phases the same in degrees, and MATLAB's bin k holds the samples of Python's bins 2k-1 and 2k. *)
Lemma c170_agree lin lst sig f bin hann base tol : least_squares lin -> least_squares lst -> 0 < f < 1 / 2 -> (0 < bin)%Z -> (3 <= length sig)%nat ->
  exists r p, m_errsin lin sig bin (Some f) false None 1 hann = Ok (Some r) /\ rearrange_error_by_phase lst sig (Some f) (2 * bin) base 0 tol = Ok p /\
  forall t, (t < length sig)%nat -> nth t (me_err r) 0 = - nth t (p_error p) 0 /\ nth t (me_errxx r) 0 = 180 / PI * wrap2pi (nth t (p_phase p) 0) /\
    nth t (me_bins r) 0%nat = ((nth t (p_bins p) 0 + 1) / 2 mod Z.to_nat bin)%nat.
Proof.
  intros L1 L2 F B N. pose proof PI_RGT_0 as PP. destruct (proj1 (c170_refuses lin sig bin f false None 1 hann) ltac:(repeat split; try lra; lia)) as (r & E). destruct (proj1 (c92_bin_count lst sig f (2 * bin) base 0 tol) ltac:(lia)) as (p & EP).
  exists r, p. split; [exact E |]. split; [exact EP |]. destruct (by_phase_inv _ _ _ _ _ _ _ _ EP) as (fit & FE & _ & PE & PH & _ & PB & _).
  destruct (errsin_inv _ _ _ _ _ _ _ _ _ E) as (_ & _ & q & FQ & R). destruct (c168_given lin lst (map (fun x => [x]) sig) f (1 / 10 ^ 12) tol (1 / 2) 100 L1 L2 F) as (q' & fit' & EQ & EF & G1 & G2 & _ & _ & G3 & _); [apply Rdiv_lt_0_compat; [lra | apply pow_lt; lra] | lra | lia | rewrite column_single; exact N |].
  rewrite column_single in EF. rewrite FE in EF. apply Ok_inj in EF. subst fit'. unfold run_fit in FQ. rewrite FQ in EQ. apply Ok_inj in EQ. injection EQ as <-. destruct (run_lengths lin sig (Some f) hann 1 q FQ) as [LE LP]. pose proof (fitout_length lin sig (Some f) q FQ) as LF.
  unfold m_by_phase in R. rewrite erange_none in R. subst r. cbn [me_err me_errxx me_bins]. intros t T.
  assert (FF : f_frequency fit = f). { rewrite <- G2. rewrite sinfit_given in FQ; [| lra | apply Rdiv_lt_0_compat; [lra | apply pow_lt; lra] | lra | lia | rewrite column_single; lia]. apply Ok_inj in FQ. injection FQ as <-. reflexivity. }
  assert (PT : nth t (p_phase p) 0 = 2 * PI * f * INR t + f_phase fit) by (rewrite PH, (nth_map_in _ _ _ 0%nat) by (rewrite seq_length; exact T); rewrite seq_nth by exact T; rewrite FF; reflexivity).
  assert (XT : nth t (run_phase sig (Some f) q) 0 = 180 / PI * wrap2pi (nth t (p_phase p) 0)). { rewrite run_phase_nth by exact T. rewrite phase_degrees, PT. destruct G3 as (k & ->). replace (2 * PI * f * INR t + (f_phase fit + 2 * PI * IZR k)) with (2 * PI * f * INR t + f_phase fit + 2 * PI * IZR k) by ring. rewrite wrap_turns. reflexivity. }
  split; [| split; [exact XT |]].
  - unfold run_err, m_inband, Rltb. destruct (Rlt_dec 1 1); [lra |]. rewrite PE, <- G1. rewrite !map2_nth_R by (try exact LF; try (symmetry; exact LF); lia). ring.
  - rewrite (nth_map_in _ _ _ 0) by lia. rewrite XT, PB. assert (LPP : length (p_phase p) = length sig) by (rewrite PH, map_length, seq_length; reflexivity). rewrite (nth_map_in _ _ _ 0) by (rewrite map_length; lia). rewrite (nth_map_in wrap2pi _ _ 0) by lia. apply bins_halved; [exact B | apply wrap2pi_range].
Qed.

(** ** Value mode *)
Lemma nat_half m : (0 <= m)%Z -> ((Z.to_nat m + 1) / 2)%nat = Z.to_nat ((m + 1) / 2).
Proof. intros M. rewrite Z2Nat.inj_div, Z2Nat.inj_add by lia. reflexivity. Qed.
Lemma value_bin_near bin lo hi x : (0 < bin)%Z -> lo < hi -> lo <= x <= hi -> let b := m_value_bin bin lo hi x in (b < Z.to_nat bin)%nat /\ Rabs (x - (lo + (INR b + 1 / 2) * ((hi - lo) / IZR bin))) <= (hi - lo) / IZR bin / 2.
Proof.
  intros B LH X. assert (BR : 0 < IZR bin) by (apply (IZR_lt 0); exact B). assert (WP : 0 < (hi - lo) / IZR bin) by (apply Rdiv_lt_0_compat; lra). unfold m_value_bin, Reqb. set (w := (hi - lo) / IZR bin) in *. destruct (Req_EM_T w 0); [lra |].
  assert (E : x - lo = (x - lo) / w * w) by (field; lra). assert (EB : hi - lo = IZR bin * w) by (unfold w; field; lra). set (u := (x - lo) / w) in *. assert (U : 0 <= u <= IZR bin) by (split; [apply Rdiv_le_0_compat; lra | nra]). pose proof (floor_split u) as [FL FU]. set (k := Zfloor u) in *.
  assert (K : (0 <= k <= bin)%Z) by (split; [apply Zfloor_lub; cbn; lra | apply le_IZR; lra]). split; [apply Z2Nat.inj_lt; lia |].
  rewrite INR_IZR_INZ, Z2Nat.id by lia. set (m := (Z.min (k + 1) bin - 1)%Z). assert (M : IZR m <= u <= IZR m + 1). { unfold m. destruct (Z.le_gt_cases (k + 1) bin) as [H | H]; [rewrite Z.min_l by exact H; replace (k + 1 - 1)%Z with k by ring; lra | rewrite Z.min_r by lia; rewrite minus_IZR; assert (IZR k = IZR bin) by (apply f_equal; lia); lra]. }
  replace (x - (lo + (IZR m + 1 / 2) * w)) with ((u - (IZR m + 1 / 2)) * w) by lra. apply Rabs_le. nra.
Qed.
Lemma list_range sig : sig <> [] -> let lo := lmin1 (hd 0 sig) sig in let hi := lmax1 (hd 0 sig) sig in In lo sig /\ In hi sig /\ forall x, In x sig -> lo <= x <= hi.
Proof.
  intros NE lo hi. assert (H : In (hd 0 sig) sig) by (destruct sig; [contradiction | left; reflexivity]). split; [| split].
  - destruct (lmin1_in (hd 0 sig) sig) as [Q | Q]; [unfold lo; rewrite <- Q; exact H | exact Q].
  - destruct (lmax1_in (hd 0 sig) sig) as [Q | Q]; [unfold hi; rewrite <- Q; exact H | exact Q].
  - intros x IX. split; [apply lmin1_le | apply lmax1_ge]; exact IX.
Qed.
Lemma map_triple (idx : list nat) (err phase : list R) (c : R -> bool) b : length idx = length err -> length err = length phase ->
  let h := filter (fun p => c (snd p)) (combine (combine idx err) phase) in
  bin_average (length idx) (fun i => c (nth i phase 0) && (nth i idx 0 =? b)%nat) (fun i => nth i err 0) (bin_mean (map (fun p => fst (fst p)) h) (map (fun p => snd (fst p)) h) b).
Proof.
  intros L1 L2 h. assert (LH : length (map (fun p : nat * R * R => fst (fst p)) h) = length (map (fun p => snd (fst p)) h)) by (rewrite !map_length; reflexivity). pose proof (average_ok _ _ b LH) as A. unfold bin_average in *. rewrite <- bin_count_total, <- bin_sum_total in A by exact LH.
  assert (CN : INR (bin_count (map (fun p : nat * R * R => fst (fst p)) h) b) = total_in (length idx) (fun i => c (nth i phase 0) && (nth i idx 0 =? b)%nat) (fun _ => 1) /\ bin_sum (map (fun p : nat * R * R => fst (fst p)) h) (map (fun p => snd (fst p)) h) b = total_in (length idx) (fun i => c (nth i phase 0) && (nth i idx 0 =? b)%nat) (fun i => nth i err 0)).
  { unfold h. clear A LH h. unfold total_in. revert err phase L1 L2. induction idx as [| x idx IH]; intros [| e err] [| p phase] L1 L2; cbn in L1, L2; try lia; [split; reflexivity |].
    destruct (IH err phase ltac:(lia) ltac:(lia)) as [I1 I2]. cbn [combine filter length]. rewrite !rsum_shift. cbn [nth snd]. unfold bin_count, bin_sum in *. destruct (c p); cbn [map fst snd andb filter map2 lsum].
    - destruct (x =? b)%nat; [cbn [length]; rewrite S_INR |]; rewrite I1, I2; split; ring.
    - rewrite I1, I2. split; ring. }
  destruct CN as [-> ->] in A. exact A.
Qed.
(** Value mode: equal bins between the smallest and the largest sample; every sample is within half a bin of the centre of its
    bin, whose mean and standard deviation are returned; a constant signal goes to the last bin; no noise is reported.  The two
    drawn traces average the samples with phases below 180 degrees and the others. *)
Lemma c171_bins lin sig bin fin osr hann r : m_errsin lin sig bin fin true None osr hann = Ok (Some r) ->
  exists lo hi, In lo sig /\ In hi sig /\ (forall x, In x sig -> lo <= x <= hi) /\ (0 < bin)%Z /\ me_noise r = None /\ me_errxx r = sig /\ length (me_err r) = length sig /\ length (me_bins r) = length sig /\
  length (me_mean r) = Z.to_nat bin /\ length (me_rms r) = Z.to_nat bin /\ length (me_xx r) = Z.to_nat bin /\ length (me_first r) = Z.to_nat bin /\ length (me_second r) = Z.to_nat bin /\
  (forall t, (t < length sig)%nat -> let b := nth t (me_bins r) 0%nat in (b < Z.to_nat bin)%nat /\ Rabs (nth t sig 0 - nth b (me_xx r) 0) <= (hi - lo) / IZR bin / 2 /\ (lo = hi -> b = (Z.to_nat bin - 1)%nat)) /\
  exists q, run_fit lin sig fin = Ok (Some q) /\ let phase t := m_phase (mf_phi q) (match fin with Some f => f | None => mf_freq q end) t in
  (forall b, (b < Z.to_nat bin)%nat -> nth b (me_xx r) 0 = lo + (INR b + 1 / 2) * ((hi - lo) / IZR bin) /\
     bin_spread (length sig) (fun i => (nth i (me_bins r) 0 =? b)%nat) (fun i => nth i (me_err r) 0) (nth b (me_mean r) PInf) (nth b (me_rms r) PInf) /\
     bin_average (length sig) (fun i => Rltb (phase i) 180 && (nth i (me_bins r) 0 =? b)%nat) (fun i => nth i (me_err r) 0) (nth b (me_first r) PInf) /\
     bin_average (length sig) (fun i => Rleb 180 (phase i) && (nth i (me_bins r) 0 =? b)%nat) (fun i => nth i (me_err r) 0) (nth b (me_second r) PInf)).
Proof.
  intros E. destruct (errsin_inv _ _ _ _ _ _ _ _ _ E) as (B & _ & q & F & ->). clear E. destruct (run_lengths _ _ _ hann osr _ F) as [LE LP]. unfold m_by_value. rewrite erange_none. cbn [me_mean me_rms me_xx me_noise me_err me_errxx me_bins me_first me_second]. assert (BR : 0 < IZR bin) by (apply (IZR_lt 0); exact B).
  assert (NE : sig <> []). { intros ->. unfold run_fit in F. cbn in F. discriminate F. }
  destruct (list_range sig NE) as (R1 & R2 & R3). set (lo := lmin1 (hd 0 sig) sig) in *. set (hi := lmax1 (hd 0 sig) sig) in *. exists lo, hi. rewrite !map_length, !seq_length. do 3 (split; [assumption |]). split; [exact B |]. do 2 (split; [reflexivity |]). split; [exact LE |]. split; [reflexivity |]. do 5 (split; [reflexivity |]).
  assert (CX : forall b, (b < Z.to_nat bin)%nat -> nth b (map (m_value_center bin lo hi) (seq 0 (Z.to_nat bin))) 0 = lo + (INR b + 1 / 2) * ((hi - lo) / IZR bin)).
  { intros b Hb. rewrite (nth_map_in _ _ _ 0%nat) by (rewrite seq_length; exact Hb). rewrite seq_nth by exact Hb. unfold m_value_center. cbn [Nat.add]. rewrite plus_INR. change (INR 1) with 1. field. lra. }
  split.
  - intros t T. cbv zeta. rewrite (nth_map_in _ _ _ 0) by exact T. pose proof (R3 _ (nth_In sig 0 T)) as X. set (x := nth t sig 0) in *. destruct (Rle_lt_or_eq_dec lo hi ltac:(lra)) as [LH | EQ].
    + destruct (value_bin_near bin lo hi x B LH X) as [K1 K2]. split; [exact K1 |]. rewrite CX by exact K1. split; [exact K2 | lra].
    + assert (V : m_value_bin bin lo hi x = (Z.to_nat bin - 1)%nat). { unfold m_value_bin, Reqb. replace (hi - lo) with 0 by lra. destruct (Req_EM_T (0 / IZR bin) 0) as [_ | N0]; [lia | exfalso; apply N0; field; lra]. } rewrite V. split; [lia |]. split; [| reflexivity]. rewrite CX by lia. replace (hi - lo) with 0 by lra. replace (x - _) with (x - lo) by (field; lra). replace (x - lo) with 0 by lra. rewrite Rabs_R0. replace (0 / IZR bin / 2) with 0 by (field; lra). lra.
  - exists q. split; [exact F |]. set (phase := fun t => m_phase (mf_phi q) (match fin with Some f => f | None => mf_freq q end) t). intros b Hb. split; [apply CX; exact Hb |]. rewrite !(nth_map_in _ _ _ 0%nat) by (rewrite seq_length; exact Hb). rewrite !seq_nth by exact Hb. cbn [Nat.add]. set (idx := map (m_value_bin bin lo hi) sig). assert (LI : length idx = length sig) by (unfold idx; apply map_length).
    assert (PH : forall i, (i < length sig)%nat -> nth i (run_phase sig fin q) 0 = phase i) by (intros i I; rewrite run_phase_nth by exact I; reflexivity).
    pose proof (spread_ok idx (run_err sig hann osr q) b ltac:(congruence)) as S. rewrite LI in S. split; [exact S |].
    assert (EX : forall (c : R -> bool) mean, bin_average (length sig) (fun i => c (nth i (run_phase sig fin q) 0) && (nth i idx 0 =? b)%nat) (fun i => nth i (run_err sig hann osr q) 0) mean -> bin_average (length sig) (fun i => c (phase i) && (nth i idx 0 =? b)%nat) (fun i => nth i (run_err sig hann osr q) 0) mean).
    { intros c mean [A1 A2]. unfold bin_average, total_in in *. rewrite (rsum_ext _ (fun i => if c (phase i) && (nth i idx 0 =? b)%nat then 1 else 0) (fun i => if c (nth i (run_phase sig fin q) 0) && (nth i idx 0 =? b)%nat then 1 else 0)) by (intros i I; rewrite PH by exact I; reflexivity).
      rewrite (rsum_ext _ (fun i => if c (phase i) && (nth i idx 0 =? b)%nat then nth i (run_err sig hann osr q) 0 else 0) (fun i => if c (nth i (run_phase sig fin q) 0) && (nth i idx 0 =? b)%nat then nth i (run_err sig hann osr q) 0 else 0)) by (intros i I; rewrite PH by exact I; reflexivity). split; assumption. }
    split; [apply (EX (fun p => Rltb p 180)); rewrite <- LI; apply (map_triple idx _ _ (fun p => Rltb p 180)); congruence | apply (EX (fun p => Rleb 180 p)); rewrite <- LI; apply (map_triple idx _ _ (fun p => Rleb 180 p)); congruence].
Qed.
(** At the same given frequency against rearrange_error_by_value (the range given as the smallest and largest sample, nothing
    clipped, no refinement): with 2(n-1) MATLAB bins, Python's n bins are pairs of them, the outer ones alone, except at the
    ties that numpy rounds to even. *)
Lemma c171_agree lin lst sig f n lo hi hann tol : least_squares lin -> least_squares lst -> 0 < f < 1 / 2 -> (2 <= n)%Z -> (3 <= length sig)%nat ->
  In lo sig -> In hi sig -> (forall x, In x sig -> lo <= x <= hi) -> lo < hi ->
  exists r v, m_errsin lin sig (2 * (n - 1)) (Some f) true None 1 hann = Ok (Some r) /\ rearrange_error_by_value lst sig (Some f) (Some n) 0 (Some (lo, hi)) 0 tol = Ok v /\
  forall t, (t < length sig)%nat -> nth t (me_err r) 0 = - nth t (v_error v) 0 /\
    (~ tie ((nth t sig 0 - lo) * (IZR (n - 1) / (hi - lo))) -> nth t (v_bins v) 0%nat = ((nth t (me_bins r) 0 + 1) / 2)%nat).
Proof.
  intros L1 L2 F N2 LN IL IH RG LH. destruct (proj1 (c170_refuses lin sig (2 * (n - 1)) f true None 1 hann) ltac:(repeat split; try lra; lia)) as (r & E). exists r.
  destruct (errsin_inv _ _ _ _ _ _ _ _ _ E) as (_ & _ & q & FQ & R). destruct (c168_given lin lst (map (fun x => [x]) sig) f (1 / 10 ^ 12) tol (1 / 2) 100 L1 L2 F) as (q' & fit & EQ & EF & G1 & _); [apply Rdiv_lt_0_compat; [lra | apply pow_lt; lra] | lra | lia | rewrite column_single; exact LN |].
  rewrite column_single in EF. unfold run_fit in FQ. rewrite FQ in EQ. apply Ok_inj in EQ. injection EQ as <-. destruct (run_lengths lin sig (Some f) hann 1 q FQ) as [LE LP]. pose proof (fitout_length lin sig (Some f) q FQ) as LF.
  assert (VE : exists v, rearrange_error_by_value lst sig (Some f) (Some n) 0 (Some (lo, hi)) 0 tol = Ok v /\ v_error v = map2 Rminus sig (f_fitted fit) /\ v_bins v = map (value_bin n lo hi) sig).
  { unfold rearrange_error_by_value. destruct (Nat.eqb_spec (length sig) 0); [lia |]. cbn [raise_if]. destruct (Z.leb_spec n 0); [lia |]. unfold Rltb at 1. destruct (Rlt_dec 0 0); [lra |]. unfold Rleb. destruct (Rle_dec hi lo); [lra |]. cbn [raise_if infer_signal_range]. destruct (Rle_dec hi lo); [lra |]. cbn [raise_if]. rewrite EF. cbn [bind]. unfold Rltb. destruct (Rlt_dec 0 0); [lra |]. cbn [andb raise_if].
    destruct sig as [| x0 sig']; [cbn in LN; lia |]. cbn [map existsb]. replace (value_valid n 0 (value_bin n lo hi x0)) with true by (unfold value_valid, Rltb; destruct (Rlt_dec 0 0); [lra | reflexivity]). cbn [orb negb raise_if]. eexists. split; [reflexivity |]. split; reflexivity. }
  destruct VE as (v & EV & VR & VB). exists v. split; [exact E |]. split; [exact EV |]. unfold m_by_value in R. rewrite erange_none in R. subst r. cbn [me_err me_bins]. intros t T. split.
  - unfold run_err, m_inband, Rltb. destruct (Rlt_dec 1 1); [lra |]. rewrite VR, <- G1. rewrite !map2_nth_R by (try exact LF; try (symmetry; exact LF); lia). ring.
  - assert (NE : sig <> []) by (intros ->; cbn in LN; lia). destruct (list_range sig NE) as (R1 & R2 & R3). replace (lmin1 (hd 0 sig) sig) with lo by (pose proof (R3 lo IL); pose proof (RG _ R1); lra). replace (lmax1 (hd 0 sig) sig) with hi by (pose proof (R3 hi IH); pose proof (RG _ R2); lra).
    rewrite VB, !(nth_map_in _ _ _ 0) by exact T. pose proof (RG _ (nth_In sig 0 T)) as X. set (x := nth t sig 0) in *. intros NT.
    assert (NR : 1 <= IZR (n - 1)) by (apply (IZR_le 1); lia). set (y := (x - lo) * (IZR (n - 1) / (hi - lo))) in *. assert (Y : 0 <= y <= IZR (n - 1)). { assert (EU : y = (x - lo) / (hi - lo) * IZR (n - 1)) by (unfold y; field; lra). assert (U : 0 <= (x - lo) / (hi - lo) <= 1) by (split; [apply Rdiv_le_0_compat; lra | apply (Rmult_le_reg_r (hi - lo)); [lra |]; replace ((x - lo) / (hi - lo) * (hi - lo)) with (x - lo) by (field; lra); lra]). rewrite EU. split; nra. }
    unfold value_bin, Reqb. destruct (Req_EM_T (hi - lo) 0); [lra |]. fold y. rewrite <- (proj2 (round_same y ltac:(lra)) NT), round_floor, half_floor by lra. unfold m_value_bin, Reqb, clip_bin. rewrite mult_IZR. destruct (Req_EM_T ((hi - lo) / (2 * IZR (n - 1))) 0) as [Z0 | _]; [exfalso; assert (0 < (hi - lo) / (2 * IZR (n - 1))) by (apply Rdiv_lt_0_compat; lra); lra |].
    replace ((x - lo) / ((hi - lo) / (2 * IZR (n - 1)))) with (2 * y) by (unfold y; field; lra). pose proof (floor_split (2 * y)) as [JL JU]. set (j := Zfloor (2 * y)) in *. assert (J : (0 <= j <= 2 * (n - 1))%Z) by (split; [apply Zfloor_lub; cbn; lra | apply le_IZR; rewrite mult_IZR; lra]).
    pose proof (Z.div_mod (j + 1) 2 ltac:(lia)) as D. pose proof (Z.mod_pos_bound (j + 1) 2 ltac:(lia)) as M. assert (HJ : (0 <= (j + 1) / 2 <= n - 1)%Z) by lia. rewrite Z.max_l, Z.min_l by lia.
    rewrite nat_half by lia. f_equal. destruct (Z.le_gt_cases (j + 1) (2 * (n - 1))) as [H | H]; [rewrite Z.min_l by exact H; f_equal; lia |]. rewrite Z.min_r by lia. assert (j = (2 * (n - 1))%Z) by lia. subst j. replace (2 * (n - 1) - 1 + 1)%Z with ((n - 1) * 2)%Z by ring. rewrite Z.div_mul by lia. clear - H0 D M. lia.
Qed.
(** The trace drawn as rising averages samples where the fitted sine falls: for phases strictly between 0 and 180 degrees the
    slope of mag cos(2 pi freq t + phi) + dc is negative. *)
Lemma c171_rising mag f phi dc t : 0 < mag -> 0 < f -> 0 < m_phase phi f t < 180 -> exists s, derivable_pt_lim (fun x => mag * cos (2 * PI * f * x + phi) + dc) (INR t) s /\ s < 0.
Proof.
  intros M F P. pose proof PI_RGT_0 as PP. exists (- mag * (2 * PI * f) * sin (2 * PI * f * INR t + phi)). split.
  - assert (D1 : derivable_pt_lim (fun x => 2 * PI * f * x + phi) (INR t) (2 * PI * f * 1 + 0)). { apply (derivable_pt_lim_plus (fun x => 2 * PI * f * x) (fun _ => phi)); [apply (derivable_pt_lim_scal id); apply derivable_pt_lim_id | apply derivable_pt_lim_const]. }
    pose proof (derivable_pt_lim_comp (fun x => 2 * PI * f * x + phi) cos (INR t) _ _ D1 (derivable_pt_lim_cos _)) as D2. replace (- mag * (2 * PI * f) * sin (2 * PI * f * INR t + phi)) with (mag * (- sin (2 * PI * f * INR t + phi) * (2 * PI * f * 1 + 0)) + 0) by ring. apply (derivable_pt_lim_plus (fun x => mag * cos (2 * PI * f * x + phi)) (fun _ => dc)); [apply (derivable_pt_lim_scal (comp cos (fun x => 2 * PI * f * x + phi))); exact D2 | apply derivable_pt_lim_const].
  - rewrite phase_degrees in P. rewrite <- (proj2 (wrap2pi_cos _)). set (w := wrap2pi _) in *. assert (W : 0 < w < PI). { split; [apply (Rmult_lt_reg_l (180 / PI)); [apply Rdiv_lt_0_compat; lra | lra] | apply (Rmult_lt_reg_l (180 / PI)); [apply Rdiv_lt_0_compat; lra |]; replace (180 / PI * PI) with 180 by (field; lra); lra]. }
    pose proof (sin_gt_0 w (proj1 W) (proj2 W)) as S. assert (0 < mag * (2 * PI * f)) by (apply Rmult_lt_0_compat; [lra |]; apply Rmult_lt_0_compat; lra). nra.
Qed.
Lemma c171_rising_refuted : exists mag f phi dc t, 0 < mag /\ 0 < f /\ m_phase phi f t < 180 /\ exists s, derivable_pt_lim (fun x => mag * cos (2 * PI * f * x + phi) + dc) (INR t) s /\ s < 0.
Proof.
  assert (P : m_phase 0 (1 / 8) 1 = 45). { unfold m_phase, m_mod. change (INR 1) with 1. replace (0 / PI * 180 + 1 * (1 / 8) * 360) with 45 by (pose proof PI_RGT_0; field; lra). rewrite (floor_is (45 / 360) 0) by lra. lra. }
  exists 1, (1 / 8), 0, 0, 1%nat. split; [lra |]. split; [lra |]. rewrite P. split; [lra |]. apply c171_rising; lra.
Qed.

(** ** Examples *)
(** [flat_record]: the fit at frequency 1/4 is zero, so the errors are the negated samples. *)
Lemma flat_errsin value : exists r, m_errsin gs_lstsq flat_record 4 (Some (1 / 4)) value None 1 true = Ok (Some r) /\ (forall t, (t < 8)%nat -> nth t (me_err r) 0 = - nth t flat_record 0) /\
  (value = false -> me_bins r = [0; 1; 2; 3; 0; 1; 2; 3]%nat).
Proof.
  destruct (flat_record_result true) as (p4 & E4 & PE4 & PH4). destruct (by_phase_inv _ _ _ _ _ _ _ _ E4) as (fit & FE & _ & PE & PH & _). destruct value.
  - destruct (c171_agree gs_lstsq gs_lstsq flat_record (1 / 4) 3 (-1) 1 true (1 / 10 ^ 9) gs_least_squares gs_least_squares) as (r & v & E & EV & H); try lra; try lia; [cbn; lia | cbn; tauto | cbn; tauto | intros x IX; cbn in IX; decompose [or] IX; try contradiction; subst; lra |].
    exists r. split; [exact E |]. split; [| discriminate]. intros t T. destruct (H t T) as [-> _]. f_equal. assert (QQ : v_error v = flat_record); [| rewrite QQ; reflexivity]. transitivity (p_error p4); [| exact PE4]. rewrite PE.
    unfold rearrange_error_by_value in EV. change (length flat_record =? 0)%nat with false in EV. cbn [raise_if] in EV. change (3 <=? 0)%Z with false in EV. cbn [raise_if] in EV. destruct (Rltb 0 0); [discriminate |]. cbn [raise_if] in EV. destruct (Rleb 1 (-1)); [discriminate |]. cbn [raise_if infer_signal_range] in EV. destruct (Rleb 1 (-1)); [discriminate |]. cbn [raise_if] in EV. rewrite FE in EV. cbn [bind] in EV.
    destruct (_ && _)%bool in EV; [discriminate |]. cbn [raise_if] in EV. destruct (negb _) in EV; [discriminate |]. cbn [raise_if] in EV. apply Ok_inj in EV. subst v. reflexivity.
  - destruct (c170_agree gs_lstsq gs_lstsq flat_record (1 / 4) 4 true true (1 / 10 ^ 9) gs_least_squares gs_least_squares) as (r & p & E & EP & H); try lra; try lia; [cbn; lia |]. exists r. split; [exact E |].
    destruct (by_phase_inv _ _ _ _ _ _ _ _ EP) as (fit' & FE' & _ & PE' & PH' & _ & PB' & _). rewrite FE in FE'. apply Ok_inj in FE'. subst fit'. assert (EQ : p_error p = flat_record) by (rewrite PE', <- PE; exact PE4). assert (EPH : p_phase p = p_phase p4) by (rewrite PH', PH; reflexivity). split.
    + intros t T. destruct (H t T) as (-> & _). rewrite EQ. reflexivity.
    + intros _. assert (LB : length (me_bins r) = 8%nat) by (destruct (c170_bins _ _ _ _ _ _ _ E) as (_ & LB & _); exact LB). apply (nth_ext _ _ 0%nat 0%nat); [exact LB |]. intros t T. rewrite LB in T. destruct (H t T) as (_ & _ & ->). rewrite PB', EPH. assert (LP : length (p_phase p4) = 8%nat) by (rewrite PH, map_length, seq_length; reflexivity).
      rewrite (nth_map_in _ _ _ 0) by (rewrite map_length, LP; exact T). rewrite (nth_map_in wrap2pi _ _ 0) by (rewrite LP; exact T). rewrite PH4 by exact T.
      assert (PBK : forall i k : nat, (k < 4)%nat -> 2 * PI * (1 / 4) * INR i = 2 * PI * (INR k / 4) + 2 * PI * IZR (Z.of_nat (i / 4)) -> phase_bin (2 * 4) (wrap2pi (2 * PI * (1 / 4) * INR i)) = (2 * k)%nat).
      { intros i k K ->. rewrite wrap_turns. pose proof PI_RGT_0 as P0. assert (KR : 0 <= INR k < 4) by (split; [apply pos_INR | replace 4 with (INR 4) by (cbn; lra); apply lt_INR; exact K]). assert (W : wrap2pi (2 * PI * (INR k / 4)) = 2 * PI * (INR k / 4)) by (unfold wrap2pi; rewrite (floor_is _ 0); [lra |]; replace (2 * PI * (INR k / 4) / (2 * PI)) with (INR k / 4) by (field; lra); lra). rewrite W. unfold phase_bin, clip_bin. rewrite (floor_is _ (2 * Z.of_nat k)); [lia |]. rewrite mult_IZR, <- INR_IZR_INZ. replace (2 * PI * (INR k / 4) / (2 * PI / IZR (2 * 4))) with (2 * INR k) by (rewrite mult_IZR; field; lra). lra. }
      cbn in T. do 8 (destruct t as [| t]; [first [rewrite (PBK _ 0%nat) by (try lia; cbn; lra) | rewrite (PBK _ 1%nat) by (try lia; cbn; lra) | rewrite (PBK _ 2%nat) by (try lia; cbn; lra) | rewrite (PBK _ 3%nat) by (try lia; cbn; lra)]; reflexivity |]). lia.
Qed.
Lemma flat_noise r : m_errsin gs_lstsq flat_record 4 (Some (1 / 4)) false None 1 true = Ok (Some r) -> (forall t, (t < 8)%nat -> nth t (me_err r) 0 = - nth t flat_record 0) -> me_bins r = [0; 1; 2; 3; 0; 1; 2; 3]%nat -> me_noise r = Some (1, 1).
Proof.
  intros E EE EB. destruct (c170_bins _ _ _ _ _ _ _ E) as (_ & _ & _ & _ & _ & _ & _ & _ & _ & ST). change (length flat_record) with 8%nat in ST.
  replace (Some (1, 1)) with (Some (sqrt 1, sqrt 1)) by (rewrite sqrt_1; reflexivity). apply (c170_noise gs_lstsq flat_record 4 (Some (1 / 4)) None 1 true r 1 1 gs_least_squares E); try lra; try lia. intros b Hb. destruct (ST b Hb) as (_ & S0 & S1).
  assert (CN : total_in 8 (fun i => (nth i (me_bins r) 0 =? b)%nat) (fun _ => 1) = 2 /\ total_in 8 (fun i => (nth i (me_bins r) 0 =? b)%nat) (fun i => nth i (me_err r) 0) = 0 /\ total_in 8 (fun i => (nth i (me_bins r) 0 =? b)%nat) (fun i => nth i (me_err r) 0 ^ 2) = 2).
  { rewrite EB. unfold total_in. change (Z.to_nat 4) with 4%nat in Hb. repeat split; [| rewrite (rsum_ext _ _ (fun i => if (nth i [0; 1; 2; 3; 0; 1; 2; 3] 0 =? b)%nat then - nth i flat_record 0 else 0)) by (intros i I; rewrite EE by exact I; reflexivity) | rewrite (rsum_ext _ _ (fun i => if (nth i [0; 1; 2; 3; 0; 1; 2; 3] 0 =? b)%nat then (- nth i flat_record 0) ^ 2 else 0)) by (intros i I; rewrite EE by exact I; reflexivity)]; do 4 (destruct b as [| b]; [cbn; lra |]); lia. }
  destruct CN as (C1 & C2 & C3). rewrite C1 in S1. destruct (S1 ltac:(lra)) as (m & d & M & D & D0 & Q1 & _ & Q3). rewrite C2 in Q1. rewrite C3 in Q3. exists d. split; [exact D |]. pose proof (sin2_cos2 (2 * PI * INR b / 4)) as SC. unfold Rsqr in SC. replace m with 0 in Q3 by lra. set (c := cos _) in *. set (s := sin _) in *. nra.
Qed.
Lemma c170_noise_ex : exists r, m_errsin gs_lstsq flat_record 4 (Some (1 / 4)) false None 1 true = Ok (Some r) /\ me_noise r = Some (1, 1).
Proof. destruct (flat_errsin false) as (r & E & EE & EB). exists r. split; [exact E | exact (flat_noise r E EE (EB eq_refl))]. Qed.
(** Errors of constant size: MATLAB reads them as amplitude and as phase noise, Python (with a noise floor) as neither. *)
Lemma c170_flat_refuted : exists sig f bin r p, m_errsin gs_lstsq sig bin (Some f) false None 1 true = Ok (Some r) /\ rearrange_error_by_phase gs_lstsq sig (Some f) bin true 0 (1 / 10 ^ 9) = Ok p /\ me_noise r = Some (1, 1) /\ p_am_v p = 0 /\ p_pm_v p = 0.
Proof.
  destruct (flat_errsin false) as (r & E & EE & EB). specialize (EB eq_refl). destruct (flat_record_result true) as (p & EP & PE & PH). exists flat_record, (1 / 4), 4%Z, r, p. split; [exact E |]. split; [exact EP |]. split; [exact (flat_noise r E EE EB) |].
  destruct (flat_record_facts p PE PH) as (F1 & F2). destruct (c90_recovery _ flat_record _ _ _ _ _ _ 1 1 0 gs_least_squares ltac:(cbn; lia) EP ltac:(lra) ltac:(lra) ltac:(lra) F1 F2) as (_ & Q). specialize (Q eq_refl). destruct (by_phase_inv _ _ _ _ _ _ _ _ EP) as (fit & _ & _ & _ & _ & _ & _ & A & B & _). rewrite A, B, Q. unfold am_of, pm_of. cbn [fst snd]. replace (1 - 1) with 0 by ring. rewrite Rmax_left by lra. rewrite sqrt_0. split; reflexivity.
Qed.
Lemma c170_bins_ex : exists r, m_errsin gs_lstsq flat_record 4 (Some (1 / 4)) false None 1 true = Ok (Some r) /\ me_bins r = [0; 1; 2; 3; 0; 1; 2; 3]%nat /\ nth 1 (me_xx r) 0 = 90 /\ nth 5 (me_err r) 0 = 1.
Proof.
  destruct (flat_errsin false) as (r & E & EE & EB). exists r. split; [exact E |]. split; [exact (EB eq_refl) |]. destruct (c170_bins _ _ _ _ _ _ _ E) as (_ & _ & _ & _ & _ & _ & _ & _ & _ & ST). split; [destruct (ST 1%nat ltac:(cbn; lia)) as [-> _]; cbn; lra | rewrite EE by lia; cbn; lra].
Qed.
Lemma c170_error_ex : exists r, m_errsin gs_lstsq flat_record 4 (Some (1 / 4)) true None 1 true = Ok (Some r) /\ nth 0 (me_err r) 0 = -1.
Proof. destruct (flat_errsin true) as (r & E & EE & _). exists r. split; [exact E |]. rewrite EE by lia. cbn. lra. Qed.
Lemma map_fst_combine_R (a b : list R) : length a = length b -> map fst (combine a b) = a.
Proof. revert b. induction a as [| x a IH]; intros [| y b] H; cbn in *; try discriminate; [reflexivity |]. rewrite IH by lia. reflexivity. Qed.
Lemma c170_range_ex : exists r, m_errsin gs_lstsq flat_record 4 (Some (1 / 4)) true (Some (0, 2)) 1 true = Ok (Some r) /\ me_errxx r = [1; 1; 1; 1].
Proof.
  destruct (proj1 (c170_refuses gs_lstsq flat_record 4 (1 / 4) true (Some (0, 2)) 1 true) ltac:(repeat split; try lra; try lia; cbn; lia)) as (r & E). exists r. split; [exact E |].
  destruct (c170_range _ _ _ _ _ _ _ _ _ _ E) as (r0 & E0 & _ & _ & _ & _ & _ & _ & _ & L & C). destruct (c171_bins _ _ _ _ _ _ _ E0) as (_ & _ & _ & _ & _ & _ & _ & X & LE & _). rewrite X in C. change (length flat_record) with 8%nat in LE. destruct (me_err r0) as [| e0 [| e1 [| e2 [| e3 [| e4 [| e5 [| e6 [| e7 [| e8 er]]]]]]]]]; cbn in LE; try lia.
  unfold flat_record in C. cbn [combine filter fst] in C. unfold Rleb in C. destruct (Rle_dec 0 1); [| lra]. destruct (Rle_dec 1 2); [| lra]. destruct (Rle_dec 0 (-1)); [lra |]. cbn [andb] in C. apply (f_equal (map fst)) in C. cbn [map fst] in C. rewrite <- C. symmetry. exact (map_fst_combine_R _ _ (eq_sym L)).
Qed.
Lemma c170_refuses_ex : m_errsin gs_lstsq flat_record 100 (Some (3 / 5)) false None 1 true = Err RuntimeError.
Proof. apply (proj2 (c170_refuses gs_lstsq flat_record 100 (3 / 5) false None 1 true)). intros (_ & H & _). lra. Qed.
Lemma c170_agree_ex : exists r p, m_errsin gs_lstsq flat_record 4 (Some (1 / 4)) false None 1 true = Ok (Some r) /\ rearrange_error_by_phase gs_lstsq flat_record (Some (1 / 4)) (2 * 4) true 0 1 = Ok p /\ nth 6 (me_bins r) 0%nat = 2%nat /\ ((nth 6 (p_bins p) 0 + 1) / 2 mod 4 = 2)%nat.
Proof.
  destruct (flat_errsin false) as (r & E & EE & EB). specialize (EB eq_refl). destruct (c170_agree gs_lstsq gs_lstsq flat_record (1 / 4) 4 true true 1 gs_least_squares gs_least_squares) as (r' & p & E' & EP & H); try lra; try lia; [cbn; lia |]. rewrite E in E'. apply Ok_inj in E'. injection E' as <-. exists r, p. split; [exact E |]. split; [exact EP |]. destruct (H 6%nat ltac:(cbn; lia)) as (_ & _ & Q). rewrite EB in Q |- *. split; [reflexivity | symmetry; exact Q].
Qed.
(** Eight samples in eight bins, every other bin empty. *)
Lemma c170_empty_bin_ex : exists r, m_errsin gs_lstsq flat_record 8 (Some (1 / 4)) false None 1 true = Ok (Some r) /\ (forall t, (t < 8)%nat -> nth t (me_bins r) 0%nat <> 1%nat) /\ me_noise r = Some (0, 0).
Proof.
  destruct (flat_record_result true) as (p4 & E4 & PE4 & PH4). destruct (by_phase_inv _ _ _ _ _ _ _ _ E4) as (fit & FE & _ & PE & PH & _).
  destruct (c170_agree gs_lstsq gs_lstsq flat_record (1 / 4) 8 true true (1 / 10 ^ 9) gs_least_squares gs_least_squares) as (r & p & E & EP & H); try lra; try lia; [cbn; lia |]. exists r. split; [exact E |].
  destruct (by_phase_inv _ _ _ _ _ _ _ _ EP) as (fit' & FE' & _ & PE' & PH' & _ & PB' & _). rewrite FE in FE'. apply Ok_inj in FE'. subst fit'. assert (EPH : p_phase p = p_phase p4) by (rewrite PH', PH; reflexivity).
  assert (NB : forall t, (t < 8)%nat -> nth t (me_bins r) 0%nat <> 1%nat); [| split; [exact NB |]; apply (c170_empty_bin _ _ _ _ _ _ _ _ 1%nat E); [cbn; lia | exact NB]].
  intros t T. destruct (H t T) as (_ & _ & ->). rewrite PB', EPH. assert (LP : length (p_phase p4) = 8%nat) by (rewrite PH, map_length, seq_length; reflexivity).
  rewrite (nth_map_in _ _ _ 0) by (rewrite map_length, LP; exact T). rewrite (nth_map_in wrap2pi _ _ 0) by (rewrite LP; exact T). rewrite PH4 by exact T.
  assert (PBK : forall i k : nat, (k < 4)%nat -> 2 * PI * (1 / 4) * INR i = 2 * PI * (INR k / 4) + 2 * PI * IZR (Z.of_nat (i / 4)) -> phase_bin (2 * 8) (wrap2pi (2 * PI * (1 / 4) * INR i)) = (4 * k)%nat).
  { intros i k K ->. rewrite wrap_turns. pose proof PI_RGT_0 as P0. assert (KR : 0 <= INR k < 4) by (split; [apply pos_INR | replace 4 with (INR 4) by (cbn; lra); apply lt_INR; exact K]). assert (W : wrap2pi (2 * PI * (INR k / 4)) = 2 * PI * (INR k / 4)) by (unfold wrap2pi; rewrite (floor_is _ 0); [lra |]; replace (2 * PI * (INR k / 4) / (2 * PI)) with (INR k / 4) by (field; lra); lra). rewrite W. unfold phase_bin, clip_bin. rewrite (floor_is _ (4 * Z.of_nat k)); [lia |]. rewrite mult_IZR, <- INR_IZR_INZ. replace (2 * PI * (INR k / 4) / (2 * PI / IZR (2 * 8))) with (4 * INR k) by (rewrite mult_IZR; field; lra). lra. }
  cbn in T. do 8 (destruct t as [| t]; [first [rewrite (PBK _ 0%nat) by (try lia; cbn; lra) | rewrite (PBK _ 1%nat) by (try lia; cbn; lra) | rewrite (PBK _ 2%nat) by (try lia; cbn; lra) | rewrite (PBK _ 3%nat) by (try lia; cbn; lra)]; discriminate |]). lia.
Qed.
Lemma c170_few_samples_ex : exists r, m_errsin gs_lstsq flat_record 100 (Some (1 / 4)) false None 1 true = Ok (Some r) /\ me_noise r = Some (0, 0) /\ nth 0 (me_err r) 0 = -1.
Proof.
  destruct (proj1 (c170_refuses gs_lstsq flat_record 100 (1 / 4) false None 1 true) ltac:(repeat split; try lra; try lia; cbn; lia)) as (r & E). exists r. split; [exact E |]. split; [apply (c170_few_samples _ _ _ _ _ _ _ _ E); cbn; lia |].
  destruct (flat_errsin false) as (r4 & E4 & EE & _). destruct (c170_error _ _ _ _ _ _ _ _ E) as (q & F & A & _). destruct (c170_error _ _ _ _ _ _ _ _ E4) as (q4 & F4 & A4 & _). rewrite F in F4. apply Ok_inj in F4. injection F4 as <-. rewrite (A eq_refl), <- (A4 eq_refl), EE by lia. cbn. lra.
Qed.
Lemma c171_bins_ex : exists r, m_errsin gs_lstsq flat_record 4 (Some (1 / 4)) true None 1 true = Ok (Some r) /\ nth 0 (me_bins r) 0%nat = 3%nat /\ nth 4 (me_bins r) 0%nat = 0%nat /\ nth 3 (me_xx r) 0 = 3 / 4.
Proof.
  destruct (flat_errsin true) as (r & E & _). exists r. split; [exact E |]. destruct (c171_bins _ _ _ _ _ _ _ E) as (lo & hi & IL & IH & RG & _ & _ & _ & _ & LB & _ & _ & _ & _ & _ & NB & q & _ & ST). change (length flat_record) with 8%nat in *.
  assert (lo = -1). { pose proof (RG (-1) ltac:(cbn; tauto)). cbn in IL. decompose [or] IL; try contradiction; lra. } assert (hi = 1). { pose proof (RG 1 ltac:(cbn; tauto)). cbn in IH. decompose [or] IH; try contradiction; lra. } subst lo hi.
  assert (X : forall b, (b < 4)%nat -> nth b (me_xx r) 0 = -1 + (INR b + 1 / 2) * ((1 - -1) / 4)) by (intros b Hb; exact (proj1 (ST b Hb))).
  split; [| split].
  - destruct (NB 0%nat ltac:(lia)) as (B1 & B2 & _). change (Z.to_nat 4) with 4%nat in B1. destruct (nth 0 (me_bins r) 0%nat) as [| [| [| [| k]]]]; try lia; rewrite X in B2 by lia; cbn in B2; unfold Rabs in B2; destruct (Rcase_abs _); lra.
  - destruct (NB 4%nat ltac:(lia)) as (B1 & B2 & _). change (Z.to_nat 4) with 4%nat in B1. destruct (nth 4 (me_bins r) 0%nat) as [| [| [| [| k]]]]; try lia; rewrite X in B2 by lia; cbn in B2; unfold Rabs in B2; destruct (Rcase_abs _); lra.
  - rewrite X by lia. cbn. lra.
Qed.
Lemma c171_agree_ex : exists r v, m_errsin gs_lstsq flat_record (2 * (3 - 1)) (Some (1 / 4)) true None 1 true = Ok (Some r) /\ rearrange_error_by_value gs_lstsq flat_record (Some (1 / 4)) (Some 3%Z) 0 (Some (-1, 1)) 0 1 = Ok v /\ nth 0 (v_bins v) 0%nat = 2%nat.
Proof.
  destruct (c171_agree gs_lstsq gs_lstsq flat_record (1 / 4) 3 (-1) 1 true 1 gs_least_squares gs_least_squares) as (r & v & E & EV & H); try lra; try lia; [cbn; lia | cbn; tauto | cbn; tauto | intros x IX; cbn in IX; decompose [or] IX; try contradiction; subst; lra |].
  exists r, v. split; [exact E |]. split; [exact EV |]. destruct (H 0%nat ltac:(cbn; lia)) as [_ Q]. rewrite Q. 2:{ intros (k & [j J] & K). change (nth 0 flat_record 0) with 1 in K. change (3 - 1)%Z with 2%Z in K. assert (H0 : IZR (2 * k + 1) = IZR 4) by (rewrite plus_IZR, mult_IZR; lra). apply eq_IZR in H0. lia. }
  destruct c171_bins_ex as (r' & E' & B0 & _). change (2 * (3 - 1))%Z with 4%Z in E. rewrite E in E'. apply Ok_inj in E'. injection E' as <-. rewrite B0. reflexivity.
Qed.
Lemma c171_rising_ex : exists s, derivable_pt_lim (fun x => 2 * cos (2 * PI * (1 / 8) * x + 0) + 1) (INR 1) s /\ s < 0.
Proof.
  apply c171_rising; try lra. unfold m_phase, m_mod. change (INR 1) with 1. replace (0 / PI * 180 + 1 * (1 / 8) * 360) with 45 by (pose proof PI_RGT_0; field; lra). rewrite (floor_is (45 / 360) 0) by lra. lra.
Qed.
