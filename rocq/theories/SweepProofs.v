(** * Proofs about the ENOB sweep (C122). *)
From Verif Require Import Base BaseLemmas Cplx SpecModel SpecLemmas SpecProofs SpecMetricProofs TiSpec TiModel CalModel CalSpec CalProofs CalExLemmas CalExProofs SpecPrepProofs CohProofs EnvProofs SweepModel SweepSpec.
Local Open Scope R_scope.

(** ** The analysis does not see gain, sign or offset *)
Lemma peak_opp x : peak_of [map Ropp x] ScaleAuto = peak_of [x] ScaleAuto.
Proof.
  unfold peak_of. cbn [concat]. rewrite !app_nil_r. destruct x as [|a l]; [reflexivity|]. cbn [map].
  assert (M : forall l a, lmax1 (- a) (map Ropp l) = - lmin1 a l /\ lmin1 (- a) (map Ropp l) = - lmax1 a l).
  { clear. intros l a. induction l as [|y t [I1 I2]]; [split; reflexivity|]. unfold lmax1, lmin1 in *. cbn [map fold_right]. rewrite I1, I2. rewrite <- Ropp_Rmin, <- Ropp_Rmax. auto. }
  destruct (M l a) as [-> ->]. f_equal. field.
Qed.
Lemma prepare_opp x : prepare_fft_input [map Ropp x] ScaleAuto = bind (prepare_fft_input [x] ScaleAuto) (fun rows => Ok (map (map Ropp) rows)).
Proof.
  unfold prepare_fft_input. rewrite !orient_one, peak_opp. destruct (peak_of [x] ScaleAuto) as [p|] eqn:E; cbn [bind]; [|reflexivity]. f_equal. cbn [map]. f_equal.
  rewrite !map_map. destruct x as [|a l]; [reflexivity|]. set (x := a :: l) in *.
  assert (M : lmean (map Ropp x) = - lmean x).
  { replace (map Ropp x) with (map (fun v => -1 * v + 0) x) by (apply map_ext; intros; ring). rewrite lmean_affine by discriminate. ring. }
  rewrite M. apply map_ext. intros v. destruct (Reqb p 0); [ring|]. unfold Rdiv. ring.
Qed.
Lemma rfft_opp r k : rfft (map Ropp r) k = Cscale (-1) (rfft r k).
Proof.
  unfold rfft. rewrite map_length. unfold rdft, dft. rewrite <- csum_scale. apply csum_ext. intros n _.
  replace (nth n (map Ropp r) 0) with (- nth n r 0) by (rewrite <- (map_nth Ropp r 0 n), Ropp_0; reflexivity).
  unfold Cscale, Cmult, RtoC; cbn. f_equal; ring.
Qed.
Lemma window_opp r w : map2 Rmult (map Ropp r) w = map Ropp (map2 Rmult r w).
Proof. revert w. induction r as [|a r IH]; intros [|b w]; try reflexivity. cbn [map map2]. rewrite IH. f_equal. ring. Qed.
Lemma corrected_opp row w N : corrected_power [map Ropp row] w N = corrected_power [row] w N.
Proof.
  unfold corrected_power, power_average, windowed. cbn [map]. f_equal. apply map_ext. intros k. unfold power_bin. cbn [map]. rewrite window_opp, rfft_opp, Cmod_scale.
  replace (Rabs (-1)) with 1 by (rewrite Rabs_left; lra). rewrite Rmult_1_l. reflexivity.
Qed.
Lemma prepared_one x rows : prepare_fft_input [x] ScaleAuto = Ok rows -> exists row, rows = [row] /\ length row = length x.
Proof. unfold prepare_fft_input. rewrite orient_one. destruct (peak_of _ _); cbn [bind map]; [|discriminate]. intros E. apply Ok_inj in E. subst rows. eexists. split; [reflexivity|apply map_length]. Qed.
Lemma sweep_opp kz cz x osr wt : sweep_spectrum kz cz (map Ropp x) osr wt = sweep_spectrum kz cz x osr wt.
Proof.
  unfold sweep_spectrum, compute_spectrum. rewrite prepare_opp. destruct (prepare_fft_input [x] ScaleAuto) as [rows|] eqn:E; cbn [bind]; [|reflexivity].
  destruct (prepared_one _ _ E) as (row & -> & L). cbn [map length]. unfold ncols. cbn [hd]. rewrite map_length, corrected_opp. reflexivity.
Qed.
Lemma sweep_affine kz cz x osr wt a b : 0 < a -> sweep_spectrum kz cz (map (fun v => a * v + b) x) osr wt = sweep_spectrum kz cz x osr wt.
Proof.
  intros Ha. unfold sweep_spectrum, compute_spectrum. change [map (fun v => a * v + b) x] with (affine a b [x]).
  rewrite (c51_gain_offset_invariant a b 1 (length x) [x] Ha); [reflexivity| |lia]. split; [reflexivity|]. intros m Hm. destruct m; [reflexivity|lia].
Qed.
Lemma sweep_gain kz cz x osr wt a b : a <> 0 -> sweep_spectrum kz cz (map (fun v => a * v + b) x) osr wt = sweep_spectrum kz cz x osr wt.
Proof.
  intros Ha. destruct (Rtotal_order a 0) as [N|[Z|P]]; [|contradiction|apply sweep_affine; exact P].
  rewrite <- (sweep_affine kz cz x osr wt (- a) (- b)) by lra. rewrite <- sweep_opp, map_map. f_equal. apply map_ext. intros v. ring.
Qed.
Lemma sweep_defined kz cz x osr wt : x <> [] -> 0 < osr -> exists sp, sweep_spectrum kz cz x osr wt = Ok sp.
Proof.
  intros Hx Ho. unfold sweep_spectrum, compute_spectrum. destruct (peak_one x Hx) as [p P]. destruct (prepare_fft_input [x] ScaleAuto) as [rows|e] eqn:E.
  2:{ unfold prepare_fft_input in E. rewrite orient_one, P in E. discriminate. }
  destruct (prepared_one _ _ E) as (row & -> & L). cbn [bind length]. unfold ncols. cbn [hd]. rewrite L.
  assert (Lx : (0 < length x)%nat) by (destruct x; [contradiction|simpl; lia]). rewrite inband_eq by (lia || lra). cbn [bind].
  unfold apply_cutoff. destruct (Rltb_spec 0 0); [lra|]. cbn [bind]. apply analyse_defined; lia.
Qed.
Lemma sweep_bad kz cz x osr wt : osr <= 0 -> sweep_spectrum kz cz x osr wt = Err ValueError.
Proof.
  intros Ho. unfold sweep_spectrum, compute_spectrum. destruct (prepare_fft_input [x] ScaleAuto) as [rows|e] eqn:E.
  - cbn [bind]. rewrite (proj2 (c23_error_iff _ _)) by (right; exact Ho). reflexivity.
  - destruct x as [|a l].
    + unfold prepare_fft_input, peak_of in E. rewrite orient_one in E. cbn in E. injection E as <-. reflexivity.
    + destruct (peak_one (a :: l) ltac:(discriminate)) as [p P]. unfold prepare_fft_input in E. rewrite orient_one, P in E. discriminate.
Qed.

(** ** The loop *)
Lemma partial_contribution bits w n : partial_signal bits w n = contribution (m_n bits) (m_at bits) w n. Proof. reflexivity. Qed.
Lemma sweep_from_ok kz cz bits w len osr wt counts e : sweep_from kz cz bits w len osr wt counts = Ok e ->
  length e = length counts /\ (forall i, (i < length counts)%nat -> (nth i counts 0 <= len)%nat /\
    exists sp, sweep_spectrum kz cz (partial_signal bits w (nth i counts 0%nat)) osr wt = Ok sp /\ nth i e NaN = sp_enob sp).
Proof.
  revert e. induction counts as [|n rest IH]; intros e E; cbn [sweep_from] in E.
  - apply Ok_inj in E. subst e. split; [reflexivity|]. intros i Hi. cbn in Hi. lia.
  - unfold raise_if in E. destruct (Nat.ltb_spec len n) as [|Ln]; [discriminate|]. destruct (sweep_spectrum kz cz (partial_signal bits w n) osr wt) as [sp|] eqn:S; cbn [bind] in E; [|discriminate].
    destruct (sweep_from kz cz bits w len osr wt rest) as [l|]; cbn [bind] in E; [|discriminate]. apply Ok_inj in E. subst e. destruct (IH l eq_refl) as (L & V). cbn [length]. split; [lia|].
    intros i Hi. destruct i as [|i]; cbn [nth]; [split; [exact Ln|]; exists sp; auto|]. apply V. lia.
Qed.
Lemma sweep_from_runs kz cz bits w len osr wt counts : (0 < m_n bits)%nat -> 0 < osr -> (forall n, In n counts -> (n <= len)%nat) -> exists e, sweep_from kz cz bits w len osr wt counts = Ok e.
Proof.
  intros Hn Ho. induction counts as [|n rest IH]; intros Hc; cbn [sweep_from]; [eexists; reflexivity|]. unfold raise_if. destruct (Nat.ltb_spec len n) as [B|_]; [specialize (Hc n (or_introl eq_refl)); lia|].
  destruct (sweep_defined kz cz (partial_signal bits w n) osr wt) as [sp ->]; [unfold partial_signal; destruct (m_n bits); [lia|discriminate]|exact Ho|]. cbn [bind].
  destruct IH as [l ->]; [intros; apply Hc; right; assumption|]. eexists. reflexivity.
Qed.
Lemma sweep_from_short kz cz bits w len osr wt counts : (exists n, In n counts /\ (len < n)%nat) -> sweep_from kz cz bits w len osr wt counts = Err ValueError.
Proof.
  induction counts as [|n rest IH]; intros (k & I & K); [contradiction|]. cbn [sweep_from]. unfold raise_if. destruct (Nat.ltb_spec len n) as [|Ln]; [reflexivity|].
  destruct (sweep_spectrum kz cz (partial_signal bits w n) osr wt) as [sp|x] eqn:S; cbn [bind].
  - rewrite IH; [reflexivity|]. exists k. destruct I as [->|I]; [lia|]. auto.
  - destruct (Rle_or_lt osr 0) as [B|B]; [rewrite sweep_bad in S by exact B; injection S as <-; reflexivity|].
    destruct (partial_signal bits w n) as [|a l] eqn:P; [|destruct (sweep_defined kz cz (a :: l) osr wt ltac:(discriminate) B) as [sp Q]; congruence].
    unfold sweep_spectrum, compute_spectrum, prepare_fft_input in S. rewrite orient_one in S. cbn in S. injection S as <-. reflexivity.
Qed.
(** One ENOB per bit count 1, ..., M: entry n - 1 is the ENOB of what the first n bits contribute with the weights of
    the one calibration of the whole matrix. *)
Lemma c122_entries kz cz lstsq rank est bits freq H osr wt e ns : enob_sweep kz cz lstsq rank est bits freq H osr wt = Ok (e, ns) ->
  (0 < m_m bits <= m_n bits)%nat /\ length e = m_m bits /\ ns = seq 1 (m_m bits) /\ 0 < osr /\
  exists r, calibrate_weight_sine lstsq rank est [bits] freq None None H 0.5 (1 / 10 ^ 12) 100 = Ok r /\
  forall n, (1 <= n <= m_m bits)%nat -> exists sp, sweep_spectrum kz cz (contribution (m_n bits) (m_at bits) (r_weight r) n) osr wt = Ok sp /\ nth (n - 1) e NaN = sp_enob sp.
Proof.
  unfold enob_sweep. destruct (calibrate_weight_sine lstsq rank est [bits] freq None None H 0.5 (1 / 10 ^ 12) 100) as [r|] eqn:C; cbn [bind]; [|discriminate]. cbv zeta.
  set (len := if (m_n bits <? m_m bits)%nat then m_n bits else m_m bits). destruct (sweep_from kz cz bits (r_weight r) len osr wt (seq 1 (m_m bits))) as [l|] eqn:S; cbn [bind]; [|discriminate].
  intros E. apply Ok_inj in E. injection E as -> <-. destruct (sweep_from_ok _ _ _ _ _ _ _ _ _ S) as (L & V). rewrite seq_length in L, V.
  assert (SZ : (m_n bits * m_m bits <> 0)%nat).
  { intros Z. unfold calibrate_weight_sine in C. unfold raise_if at 1 in C. destruct (existsb _ _); [discriminate|]. unfold prepare_input in C. cbn [prepare_loop] in C. unfold raise_if at 1 in C. rewrite Z in C. cbn in C. discriminate. }
  assert (M : (m_m bits <= len)%nat). { pose proof (proj1 (V (m_m bits - 1)%nat ltac:(nia))) as Q. rewrite seq_nth in Q by nia. lia. }
  assert (M' : (0 < m_m bits <= m_n bits)%nat). { revert M. unfold len. destruct (Nat.ltb_spec (m_n bits) (m_m bits)); nia. }
  split; [exact M'|]. split; [exact L|]. split; [reflexivity|]. split.
  - destruct (Rle_or_lt osr 0) as [B|B]; [|exact B]. exfalso. destruct (proj2 (V 0%nat ltac:(lia))) as (sp & Q & _). rewrite sweep_bad in Q by exact B. discriminate.
  - exists r. split; [reflexivity|]. intros n Hn. destruct (V (n - 1)%nat ltac:(lia)) as (_ & sp & Q & W). rewrite seq_nth in Q by lia. replace (1 + (n - 1))%nat with n in Q by lia. exists sp. split; [exact Q|exact W].
Qed.
(** It answers exactly when the calibration does, the OSR is positive and the matrix is not wider than tall; a wide matrix
    (which the calibration accepts, turned round) raises ValueError. *)
Lemma c122_errors kz cz lstsq rank est bits freq H osr wt :
  match calibrate_weight_sine lstsq rank est [bits] freq None None H 0.5 (1 / 10 ^ 12) 100 with
  | Err x => enob_sweep kz cz lstsq rank est bits freq H osr wt = Err x
  | Ok _ => if Rlt_dec 0 osr then (if (m_m bits <=? m_n bits)%nat then exists e, enob_sweep kz cz lstsq rank est bits freq H osr wt = Ok (e, seq 1 (m_m bits))
            else enob_sweep kz cz lstsq rank est bits freq H osr wt = Err ValueError)
            else enob_sweep kz cz lstsq rank est bits freq H osr wt = Err ValueError
  end.
Proof.
  unfold enob_sweep. destruct (calibrate_weight_sine lstsq rank est [bits] freq None None H 0.5 (1 / 10 ^ 12) 100) as [r|] eqn:C; cbn [bind]; [|reflexivity]. cbv zeta.
  assert (SZ : (m_n bits * m_m bits <> 0)%nat).
  { intros Z. unfold calibrate_weight_sine in C. unfold raise_if at 1 in C. destruct (existsb _ _); [discriminate|]. unfold prepare_input in C. cbn [prepare_loop] in C. unfold raise_if at 1 in C. rewrite Z in C. cbn in C. discriminate. }
  destruct (Rlt_dec 0 osr) as [Ho|Ho].
  - destruct (Nat.leb_spec (m_m bits) (m_n bits)) as [T|T].
    + destruct (sweep_from_runs kz cz bits (r_weight r) (if (m_n bits <? m_m bits)%nat then m_n bits else m_m bits) osr wt (seq 1 (m_m bits))) as [e ->]; [nia|exact Ho| |exists e; reflexivity].
      intros n Hn. apply in_seq in Hn. destruct (Nat.ltb_spec (m_n bits) (m_m bits)); lia.
    + rewrite sweep_from_short; [reflexivity|]. exists (m_m bits). split; [apply in_seq; nia|]. destruct (Nat.ltb_spec (m_n bits) (m_m bits)); lia.
  - destruct (m_m bits) as [|m] eqn:Em; [lia|]. cbn [seq sweep_from]. unfold raise_if. destruct (Nat.ltb _ 1); [reflexivity|]. rewrite sweep_bad by lra. reflexivity.
Qed.
(** With the weights recovered exactly (see C55), entry n - 1 is the ENOB of what the first n bits of the converter
    contribute with its true weights -- the calibration's unknown gain and sign do not matter. *)
Lemma c122_true_weights kz cz lstsq rank est bits freq f H osr wt w off a b e ns :
  least_squares lstsq -> rank_correct rank -> freq_is freq f -> f <> 0 -> f <= 1 / 2 -> (0 < m_m bits <= m_n bits)%nat -> (1 <= H)%nat ->
  true_weights bits H f w off a b -> identifiable bits H f w off a b -> a 0%nat <> 0 \/ b 0%nat <> 0 ->
  enob_sweep kz cz lstsq rank est bits freq H osr wt = Ok (e, ns) ->
  forall n, (1 <= n <= m_m bits)%nat -> exists sp, sweep_spectrum kz cz (contribution (m_n bits) (m_at bits) w n) osr wt = Ok sp /\ nth (n - 1) e NaN = sp_enob sp.
Proof.
  intros L RC FI F0 F M H1 T ID NZ E n Hn. destruct (c122_entries _ _ _ _ _ _ _ _ _ _ _ _ E) as (_ & _ & _ & _ & r & C & V). destruct (V n Hn) as (sp & S & W). exists sp. split; [|exact W].
  destruct (c55_recovers lstsq rank est bits freq f None None H 0.5 (1 / 10 ^ 12) 100 w off a b L RC FI F0 F (or_introl eq_refl) M I H1 T ID NZ) as (r' & d & s & C' & _ & _ & Hs & _ & _ & Wt & _).
  rewrite C in C'. apply Ok_inj in C'. subst r'. set (am := amplitude (a 0%nat) (b 0%nat)) in *.
  assert (Am : am <> 0).
  { unfold am, amplitude. apply Rgt_not_eq, sqrt_lt_R0. pose proof (pow2_ge_0 (a 0%nat)). pose proof (pow2_ge_0 (b 0%nat)). destruct NZ as [N|N]; [assert (a 0%nat ^ 2 <> 0) by (apply pow_nonzero; exact N)|assert (b 0%nat ^ 2 <> 0) by (apply pow_nonzero; exact N)]; lra. }
  rewrite <- S, <- (sweep_gain kz cz (contribution (m_n bits) (m_at bits) w n) osr wt (s / am) 0).
  - f_equal. unfold contribution. rewrite map_map. apply map_ext. intros t. rewrite Rplus_0_r, <- rsum_scale. apply rsum_ext. intros j Hj. rewrite Wt by lia. unfold Rdiv. ring.
  - unfold Rdiv. apply Rmult_integral_contrapositive. split; [destruct Hs; subst s; lra|apply Rinv_neq_0_compat, Am].
Qed.
(** The first entry is the ENOB of the most significant bit alone, whatever nonzero weight it got. *)
Lemma c122_first kz cz lstsq rank est bits freq H osr wt e ns r : enob_sweep kz cz lstsq rank est bits freq H osr wt = Ok (e, ns) ->
  calibrate_weight_sine lstsq rank est [bits] freq None None H 0.5 (1 / 10 ^ 12) 100 = Ok r -> r_weight r 0%nat <> 0 ->
  exists sp, sweep_spectrum kz cz (map (fun t => m_at bits t 0) (seq 0 (m_n bits))) osr wt = Ok sp /\ nth 0 e NaN = sp_enob sp.
Proof.
  intros E C W0. destruct (c122_entries _ _ _ _ _ _ _ _ _ _ _ _ E) as (M & _ & _ & _ & r' & C' & V). rewrite C in C'. apply Ok_inj in C'. subst r'. destruct (V 1%nat ltac:(lia)) as (sp & S & W). exists sp. split; [|exact W].
  rewrite <- S, <- (sweep_gain kz cz (map (fun t => m_at bits t 0) (seq 0 (m_n bits))) osr wt (r_weight r 0%nat) 0 W0). f_equal. unfold contribution. rewrite map_map. apply map_ext. intros t. cbn [rsum]. ring.
Qed.

(** The last entry is the ENOB of the calibrated record the calibration itself returns. *)
Lemma c122_last kz cz lstsq rank est bits freq H osr wt e ns r : enob_sweep kz cz lstsq rank est bits freq H osr wt = Ok (e, ns) ->
  calibrate_weight_sine lstsq rank est [bits] freq None None H 0.5 (1 / 10 ^ 12) 100 = Ok r ->
  exists d sp, r_sets r = [d] /\ sweep_spectrum kz cz (map (r_calibrated d) (seq 0 (m_n bits))) osr wt = Ok sp /\ nth (m_m bits - 1) e NaN = sp_enob sp.
Proof.
  intros E C. destruct (c122_entries _ _ _ _ _ _ _ _ _ _ _ _ E) as (M & _ & _ & _ & r' & C' & V). rewrite C in C'. apply Ok_inj in C'. subst r'. destruct (V (m_m bits) ltac:(lia)) as (sp & S & W).
  assert (D : exists d, r_sets r = [d] /\ forall i, r_calibrated d i = rsum (m_m bits) (fun j => m_at bits i j * r_weight r j)).
  { destruct (prepare_single bits None M I) as (nw & PR). clear - C PR. unfold calibrate_weight_sine in C. unfold raise_if at 1 in C. destruct (existsb _ _); [discriminate|]. rewrite PR in C. cbn [bind] in C.
    destruct (estimate_frequencies est (length [bits]) freq) as [fr|]; cbn [bind] in C; [|discriminate]. cbv zeta in C.
    match type of C with match ?X with _ => _ end = _ => destruct X as [[f' co] ch] end.
    match type of C with bind ?X _ = _ => destruct X as [w|] end; cbn [bind] in C; [|discriminate]. apply Ok_inj in C.
    match type of C with post_process ?bw ?w ?sol ?nf ?chc ?segs ?be ?HH ?cb ?sb ?ff = _ => pose proof (c40_invariants bw w sol nf chc segs be HH cb sb ff) as Q end.
    assert (Q0 : forall d, (d < length [bits])%nat -> m_m (nth d [bits] (mkMat 0 0 (fun _ _ => 0))) = m_m bits) by (intros d Hd; cbn in Hd; replace d with 0%nat by lia; reflexivity).
    specialize (Q Q0). cbv zeta in Q. rewrite C in Q. destruct Q as (_ & Ls & Q). cbn [length] in Ls. destruct (r_sets r) as [|d [|]] eqn:R; try discriminate. exists d. split; [reflexivity|].
    intros i. destruct (Q 0%nat i ltac:(cbn; lia)) as (Q1 & _). cbn [nth] in Q1. exact Q1. }
  destruct D as (d & Rd & Cd). exists d, sp. split; [exact Rd|]. split; [|exact W]. rewrite <- S. f_equal. unfold contribution. apply map_ext. intros t. apply Cd.
Qed.
(** It should answer whenever the calibration does.  Two samples of three bits: the calibration answers (it reads
    them as three samples of two bits), the sweep does not. *)
Lemma c123_wide_refuted : exists kz cz lstsq rank est bits freq H osr wt r, 0 < osr /\
  calibrate_weight_sine lstsq rank est [bits] freq None None H 0.5 (1 / 10 ^ 12) 100 = Ok r /\ enob_sweep kz cz lstsq rank est bits freq H osr wt = Err ValueError.
Proof.
  set (z := fun _ : nat => @nil R). set (bits := mkMat 2 3 (fun i j => if (i =? j)%nat then 1 else 0)).
  destruct (calibrate_weight_sine (fun _ _ => zvec) m_m (fun _ => 0) [bits] (FScalar (1 / 4)) None None 1 0.5 (1 / 10 ^ 12) 100) as [r|x] eqn:C.
  - exists z, z, (fun _ _ => zvec), m_m, (fun _ => 0), bits, (FScalar (1 / 4)), 1%nat, 1, Hann, r. split; [lra|]. split; [exact C|].
    pose proof (c122_errors z z (fun _ _ => zvec) m_m (fun _ => 0) bits (FScalar (1 / 4)) 1 1 Hann) as Q. rewrite C in Q. destruct (Rlt_dec 0 1); [|lra]. exact Q.
  - exfalso. unfold calibrate_weight_sine in C. unfold raise_if at 1 in C. cbn [freq_list existsb] in C. destruct (Rltb_spec (1 / 2) (1 / 4)); [lra|]. cbn [orb] in C.
    unfold prepare_input in C. cbn [prepare_loop] in C. unfold raise_if at 1 2 in C. cbn [bits m_n m_m Nat.mul Nat.add Nat.eqb Nat.ltb Nat.leb bind transpose] in C. unfold setup_nominal_weights in C. cbn [bind] in C.
    unfold estimate_frequencies in C. destruct (all_zero _); cbn [bind] in C;
    (match type of C with match ?X with _ => _ end = _ => destruct X as [[f' co] ch] end;
     match type of C with bind ?X _ = _ => destruct X as [w|] eqn:RR end; cbn [bind] in C; [discriminate|]; clear C; unfold recover_rank_deficiency, raise_if, patch_rank_deficiency in RR; cbn in RR; discriminate).
Qed.
(** Eight samples of a three-bit converter with weights 2, 1, 1 (see C55): the sweep's three entries are the ENOBs of the
    contributions of one, two and three bits with these weights. *)
Lemma c122_true_weights_ex kz cz : exists e, enob_sweep kz cz gs_lstsq gs_rank (fun _ => 0) ex_bits (FScalar (1 / 4)) 1 1 Hamming = Ok (e, [1; 2; 3]%nat) /\ length e = 3%nat /\
  exists sp, sweep_spectrum kz cz [3; 2; 0; 1; 2; 1; 0; 0] 1 Hamming = Ok sp /\ nth 1 e NaN = sp_enob sp.
Proof.
  destruct (c55_recovers gs_lstsq gs_rank (fun _ => 0) ex_bits (FScalar (1 / 4)) (1 / 4) None None 1 0.5 (1 / 10 ^ 12) 100 ex_w (3 / 2) ex_a ex_b) as (r & d & s & E & _);
    try (exact gs_least_squares || exact gs_rank_correct || exact ex_true || exact ex_identifiable || exact I || (left; reflexivity) || lra || (cbn; lia)).
  { unfold ex_a. left. lra. }
  pose proof (c122_errors kz cz gs_lstsq gs_rank (fun _ => 0) ex_bits (FScalar (1 / 4)) 1 1 Hamming) as Q. rewrite E in Q. destruct (Rlt_dec 0 1); [|lra]. destruct Q as [e Q]. exists e. split; [exact Q|].
  destruct (c122_entries _ _ _ _ _ _ _ _ _ _ _ _ Q) as (_ & L & _). split; [exact L|].
  destruct (c122_true_weights kz cz gs_lstsq gs_rank (fun _ => 0) ex_bits (FScalar (1 / 4)) (1 / 4) 1 1 Hamming ex_w (3 / 2) ex_a ex_b e [1; 2; 3]%nat) with (n := 2%nat) as (sp & S & W);
    try (exact gs_least_squares || exact gs_rank_correct || exact ex_true || exact ex_identifiable || exact Q || (left; reflexivity) || lra || (cbn; lia)).
  { unfold ex_a. left. lra. }
  exists sp. split; [|exact W]. rewrite <- S. f_equal. unfold contribution, ex_w. cbn. repeat (apply (f_equal2 cons); [ring|]). reflexivity.
Qed.
