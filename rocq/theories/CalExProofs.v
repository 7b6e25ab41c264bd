(** * Examples for the weight calibration and its documented uses that fail. *)
From Verif Require Import Base BaseLemmas CalModel CalSpec SpecLemmas DoutProofs CalProofs CalExLemmas.
Local Open Scope R_scope.

(** Quarter-rate tones. *)
Lemma quarter_arg t : 2 * PI * (1 / 4) * (INR t * INR 1) = INR t * (PI / 2). Proof. cbn. field. Qed.
Definition qcos (t : nat) : R := match Nat.modulo t 4 with 0%nat => 1 | 1%nat => 0 | 2%nat => -1 | _ => 0 end.
Definition qsin (t : nat) : R := match Nat.modulo t 4 with 0%nat => 0 | 1%nat => 1 | 2%nat => 0 | _ => -1 end.
Lemma quarter_trig t : cos (INR t * (PI / 2)) = qcos t /\ sin (INR t * (PI / 2)) = qsin t.
Proof.
  assert (G : forall q r, (r < 4)%nat -> cos (INR (4 * q + r) * (PI / 2)) = cos (INR r * (PI / 2)) /\ sin (INR (4 * q + r) * (PI / 2)) = sin (INR r * (PI / 2))).
  { intros q r _. replace (INR (4 * q + r) * (PI / 2)) with (INR r * (PI / 2) + 2 * INR q * PI) by (rewrite plus_INR, mult_INR; cbn; field). split; [apply cos_period | apply sin_period]. }
  rewrite (Nat.div_mod_eq t 4) at 1 3. assert (M : (t mod 4 < 4)%nat) by (apply Nat.mod_upper_bound; lia).
  destruct (G (t / 4)%nat (t mod 4)%nat M) as (-> & ->). unfold qcos, qsin. clear G.
  destruct (t mod 4)%nat as [| [| [| [| k]]]]; [| | | | lia].
  - cbn [INR]. rewrite Rmult_0_l, cos_0, sin_0. split; reflexivity.
  - cbn [INR]. rewrite Rmult_1_l, cos_PI2, sin_PI2. split; reflexivity.
  - replace (INR 2 * (PI / 2)) with PI by (cbn; field). rewrite cos_PI, sin_PI. split; reflexivity.
  - replace (INR 3 * (PI / 2)) with (3 * (PI / 2)) by (cbn; ring). rewrite cos_3PI2, sin_3PI2. split; reflexivity.
Qed.
Lemma quarter_tone o a b t : tone 1 o a b (1 / 4) t = o + a 0%nat * qcos t + b 0%nat * qsin t.
Proof. unfold tone. cbn [rsum]. rewrite !quarter_arg. destruct (quarter_trig t) as (-> & ->). ring. Qed.
Definition of_rows (rows : list (list R)) : mat := mkMat (length rows) (length (hd [] rows)) (fun i j => nth j (nth i rows []) 0).

(** A 3-bit converter with a redundant bit, weights 2, 1, 1. *)
Definition ex_bits : mat := of_rows [[1; 1; 0]; [1; 0; 0]; [0; 0; 0]; [0; 1; 0]; [1; 0; 1]; [0; 1; 1]; [0; 0; 0]; [0; 0; 1]].
Definition ex_w : vec := fun j => nth j [2; 1; 1] 0.
Definition ex_a : vec := fun _ => 3 / 2. Definition ex_b : vec := fun _ => 1 / 2.
Lemma ex_true : true_weights ex_bits 1 (1 / 4) ex_w (3 / 2) ex_a ex_b.
Proof.
  intros t T. cbn in T. rewrite quarter_tone. unfold output, ex_a, ex_b, qcos, qsin, ex_w.
  do 8 (destruct t as [| t]; [cbn; lra |]). lia.
Qed.
Lemma ex_identifiable : identifiable ex_bits 1 (1 / 4) ex_w (3 / 2) ex_a ex_b.
Proof.
  intros u o c s E. assert (F : forall t, (t < 8)%nat -> output ex_bits u t = o + c 0%nat * qcos t + s 0%nat * qsin t) by (intros t T; rewrite <- quarter_tone; apply E; exact T). clear E.
  unfold output, qcos, qsin in F.
  pose proof (F 0%nat ltac:(lia)) as F0. pose proof (F 1%nat ltac:(lia)) as F1. pose proof (F 2%nat ltac:(lia)) as F2. pose proof (F 3%nat ltac:(lia)) as F3.
  pose proof (F 4%nat ltac:(lia)) as F4. pose proof (F 5%nat ltac:(lia)) as F5. pose proof (F 7%nat ltac:(lia)) as F7. clear F. cbn in F0, F1, F2, F3, F4, F5, F7.
  exists (2 * s 0%nat). unfold ex_w, ex_a, ex_b. repeat split.
  - intros j J. cbn in J. destruct j as [| [| [| j]]]; [cbn; lra | cbn; lra | cbn; lra | lia].
  - lra.
  - intros h Hh. replace h with 0%nat by lia. lra.
  - intros h Hh. replace h with 0%nat by lia. lra.
Qed.
Lemma ex_amplitude : amplitude (3 / 2) (1 / 2) = sqrt (5 / 2). Proof. unfold amplitude. f_equal. lra. Qed.
Lemma c39_recovers_ex : exists wt, calibrate_weight_sine_lite gs_lstsq ex_bits (1 / 4) = Ok wt /\ wt 0%nat = 2 / sqrt (5 / 2) /\ wt 1%nat = 1 / sqrt (5 / 2) /\ wt 2%nat = 1 / sqrt (5 / 2).
Proof.
  destruct (c39_recovers gs_lstsq ex_bits (1 / 4) ex_w (3 / 2) ex_a ex_b gs_least_squares ltac:(lra) ex_true ex_identifiable) as (wt & s & E & _ & W & P & _); [unfold ex_a; lra |].
  exists wt. split; [exact E |]. assert (s = 1) by (apply P; cbn; lra). subst s.
  unfold ex_a, ex_b in W. rewrite ex_amplitude in W. rewrite !W by (cbn; lia). unfold ex_w. cbn. rewrite !Rmult_1_l. repeat split; reflexivity.
Qed.
Lemma c55_recovers_ex : exists r, calibrate_weight_sine gs_lstsq gs_rank (fun _ => 0) [ex_bits] (FScalar (1 / 4)) None (Some [2; 1; 1]) 1 (1 / 2) (1 / 10 ^ 12) 100 = Ok r /\
  r_weight r 0%nat = 2 / sqrt (5 / 2) /\ r_weight r 1%nat = 1 / sqrt (5 / 2) /\ r_weight r 2%nat = 1 / sqrt (5 / 2) /\ r_offset r = (3 / 2) / sqrt (5 / 2).
Proof.
  destruct (c55_recovers gs_lstsq gs_rank (fun _ => 0) ex_bits (FScalar (1 / 4)) (1 / 4) None (Some [2; 1; 1]) 1 (1 / 2) (1 / 10 ^ 12) 100 ex_w (3 / 2) ex_a ex_b) as (r & d & s & E & _ & _ & _ & P & _ & W & O & _);
    try (exact gs_least_squares || exact gs_rank_correct || exact ex_true || exact ex_identifiable || reflexivity || (left; reflexivity) || lra || (cbn; lia)).
  { unfold ex_a. left. lra. }
  exists r. split; [exact E |]. assert (s = 1) by (apply P; cbn; lra). subst s.
  unfold ex_a, ex_b in W, O. rewrite ex_amplitude in W, O. rewrite !W by (cbn; lia). rewrite O. unfold ex_w. cbn. rewrite !Rmult_1_l. repeat split; reflexivity.
Qed.

(** ** C77: the lite calibration and tones without a cosine part *)
Definition sine_bits : mat := of_rows [[0; 0]; [1; 0]; [0; 0]; [0; 1]].
Definition sine_w : vec := fun j => nth j [1; -1] 0.
(** With a tone that is a pure sine (phase 0), identifiable and of amplitude 1, no least-squares
    routine makes the lite calibration return the true weights, with either sign. *)
Lemma c77_pure_sine_refuted : exists bits w f, true_weights bits 1 f w 0 (fun _ => 0) (fun _ => 1) /\ identifiable bits 1 f w 0 (fun _ => 0) (fun _ => 1) /\ f <= 1 / 2 /\
  forall lstsq wt, least_squares lstsq -> calibrate_weight_sine_lite lstsq bits f = Ok wt ->
  ~ exists s, (s = 1 \/ s = -1) /\ forall j, (j < m_m bits)%nat -> wt j = s * w j / amplitude 0 1.
Proof.
  exists sine_bits, sine_w, (1 / 4). split; [| split; [| split; [lra |]]].
  - intros t T. cbn in T. rewrite quarter_tone. unfold output, qcos, qsin, sine_w. do 4 (destruct t as [| t]; [cbn; lra |]). lia.
  - intros u o c s E. assert (F : forall t, (t < 4)%nat -> output sine_bits u t = o + c 0%nat * qcos t + s 0%nat * qsin t) by (intros t T; rewrite <- quarter_tone; apply E; exact T). clear E.
    unfold output, qcos, qsin in F. pose proof (F 0%nat ltac:(lia)) as F0. pose proof (F 1%nat ltac:(lia)) as F1. pose proof (F 2%nat ltac:(lia)) as F2. pose proof (F 3%nat ltac:(lia)) as F3. clear F. cbn in F0, F1, F2, F3.
    exists (s 0%nat). unfold sine_w. repeat split.
    + intros j J. cbn in J. destruct j as [| [| j]]; [cbn; lra | cbn; lra | lia]. + lra.
    + intros h Hh. replace h with 0%nat by lia. lra. + intros h Hh. replace h with 0%nat by lia. lra.
  - intros lstsq wt L E (sg & SG & W). unfold calibrate_weight_sine_lite, raise_if in E. destruct (Rltb_spec (1 / 2) (1 / 4)); [lra |]. cbv beta zeta in E.
    set (A := hcat (hcat sine_bits (ones (m_n sine_bits))) (of_cols (m_n sine_bits) [fun t => sin (2 * PI * (1 / 4) * INR t)])) in *.
    set (b := fun t => - cos (2 * PI * (1 / 4) * INR t)) in *. set (x := lstsq A b) in *. apply Ok_inj in E. subst wt.
    assert (ARG : forall t, 2 * PI * (1 / 4) * INR t = INR t * (PI / 2)) by (intros; field).
    assert (EX : forall y t, mv A y t = output sine_bits y t + y 2%nat + qsin t * y 3%nat).
    { intros y t. unfold A. rewrite !mv_hcat. unfold mv at 2 3. cbn [ones of_cols m_m m_at length rsum nth m_n]. rewrite ARG. destruct (quarter_trig t) as (_ & ->). cbn [sine_bits of_rows m_m hcat length hd Nat.add ones]. unfold output, mv. ring. }
    assert (BT : forall t, b t = - qcos t) by (intros t; unfold b; rewrite ARG; destruct (quarter_trig t) as (-> & _); reflexivity).
    pose proof (L A b zvec) as LS. fold x in LS.
    change (rsum 4 (fun i => (mv A x i - b i) ^ 2) <= rsum 4 (fun i => (mv A zvec i - b i) ^ 2)) in LS.
    rewrite (rsum_ext 4 _ (fun i => (output sine_bits x i + x 2%nat + qsin i * x 3%nat + qcos i) ^ 2)) in LS by (intros; rewrite EX, BT; ring).
    rewrite (rsum_ext 4 (fun i => (mv A zvec i - b i) ^ 2) (fun i => qcos i ^ 2)) in LS.
    2:{ intros i Hi. rewrite EX, BT. unfold zvec, output. rewrite (rsum_zero (m_m sine_bits)) by (intros; ring). ring. }
    cbn [rsum] in LS. unfold output, qcos, qsin in LS. cbn -[pow] in LS.
    assert (X2 : x 2%nat = 0 /\ x 0%nat = - x 3%nat /\ x 1%nat = x 3%nat).
    { assert (P1 := pow2_ge_0 (x 2%nat)). assert (P2 := pow2_ge_0 (x 0%nat + x 2%nat + x 3%nat)). assert (P3 := pow2_ge_0 (x 1%nat + x 2%nat - x 3%nat)).
      assert (SUM : 2 * x 2%nat ^ 2 + (x 0%nat + x 2%nat + x 3%nat) ^ 2 + (x 1%nat + x 2%nat - x 3%nat) ^ 2 <= 0) by nra.
      assert (Z1 : x 2%nat = 0) by (apply sq_zero; lra). assert (Z2 : x 0%nat + x 2%nat + x 3%nat = 0) by (apply sq_zero; lra). assert (Z3 : x 1%nat + x 2%nat - x 3%nat = 0) by (apply sq_zero; lra). lra. }
    destruct X2 as (_ & X0 & X1). change (m_m A - 1)%nat with 3%nat in W.
    set (nf := sqrt (1 + x 3%nat ^ 2)) in W.
    assert (NF : Rabs (x 3%nat) < nf).
    { unfold nf. rewrite <- sqrt_Rsqr_abs. apply sqrt_lt_1_alt. unfold Rsqr. pose proof (pow2_ge_0 (x 3%nat)). lra. }
    assert (AMP : amplitude 0 1 = 1) by (unfold amplitude; replace (0 ^ 2 + 1 ^ 2) with 1 by ring; apply sqrt_1).
    specialize (W 0%nat ltac:(cbn; lia)). rewrite AMP in W. unfold sine_w in W. cbn [nth] in W.
    assert (NP : 0 < nf) by (pose proof (Rabs_pos (x 3%nat)); lra).
    assert (Q : Rabs (x 0%nat / nf) = 1).
    { destruct (Rltb _ 0) in W; destruct SG as [-> | ->]; [replace (x 0%nat / nf) with (-1) by lra | replace (x 0%nat / nf) with 1 by lra | replace (x 0%nat / nf) with 1 by lra | replace (x 0%nat / nf) with (-1) by lra];
        unfold Rabs; destruct (Rcase_abs _); lra. }
    rewrite X0 in Q. unfold Rdiv in Q. rewrite Rabs_mult, Rabs_Ropp, (Rabs_pos_eq (/ nf)) in Q by (left; apply Rinv_0_lt_compat; exact NP).
    assert (Rabs (x 3%nat) = nf). { apply (Rmult_eq_reg_r (/ nf)); [| apply Rinv_neq_0_compat; lra]. rewrite Q. field. lra. } lra.
Qed.
(** The full calibration handles that record. *)
Lemma c77_full_calibration_ok_ex : exists r s, calibrate_weight_sine gs_lstsq gs_rank (fun _ => 0) [sine_bits] (FScalar (1 / 4)) None None 1 (1 / 2) (1 / 10 ^ 12) 100 = Ok r /\
  (s = 1 \/ s = -1) /\ r_weight r 0%nat = s /\ r_weight r 1%nat = - s.
Proof.
  assert (AMP : amplitude 0 1 = 1) by (unfold amplitude; replace (0 ^ 2 + 1 ^ 2) with 1 by ring; apply sqrt_1).
  destruct (c55_recovers gs_lstsq gs_rank (fun _ => 0) sine_bits (FScalar (1 / 4)) (1 / 4) None None 1 (1 / 2) (1 / 10 ^ 12) 100 sine_w 0 (fun _ => 0) (fun _ => 1)) as (r & d & s & E & _ & _ & S & _ & _ & W & _);
    try (exact gs_least_squares || exact gs_rank_correct || exact I || (left; reflexivity) || lra || (cbn; lia)).
  - intros t T. cbn in T. rewrite quarter_tone. unfold output, qcos, qsin, sine_w. do 4 (destruct t as [| t]; [cbn; lra |]). lia.
  - intros u o c s E. assert (F : forall t, (t < 4)%nat -> output sine_bits u t = o + c 0%nat * qcos t + s 0%nat * qsin t) by (intros t T; rewrite <- quarter_tone; apply E; exact T). clear E.
    unfold output, qcos, qsin in F. pose proof (F 0%nat ltac:(lia)) as F0. pose proof (F 1%nat ltac:(lia)) as F1. pose proof (F 2%nat ltac:(lia)) as F2. pose proof (F 3%nat ltac:(lia)) as F3. clear F. cbn in F0, F1, F2, F3.
    exists (s 0%nat). unfold sine_w. repeat split.
    + intros j J. cbn in J. destruct j as [| [| j]]; [cbn; lra | cbn; lra | lia]. + lra.
    + intros h Hh. replace h with 0%nat by lia. lra. + intros h Hh. replace h with 0%nat by lia. lra.
  - exists r, s. split; [exact E |]. split; [exact S |]. rewrite !W by (cbn; lia). rewrite AMP. unfold sine_w. cbn [nth]. split; field.
Qed.

(** ** C78: merging complementary bits *)
Definition comp_bits : mat := of_rows [[1; 0]; [0; 1]].
(** Two complementary bits with equal nominal weights are merged into one constant column: after
    patching every weight vector has a constant output, although the bits carry a signal. *)
Lemma c78_complementary_bits_refuted : exists bits nominal, (forall x, In x nominal -> 0 < x) /\
  (exists w i j, (i < m_n bits)%nat /\ (j < m_n bits)%nat /\ output bits w i <> output bits w j) /\
  forall rank, rank_correct rank -> forall w_eff i j, (i < m_n bits)%nat -> (j < m_n bits)%nat ->
    let eff := of_cols (m_n bits) (p_eff (patch_rank_deficiency rank bits nominal)) in output eff w_eff i = output eff w_eff j.
Proof.
  exists comp_bits, [1; 1]. split; [intros x [<- | [<- | []]]; lra |]. split.
  { exists (fun j => if (j =? 0)%nat then 1 else 0), 0%nat, 1%nat. split; [cbn; lia |]. split; [cbn; lia |]. unfold output. cbn. lra. }
  intros rank (R1 & R2) w_eff i j I J.
  assert (EPS : 0 < 1 / 10 ^ 15 < 1 / 4).
  { assert (4 < 10 ^ 15) by (apply (Rlt_le_trans _ (10 ^ 1)); [lra | apply Rle_pow; [lra | lia]]). split; [apply Rdiv_lt_0_compat; lra |].
    unfold Rdiv. rewrite !Rmult_1_l. apply Rinv_lt_contravar; lra. }
  assert (FAST : (m_m comp_bits + 1 <=? rank (hcat comp_bits (ones (m_n comp_bits))))%nat = false).
  { apply Nat.leb_gt. destruct (Nat.lt_ge_cases (rank (hcat comp_bits (ones (m_n comp_bits)))) (m_m comp_bits + 1)) as [Y | Y]; [exact Y | exfalso].
    assert (IN : independent (hcat comp_bits (ones (m_n comp_bits)))) by (apply R1; exact Y).
    assert (Z : (fun j => if (j <? 2)%nat then 1 else -1) 0%nat = 0). { apply (IN (fun j => if (j <? 2)%nat then 1 else -1)); [| cbn; lia]. intros t T. cbn in T. destruct t as [| [| t]]; [cbn; lra | cbn; lra | lia]. }
    cbn in Z. lra. }
  assert (PTP : forall c, (c = colm comp_bits 0 \/ c = colm comp_bits 1) -> Rltb (vptp 2 c) (1 / 10 ^ 15) = false).
  { intros c [-> | ->]; apply Rltb_false; unfold vptp, colm, lmax1, lmin1; cbn -[pow Rmax Rmin]; unfold Rmax, Rmin; repeat destruct (Rle_dec _ _); lra. }
  assert (BASE : forall cols, m_m (hcat (ones 2) (of_cols 2 cols)) = S (length cols)) by reflexivity.
  assert (RNK : forall cols c, (rank (hcat (ones 2) (of_cols 2 cols)) < rank (hcat (hcat (ones 2) (of_cols 2 cols)) (of_cols 2 [c])))%nat <-> ~ in_span (hcat (ones 2) (of_cols 2 cols)) c).
  { intros cols c. apply R2; [reflexivity | reflexivity | |].
    - intros p q Q. unfold hcat at 1. cbn [m_at]. destruct (Nat.ltb_spec q (m_m (hcat (ones 2) (of_cols 2 cols)))); [reflexivity | lia].
    - intros p. unfold hcat at 1. cbn [m_at]. rewrite Nat.ltb_irrefl, Nat.sub_diag. reflexivity. }
  assert (S4 : sqrt (1 / 4) = 1 / 2) by (replace (1 / 4) with (1 / 2 * (1 / 2)) by lra; apply sqrt_square; lra).
  assert (LOOP : p_eff (patch_rank_deficiency rank comp_bits [1; 1]) = [fun i => colm comp_bits 0 i + colm comp_bits 1 i * (1 / 1)]).
  { unfold patch_rank_deficiency. rewrite FAST. change (m_m comp_bits) with 2%nat. change (m_n comp_bits) with 2%nat. cbn [seq fold_left].
    unfold patch_step at 2. rewrite PTP by (left; reflexivity). cbv zeta. cbn [p_eff p_founder p_map p_ratio app length].
    destruct (Nat.ltb_spec (rank (hcat (ones 2) (of_cols 2 []))) (rank (hcat (hcat (ones 2) (of_cols 2 [])) (of_cols 2 [colm comp_bits 0])))) as [_ | B1].
    2:{ exfalso. apply Nat.le_ngt in B1. apply B1. apply RNK. intros (x & X). pose proof (X 0%nat ltac:(cbn; lia)) as X0. pose proof (X 1%nat ltac:(cbn; lia)) as X1. unfold colm in X0, X1. cbn in X0, X1. lra. }
    unfold patch_step. rewrite PTP by (right; reflexivity). cbv zeta. cbn [p_eff p_founder p_map p_ratio app length].
    destruct (Nat.ltb_spec (rank (hcat (ones 2) (of_cols 2 [colm comp_bits 0]))) (rank (hcat (hcat (ones 2) (of_cols 2 [colm comp_bits 0])) (of_cols 2 [colm comp_bits 1])))) as [B2 | _].
    { exfalso. apply RNK in B2. apply B2. exists (fun q => if (q =? 0)%nat then 1 else -1). intros t T. cbn in T. destruct t as [| [| t]]; [unfold colm; cbn; lra | unfold colm; cbn; lra | lia]. }
    cbn [find_correlated].
    assert (CORR : correlation 2 (colm comp_bits 1) (colm comp_bits 0) = -1).
    { unfold correlation. assert (M1 : vmean 2 (colm comp_bits 1) = 1 / 2) by (unfold vmean, colm; cbn; lra). assert (M0 : vmean 2 (colm comp_bits 0) = 1 / 2) by (unfold vmean, colm; cbn; lra). rewrite M1, M0.
      replace (vmean 2 (fun i0 => (colm comp_bits 1 i0 - 1 / 2) ^ 2)) with (1 / 4) by (unfold vmean, colm; cbn; lra).
      replace (vmean 2 (fun i0 => (colm comp_bits 0 i0 - 1 / 2) ^ 2)) with (1 / 4) by (unfold vmean, colm; cbn; lra).
      replace (vmean 2 (fun i0 => (colm comp_bits 1 i0 - 1 / 2) * (colm comp_bits 0 i0 - 1 / 2))) with (- (1 / 4)) by (unfold vmean, colm; cbn; lra).
      rewrite S4. destruct (Rltb_spec (1 / 2 * (1 / 2)) (1 / 10 ^ 15)); [lra | lra]. }
    rewrite CORR. replace (Rabs (Rabs (-1) - 1)) with 0. 2:{ unfold Rabs. repeat destruct (Rcase_abs _); lra. }
    destruct (Rltb_spec 0 (1 / 1000)); [| lra]. reflexivity. }
  cbv zeta. rewrite LOOP. change (m_n comp_bits) with 2%nat in *. unfold output, of_cols. cbn [m_m m_at length rsum nth]. f_equal. f_equal. unfold colm.
  destruct i as [| [| i]]; [| | lia]; (destruct j as [| [| j]]; [| | lia]); cbn; lra.
Qed.

(** ** C79: several data sets *)
Definition cos_bits : mat := of_rows [[1; 0]; [0; 0]; [0; 1]; [0; 0]].
Lemma cos_bits_true : true_weights cos_bits 1 (1 / 4) sine_w 0 (fun _ => 1) (fun _ => 0).
Proof. intros t T. cbn in T. rewrite quarter_tone. unfold output, qcos, qsin, sine_w. do 4 (destruct t as [| t]; [cbn; lra |]). lia. Qed.
Lemma cos_bits_identifiable : identifiable cos_bits 1 (1 / 4) sine_w 0 (fun _ => 1) (fun _ => 0).
Proof.
  intros u o c s E. assert (F : forall t, (t < 4)%nat -> output cos_bits u t = o + c 0%nat * qcos t + s 0%nat * qsin t) by (intros t T; rewrite <- quarter_tone; apply E; exact T). clear E.
  unfold output, qcos, qsin in F. pose proof (F 0%nat ltac:(lia)) as F0. pose proof (F 1%nat ltac:(lia)) as F1. pose proof (F 2%nat ltac:(lia)) as F2. pose proof (F 3%nat ltac:(lia)) as F3. clear F. cbn in F0, F1, F2, F3.
  exists (c 0%nat). unfold sine_w. repeat split.
  - intros j J. cbn in J. destruct j as [| [| j]]; [cbn; lra | cbn; lra | lia]. - lra.
  - intros h Hh. replace h with 0%nat by lia. lra. - intros h Hh. replace h with 0%nat by lia. lra.
Qed.
(** The record alone gives the true weights; the same record given twice, as two data sets with the
    same known frequency, gives weights that are too small by a factor of sqrt 2, with every correct
    least-squares and rank routine. *)
Lemma c79_two_data_sets_refuted : exists bits w f, true_weights bits 1 f w 0 (fun _ => 1) (fun _ => 0) /\ identifiable bits 1 f w 0 (fun _ => 1) (fun _ => 0) /\ w 0%nat = 1 /\
  forall lstsq rank est lr reltol mi, least_squares lstsq -> rank_correct rank ->
  (exists r s, calibrate_weight_sine lstsq rank est [bits] (FScalar f) None None 1 lr reltol mi = Ok r /\ (s = 1 \/ s = -1) /\ r_weight r 0%nat = s * w 0%nat) /\
  (exists r, calibrate_weight_sine lstsq rank est [bits; bits] (FScalar f) None None 1 lr reltol mi = Ok r /\ Rabs (r_weight r 0%nat) = w 0%nat / sqrt 2).
Proof.
  exists cos_bits, sine_w, (1 / 4). split; [exact cos_bits_true |]. split; [exact cos_bits_identifiable |]. split; [reflexivity |]. intros lstsq rank est lr reltol mi L RC. split.
  { destruct (c55_recovers lstsq rank est cos_bits (FScalar (1 / 4)) (1 / 4) None None 1 lr reltol mi sine_w 0 (fun _ => 1) (fun _ => 0)) as (r & d & s & E & _ & _ & S & _ & _ & W & _);
      try (assumption || exact cos_bits_true || exact cos_bits_identifiable || exact I || (left; reflexivity) || lra || (cbn; lia)).
    exists r, s. split; [exact E |]. split; [exact S |]. rewrite W by (cbn; lia). unfold amplitude. replace (1 ^ 2 + 0 ^ 2) with 1 by ring. rewrite sqrt_1. field. }
  unfold calibrate_weight_sine, raise_if at 1. cbn [freq_list existsb]. destruct (Rltb_spec (1 / 2) (1 / 4)); [lra |]. cbn [orb].
  change (prepare_input [cos_bits; cos_bits] None) with (Ok ([cos_bits; cos_bits], 2%nat, [2 ^ 1; 2 ^ 0])). cbn [bind].
  change (length [cos_bits; cos_bits]) with 2%nat. set (STK := stack [cos_bits; cos_bits]).
  assert (PATCH : patch_rank_deficiency rank STK [2 ^ 1; 2 ^ 0] = mkPatch (map (colm STK) (seq 0 2)) (seq 0 2) (map Some (seq 0 2)) (repeat 1 2)).
  { unfold patch_rank_deficiency. destruct (Nat.leb_spec (m_m STK + 1) (rank (hcat STK (ones (m_n STK))))) as [_ | Y]; [reflexivity | exfalso].
    destruct RC as (R1 & _). apply Nat.lt_nge in Y. apply Y. change (m_m STK + 1)%nat with (m_m (hcat STK (ones (m_n STK)))). apply R1.
    intros x Z. pose proof (Z 0%nat ltac:(cbn; lia)) as Z0. pose proof (Z 1%nat ltac:(cbn; lia)) as Z1. pose proof (Z 2%nat ltac:(cbn; lia)) as Z2. cbn in Z0, Z1, Z2.
    intros j J. cbn in J. destruct j as [| [| [| j]]]; [lra | lra | lra | lia]. }
  rewrite PATCH. cbn [p_eff]. unfold estimate_frequencies, all_zero. cbn [freq_list forallb]. destruct (Reqb_spec (1 / 4) 0); [lra |]. cbn [andb bind].
  cbn [seq existsb]. destruct (Reqb_spec (1 / 4) 0); [lra |]. cbn [orb]. cbv zeta.
  change (map (colm STK) [0%nat; 1%nat]) with [colm STK 0; colm STK 1]. change (length [colm STK 0; colm STK 1]) with 2%nat.
  set (eff := of_cols (m_n STK) [colm STK 0; colm STK 1]). set (g := fun j => powerRZ 10 (- bit_scales eff j)).
  change (map m_n [cos_bits; cos_bits]) with [4%nat; 4%nat]. cbn [split_rows Nat.add].
  set (s0 := rows_from 0 4 (scale_columns eff)). set (s1 := rows_from 4 4 (scale_columns eff)). set (fr := fun _ : nat => 1 / 4).
  assert (G : forall j, g j <> 0) by (intros j; unfold g; pose proof (powerRZ_10_pos (- bit_scales eff j)); lra).
  unfold solve_known_freq.
  set (CB := cos_basis [s0; s1] fr 1). set (SB := sin_basis [s0; s1] fr 1). set (OM := offset_matrix [s0; s1]). set (CO := stack [s0; s1]).
  assert (COE : forall v i, (i < 8)%nat -> mv CO v i = output cos_bits (fun j => g j * v j) (i mod 4)).
  { intros v i Hi. unfold mv, output. change (m_m CO) with 2%nat. change (m_m cos_bits) with 2%nat. apply rsum_ext. intros j J.
    assert (X : m_at CO i j = m_at eff i j * g j).
    { unfold CO, stack. cbn [vcat_all fold_right vcat m_at m_n s0 s1 rows_from scale_columns]. unfold g, bit_scales.
      destruct (Nat.ltb_spec i 4); [reflexivity |]. destruct (Nat.ltb_spec (i - 4) 4); [| lia]. rewrite Nat.add_0_l || idtac. replace (4 + (i - 4))%nat with i by lia. reflexivity. }
    rewrite X, Rmult_assoc. f_equal. do 8 (destruct i as [| i]; [destruct j as [| [| j]]; [reflexivity | reflexivity | lia] |]). lia. }
  assert (OME : forall v i, (i < 8)%nat -> mv OM v i = if (i <? 4)%nat then v 0%nat else v 1%nat).
  { intros v i Hi. unfold mv. do 8 (destruct i as [| i]; [cbn; ring |]). lia. }
  assert (CBE : forall v i, (i < 8)%nat -> mv CB v i = qcos i * (if (i <? 4)%nat then v 0%nat else v 1%nat)).
  { intros v i Hi. unfold mv. change (m_m CB) with 2%nat. cbn [rsum]. unfold CB, cos_basis. cbn [blocks length vcat_all fold_right vcat m_at m_n pad_block cos_block s0 s1 rows_from Nat.mul Nat.add].
    assert (T : forall t, cos (2 * PI * fr 0%nat * (INR t * INR 1)) = qcos t) by (intros t; unfold fr; rewrite quarter_arg; apply quarter_trig).
    do 4 (destruct i as [| i]; [cbn -[INR cos]; unfold fr in *; rewrite (T _); cbn; ring |]).
    do 4 (destruct i as [| i]; [cbn -[INR cos]; unfold fr in *; rewrite (T _); cbn; ring |]). lia. }
  assert (SBE : forall v i, (i < 8)%nat -> mv SB v i = qsin i * (if (i <? 4)%nat then v 0%nat else v 1%nat)).
  { intros v i Hi. unfold mv. change (m_m SB) with 2%nat. cbn [rsum]. unfold SB, sin_basis. cbn [blocks length vcat_all fold_right vcat m_at m_n pad_block sin_block s0 s1 rows_from Nat.mul Nat.add].
    assert (T : forall t, sin (2 * PI * fr 0%nat * (INR t * INR 1)) = qsin t) by (intros t; unfold fr; rewrite quarter_arg; apply quarter_trig).
    do 4 (destruct i as [| i]; [cbn -[INR sin]; unfold fr in *; rewrite (T _); cbn; ring |]).
    do 4 (destruct i as [| i]; [cbn -[INR sin]; unfold fr in *; rewrite (T _); cbn; ring |]). lia. }
  set (v0 := fun j => nth j [1 / g 0%nat; -1 / g 1%nat; 0; 0] 0). set (c0 := fun _ : nat => -1).
  pose proof (dual_basis_recovers lstsq CO CB SB OM None v0 c0 zvec L) as P. cbv zeta in P.
  change (m_m (extra_block CO OM None)) with 4%nat in P. change (m_m CB) with 2%nat in P. change (m_m SB) with 2%nat in P. change (m_n CO) with 8%nat in P.
  assert (EE : forall v i, (i < 8)%nat -> mv (extra_block CO OM None) v i = output cos_bits (fun j => g j * v j) (i mod 4) + (if (i <? 4)%nat then v 2%nat else v 3%nat)).
  { intros v i Hi. unfold extra_block. rewrite mv_hcat, COE, OME by exact Hi. reflexivity. }
  destruct (dual_basis_lstsq lstsq CO CB SB OM None) as [x choice]. cbn [fst snd].
  destruct P as (k & X & C).
  - lia. - reflexivity. - left. unfold c0. lra.
  - intros i Hi. rewrite EE, CBE, SBE by exact Hi. unfold v0, c0, zvec, output, qcos, qsin. pose proof (G 0%nat). pose proof (G 1%nat).
    do 8 (destruct i as [| i]; [cbn -[g Rdiv]; field; repeat split; assumption |]). lia.
  - intros v c s Z. change (m_m (extra_block CO OM None)) with 4%nat. change (m_m CB) with 2%nat. change (m_m SB) with 2%nat.
    assert (Z' : forall i, (i < 8)%nat -> output cos_bits (fun j => g j * v j) (i mod 4) + (if (i <? 4)%nat then v 2%nat else v 3%nat) + qcos i * (if (i <? 4)%nat then c 0%nat else c 1%nat) + qsin i * (if (i <? 4)%nat then s 0%nat else s 1%nat) = 0).
    { intros i Hi. rewrite <- EE, <- CBE, <- SBE by exact Hi. apply Z. exact Hi. }
    clear Z. unfold output, qcos, qsin in Z'.
    pose proof (Z' 0%nat ltac:(lia)) as F0. pose proof (Z' 1%nat ltac:(lia)) as F1. pose proof (Z' 2%nat ltac:(lia)) as F2. pose proof (Z' 3%nat ltac:(lia)) as F3.
    pose proof (Z' 4%nat ltac:(lia)) as F4. pose proof (Z' 5%nat ltac:(lia)) as F5. pose proof (Z' 6%nat ltac:(lia)) as F6. pose proof (Z' 7%nat ltac:(lia)) as F7. clear Z'.
    cbn -[g] in F0, F1, F2, F3, F4, F5, F6, F7. pose proof (G 0%nat) as G0. pose proof (G 1%nat) as G1.
    exists (- c 0%nat). unfold v0, c0, zvec. repeat split.
    + intros j J. destruct j as [| [| [| [| j]]]]; [| | cbn -[g]; lra | cbn -[g]; lra | lia]; cbn -[g].
      * apply (Rmult_eq_reg_l (g 0%nat)); [| exact G0]. replace (g 0%nat * (- c 0%nat * (1 / g 0%nat))) with (- c 0%nat) by (field; exact G0). lra.
      * apply (Rmult_eq_reg_l (g 1%nat)); [| exact G1]. replace (g 1%nat * (- c 0%nat * (-1 / g 1%nat))) with (c 0%nat) by (field; exact G1). lra.
    + intros h Hh. destruct h as [| [| h]]; [lra | lra | lia].
    + intros h Hh. destruct h as [| [| h]]; [lra | lra | lia].
  - assert (choice = 0%nat /\ k * c0 0%nat = 1 /\ with_unity x 4 1%nat = k * c0 1%nat) as (-> & K & U).
    { destruct C as [(C1 & _ & C2 & C3 & _) | (_ & C2 & _)]; [| unfold zvec in C2; lra]. repeat split; [exact C1 | exact C2 | apply C3; lia]. }
    clear C. unfold c0 in K, U. assert (k = -1) by lra. subst k. change (with_unity x 4 1%nat) with (x 4%nat) in U.
    assert (X0 := X 0%nat ltac:(lia)). unfold v0 in X0. cbn [nth] in X0.
    cbv beta iota. change (x (S (S (2 * 1)))) with (x 4%nat). rewrite U. replace (sqrt (1 + (-1 * -1) ^ 2)) with (sqrt 2) by (f_equal; ring).
    unfold recover_rank_deficiency, raise_if. cbn [p_eff p_map p_ratio length map seq Nat.eqb andb repeat bind].
    eexists. split; [reflexivity |]. unfold post_process. cbv zeta. cbn [r_weight nth].
    assert (S2 : 0 < sqrt 2) by (apply sqrt_lt_R0; lra).
    unfold recover_columns. fold (g 0%nat). rewrite X0. pose proof (G 0%nat) as G0.
    replace (-1 * (1 / g 0%nat) / sqrt 2 * g 0%nat * 1) with (- (1 / sqrt 2)) by (field; split; lra).
    rewrite Rabs_mult, Rabs_Ropp, (Rabs_pos_eq (1 / sqrt 2)) by (apply Rlt_le, Rdiv_lt_0_compat; lra).
    unfold sine_w. cbn [nth]. match goal with |- _ * Rabs ?p = _ => replace (Rabs p) with 1 end; [ring |].
    match goal with |- 1 = Rabs (if ?c then _ else _) => destruct c end; unfold Rabs; destruct (Rcase_abs _); lra.
Qed.

(** ** C80: the frequency search *)
Lemma tone_one o a b f t : tone 1 o a b f t = o + a 0%nat * cos (2 * PI * f * INR t) + b 0%nat * sin (2 * PI * f * INR t).
Proof. unfold tone. cbn. rewrite !Rmult_1_r. ring. Qed.
Lemma drift_identifiable_plain bits f w off a b : drift_identifiable bits f w off (a 0%nat) (b 0%nat) -> identifiable bits 1 f w off a b.
Proof.
  intros D u o c s E. destruct (D u o (c 0%nat) (s 0%nat) 0 0) as (k & K1 & K2 & K3 & K4 & _).
  { intros t T. rewrite (E t T), tone_one. ring. }
  exists k. repeat split; try assumption; intros h Hh; replace h with 0%nat by lia; assumption.
Qed.
(** One iteration at the exact frequency: the coefficient of the derivative column is 0 (no frequency
    error), but the correction taken is the quadrature coefficient a/b. *)
Lemma search_step_exact lstsq bits sc g f w off a b freqs lr : least_squares lstsq -> scaled_of bits sc g -> (0 < m_n bits)%nat -> freqs 0%nat = f ->
  true_weights bits 1 f w off a b -> drift_identifiable bits f w off (a 0%nat) (b 0%nat) -> a 0%nat <> 0 -> b 0%nat <> 0 ->
  exists x raw relerr, search_step lstsq [sc] 1 lr freqs = (x, 1%nat, raw, relerr) /\ raw 0%nat = a 0%nat / b 0%nat /\ x (m_m bits + 1)%nat = 0 /\
    (forall j, (j < m_m bits)%nat -> g j * x j = - (w j / b 0%nat)) /\ x (m_m bits) = off / b 0%nat /\
    relerr = sqrt (rsum (m_n bits) (fun t => (2 * PI * INR t / INR (m_n bits) * (off / b 0%nat * cos (2 * PI * f * INR t) - a 0%nat / b 0%nat * sin (2 * PI * f * INR t)) * (a 0%nat / b 0%nat * lr)) ^ 2) / INR (m_n bits)).
Proof.
  intros L SC NP F T DI A0 B0. pose proof SC as (SN & SM & SE). set (m := m_m bits) in *.
  pose proof (solver_known lstsq bits sc g 1 f w off a b freqs L SC ltac:(lia) NP F T (drift_identifiable_plain _ _ _ _ _ _ DI) (or_introl A0)) as KS. cbv zeta in KS. fold m in KS.
  unfold search_step. cbv zeta. change (length [sc]) with 1%nat.
  destruct (solve_known_freq lstsq [sc] freqs 1) as [x0 ch0]. cbn [fst snd] in *.
  destruct KS as (k & K0 & _ & KO & [(_ & BZ & _) | (-> & KB & _ & KQ)]); [contradiction |].
  specialize (KQ 0%nat ltac:(lia)). cbn beta in KQ. replace (m + 1 + (1 - 1) + 0)%nat with (m + 1)%nat in KQ by lia.
  assert (KV : k = - / b 0%nat). { apply (Rmult_eq_reg_r (b 0%nat)); [| exact B0]. replace (- / b 0%nat * b 0%nat) with (-1) by (field; exact B0). lra. }
  assert (BW : m_m (stack [sc]) = m) by (cbn; exact SM). rewrite BW.
  assert (NN : m_n (stack [sc]) = m_n bits) by (cbn; lia). rewrite NN.
  set (dm := vcat_all 1 (deriv_blocks x0 1 m 1 1 0 [sc] freqs)).
  set (n := m_n bits) in *. assert (INP : INR n <> 0) by (apply not_0_INR; lia).
  set (d := fun t : nat => 2 * PI * INR t / INR n * (off / b 0%nat * cos (2 * PI * f * INR t) - a 0%nat / b 0%nat * sin (2 * PI * f * INR t))).
  assert (DM : forall v t, (t < n)%nat -> mv dm v t = d t * v 0%nat).
  { intros v t Ht. unfold mv, dm. cbn [deriv_blocks vcat_all fold_right]. change (m_m (vcat _ _)) with 1%nat. cbn [rsum]. rewrite vcat_single by (cbn; rewrite SN; exact Ht). cbn [m_at Nat.eqb].
    unfold deriv_col. cbn [Nat.eqb rsum]. rewrite SN, F. fold n.
    replace (x0 (m + 1 + (1 * 1 - 1) + 0 * 1 + 0)%nat) with (x0 (m + 1)%nat) by (f_equal; lia). replace (x0 (m + 1 + 0 * 1 - 1 + 0)%nat) with (x0 m) by (f_equal; lia).
    rewrite KQ, KO, KV. unfold d. cbn [INR]. rewrite !Rmult_1_r. field. split; assumption. }
  set (E := extra_block (stack [sc]) (offset_matrix [sc]) (Some dm)).
  assert (EM : m_m E = (m + 2)%nat) by (cbn; rewrite SM; fold m; lia).
  assert (EV : forall v i, (i < n)%nat -> mv E v i = output bits (fun j => g j * v j) i + v m + d i * v (m + 1)%nat).
  { intros v i I. unfold E, extra_block. rewrite !mv_hcat, mv_stack_single, mv_offset_single, DM by (rewrite ?SN; exact I). rewrite (scaled_output bits sc g _ _ SC I). rewrite BW.
    replace (m_m (hcat (stack [sc]) (offset_matrix [sc])) + 0)%nat with (m + 1)%nat by (cbn; rewrite SM; lia). rewrite Nat.add_0_r. reflexivity. }
  assert (G : forall j, (j < m)%nat -> g j <> 0) by (intros j J; apply (SE 0%nat j NP J)).
  assert (CM : m_m (cos_basis [sc] freqs 1) = 1%nat) by reflexivity. assert (SMM : m_m (sin_basis [sc] freqs 1) = 1%nat) by reflexivity.
  assert (CV : forall v i, (i < n)%nat -> mv (cos_basis [sc] freqs 1) v i = v 0%nat * cos (2 * PI * f * INR i)).
  { intros v i I. rewrite mv_cos_single by (rewrite SN; exact I). rewrite F. cbn. rewrite !Rmult_1_r. ring. }
  assert (SV : forall v i, (i < n)%nat -> mv (sin_basis [sc] freqs 1) v i = v 0%nat * sin (2 * PI * f * INR i)).
  { intros v i I. rewrite mv_sin_single by (rewrite SN; exact I). rewrite F. cbn. rewrite !Rmult_1_r. ring. }
  set (v0 := fun j => if (j <? m)%nat then w j / g j else if (j =? m)%nat then - off else 0).
  assert (V0m : v0 m = - off) by (unfold v0; rewrite Nat.ltb_irrefl, Nat.eqb_refl; reflexivity).
  assert (V0m1 : v0 (m + 1)%nat = 0). { unfold v0. destruct (Nat.ltb_spec (m + 1) m); [lia |]. destruct (Nat.eqb_spec (m + 1) m); [lia | reflexivity]. }
  pose proof (dual_basis_recovers lstsq (stack [sc]) (cos_basis [sc] freqs 1) (sin_basis [sc] freqs 1) (offset_matrix [sc]) (Some dm) v0 (fun h => - a h) (fun h => - b h)) as P.
  cbv zeta in P. fold E in P. rewrite EM, CM, SMM, NN in P.
  destruct (dual_basis_lstsq lstsq (stack [sc]) (cos_basis [sc] freqs 1) (sin_basis [sc] freqs 1) (offset_matrix [sc]) (Some dm)) as [x choice]. cbn [fst snd].
  destruct P as (k' & X & C).
  - exact L. - lia. - reflexivity. - left. lra.
  - intros i I. rewrite EV, CV, SV by exact I. rewrite V0m, V0m1. pose proof (T i I) as TT. rewrite tone_one in TT.
    replace (output bits (fun j => g j * v0 j) i) with (output bits w i). { rewrite TT. ring. }
    unfold output. apply rsum_ext. intros j J. unfold v0. fold m in J. destruct (Nat.ltb_spec j m); [| lia]. field. apply G. exact J.
  - intros v c s Z. rewrite EM, CM, SMM. change (m_n E) with (m_n (stack [sc])) in Z. rewrite NN in Z.
    destruct (DI (fun j => g j * v j) (- v m) (- c 0%nat) (- s 0%nat) (- (v (m + 1)%nat * (2 * PI / INR n * (off / b 0%nat)))) (v (m + 1)%nat * (2 * PI / INR n * (a 0%nat / b 0%nat)))) as (k2 & U & O & C & S & _ & Q).
    { intros t I. specialize (Z t I). rewrite EV, CV, SV in Z by exact I. unfold d in Z.
      replace (2 * PI * INR t / INR n * (off / b 0%nat * cos (2 * PI * f * INR t) - a 0%nat / b 0%nat * sin (2 * PI * f * INR t)) * v (m + 1)%nat)
        with (v (m + 1)%nat * (2 * PI / INR n * (off / b 0%nat)) * (INR t * cos (2 * PI * f * INR t)) - v (m + 1)%nat * (2 * PI / INR n * (a 0%nat / b 0%nat)) * (INR t * sin (2 * PI * f * INR t))) in Z by (field; split; assumption). lra. }
    assert (VZ : v (m + 1)%nat = 0).
    { apply Rmult_integral in Q. destruct Q as [Q | Q]; [exact Q | exfalso]. pose proof PI_neq0. assert (2 * PI / INR n * (a 0%nat / b 0%nat) <> 0); [| contradiction].
      unfold Rdiv. pose proof PI_RGT_0. apply Rmult_integral_contrapositive_currified; apply Rmult_integral_contrapositive_currified; try assumption; try lra; apply Rinv_neq_0_compat; assumption. }
    exists k2. repeat split.
    + intros j J. unfold v0. destruct (Nat.ltb_spec j m) as [Y | Y].
      * specialize (U j Y). cbn beta in U. pose proof (G j Y). apply (Rmult_eq_reg_l (g j)); [| assumption]. rewrite U. field. assumption.
      * destruct (Nat.eqb_spec j m) as [-> | N]; [lra |]. replace j with (m + 1)%nat by lia. rewrite VZ. ring.
    + intros h Hh. replace h with 0%nat by lia. lra.
    + intros h Hh. replace h with 0%nat by lia. lra.
  - destruct C as [(_ & BZ & _) | (-> & KB' & _ & Q)]; [lra |]. specialize (Q 0%nat ltac:(lia)). cbn beta in Q.
    assert (KV' : k' = - / b 0%nat). { apply (Rmult_eq_reg_r (b 0%nat)); [| exact B0]. replace (- / b 0%nat * b 0%nat) with (-1) by (field; exact B0). lra. }
    assert (RAW : x (total_cols m 1 1 - 1 + 0)%nat = a 0%nat / b 0%nat).
    { replace (total_cols m 1 1 - 1 + 0)%nat with (m + 2 + (1 - 1) + 0)%nat by (unfold total_cols; lia). rewrite Q, KV'. field. exact B0. }
    assert (XD : x (m + 1)%nat = 0) by (rewrite X by lia; rewrite V0m1; ring).
    eexists. eexists. eexists. split; [reflexivity |]. split; [exact RAW |]. split; [exact XD |]. split; [| split].
    + intros j J. rewrite X by lia. unfold v0. destruct (Nat.ltb_spec j m); [| lia]. rewrite KV'. field. split; [exact B0 | apply G; exact J].
    + rewrite X by lia. rewrite V0m, KV'. field. exact B0.
    + replace (m + 1 + (1 * 1 - 1))%nat with (m + 1)%nat by lia. rewrite XD. replace (1 + 0 ^ 2) with 1 by ring. rewrite sqrt_1. unfold Rdiv at 1. rewrite Rinv_1, Rmult_1_r. f_equal. f_equal.
      apply rsum_ext. intros t Ht. rewrite DM by exact Ht. rewrite RAW. reflexivity.
Qed.
(** With one iteration, started at the exact frequency, every correct least-squares and rank routine
    makes the search return the true weights divided by |b|, the sine part of the tone, instead of
    its amplitude. *)
Lemma c80_one_iteration_scale lstsq rank est bits freq f nominal lr reltol w off a b :
  least_squares lstsq -> rank_correct rank -> freq_is freq f -> f <> 0 -> f <= 1 / 2 -> (0 < m_m bits <= m_n bits)%nat -> nominal_ok (m_m bits) nominal ->
  true_weights bits 1 f w off a b -> drift_identifiable bits f w off (a 0%nat) (b 0%nat) -> a 0%nat <> 0 -> b 0%nat <> 0 ->
  exists r s, calibrate_weight_sine lstsq rank est [bits] freq (Some true) nominal 1 lr reltol 1 = Ok r /\ (s = 1 \/ s = -1) /\ r_freqs r 0%nat = f /\
    (forall j, (j < m_m bits)%nat -> r_weight r j = s * w j / Rabs (b 0%nat)) /\ Rabs (b 0%nat) < amplitude (a 0%nat) (b 0%nat).
Proof.
  intros L RC FI F0 F M NO T DI A0 B0.
  destruct (freq_is_facts freq f est FI F0 F) as (G1 & G2 & fr & G3 & G4). destruct (prepare_single bits nominal M NO) as (nw & PR).
  unfold calibrate_weight_sine. unfold raise_if at 1. rewrite G1. rewrite PR. cbn [bind]. cbv beta iota.
  change (length [bits]) with 1%nat. rewrite (patch_single rank bits nw RC (identifiable_independent bits 1 f w off a b ltac:(lia) (or_introl A0) (drift_identifiable_plain _ _ _ _ _ _ DI))). rewrite G3. cbn [bind p_eff orb].
  cbv zeta. cbn [map split_rows]. fold (eff_single bits). change (rows_from 0 (m_n bits) (scale_columns (eff_single bits))) with (scaled_single bits).
  change (1 - 1)%nat with 0%nat. cbn [search_loop].
  destruct (search_step_exact lstsq bits (scaled_single bits) _ f w off a b fr lr L (scaled_single_of bits) ltac:(lia) G4 T DI A0 B0) as (x & raw & relerr & E & RAW & XD & XW & XO & _).
  rewrite E. cbv beta iota.
  match goal with |- context [if Rltb relerr reltol then ?p else ?q] => replace (if Rltb relerr reltol then p else q) with p by (destruct (Rltb relerr reltol); reflexivity) end. cbv beta iota.
  rewrite map_length, seq_length. set (m := m_m bits) in *. change (m + 1 * 1)%nat with (m + 1)%nat. rewrite XD. replace (1 + 0 ^ 2) with 1 by ring. rewrite sqrt_1.
  destruct (recover_identity m m (recover_columns x 1 (bit_scales (eff_single bits))) (colm (stack [bits])) ltac:(lia) eq_refl) as (w' & RW & EW).
  rewrite RW. cbn [bind].
  assert (AB : 0 < Rabs (b 0%nat)) by (apply Rabs_pos_lt; exact B0).
  set (sg := - (b 0%nat / Rabs (b 0%nat))). assert (SG : pm1 sg). { unfold sg. destruct (sign_of (b 0%nat) B0) as [-> | ->]; [right | left]; lra. }
  assert (SQ : Rabs (b 0%nat) * Rabs (b 0%nat) = b 0%nat * b 0%nat) by (unfold Rabs; destruct (Rcase_abs (b 0%nat)); ring).
  assert (W' : forall j, (j < m)%nat -> w' j = sg * w j / Rabs (b 0%nat)).
  { intros j J. rewrite (EW j J). unfold recover_columns. replace (x j / 1 * powerRZ 10 (- bit_scales (eff_single bits) j)) with (powerRZ 10 (- bit_scales (eff_single bits) j) * x j) by field.
    rewrite (XW j J). unfold sg. replace (- (b 0%nat / Rabs (b 0%nat)) * w j / Rabs (b 0%nat)) with (- (b 0%nat * w j / (Rabs (b 0%nat) * Rabs (b 0%nat)))) by (field; lra). rewrite SQ. field. exact B0. }
  destruct (polarity m w' w (Rabs (b 0%nat)) sg AB SG W') as (P1 & _).
  eexists. exists (sg * (if Rltb (rsum m w') 0 then -1 else 1)). split; [reflexivity |]. split; [exact P1 |]. unfold post_process. cbv zeta. cbn [r_weight r_freqs]. split; [exact G4 |]. split.
  - intros j J. rewrite (W' j J). field. lra.
  - unfold amplitude. rewrite <- sqrt_Rsqr_abs. apply sqrt_lt_1_alt. unfold Rsqr. pose proof (sq_pos (a 0%nat) A0). split; [apply Rle_0_sqr | lra].
Qed.
Definition drift_bits : mat := of_rows [[1]; [1]; [0]; [0]; [1]; [1]; [0]; [0]].
Definition drift_w : vec := fun _ => 2.
Lemma drift_true : true_weights drift_bits 1 (1 / 4) drift_w 1 (fun _ => 1) (fun _ => 1).
Proof. intros t T. cbn in T. rewrite quarter_tone. unfold output, qcos, qsin, drift_w. do 8 (destruct t as [| t]; [cbn; lra |]). lia. Qed.
Lemma quarter_arg' t : 2 * PI * (1 / 4) * INR t = INR t * (PI / 2). Proof. field. Qed.
Lemma drift_id : drift_identifiable drift_bits (1 / 4) drift_w 1 1 1.
Proof.
  intros u o c s p q E.
  assert (F : forall t, (t < 8)%nat -> output drift_bits u t = o + c * qcos t + s * qsin t + p * (INR t * qcos t) + q * (INR t * qsin t)).
  { intros t T. rewrite (E t T), quarter_arg'. destruct (quarter_trig t) as (-> & ->). reflexivity. } clear E.
  unfold output, qcos, qsin in F.
  pose proof (F 0%nat ltac:(lia)) as F0. pose proof (F 1%nat ltac:(lia)) as F1. pose proof (F 2%nat ltac:(lia)) as F2. pose proof (F 3%nat ltac:(lia)) as F3.
  pose proof (F 4%nat ltac:(lia)) as F4. pose proof (F 5%nat ltac:(lia)) as F5. clear F. cbn in F0, F1, F2, F3, F4, F5.
  exists o. unfold drift_w. repeat split; try lra. intros j J. cbn in J. replace j with 0%nat by lia. lra.
Qed.
Lemma c80_one_iteration_ex : exists r s, calibrate_weight_sine gs_lstsq gs_rank (fun _ => 0) [drift_bits] (FScalar (1 / 4)) (Some true) None 1 (1 / 2) (1 / 10 ^ 12) 1 = Ok r /\ (s = 1 \/ s = -1) /\
  r_weight r 0%nat = s * 2 /\ amplitude 1 1 = sqrt 2.
Proof.
  destruct (c80_one_iteration_scale gs_lstsq gs_rank (fun _ => 0) drift_bits (FScalar (1 / 4)) (1 / 4) None (1 / 2) (1 / 10 ^ 12) drift_w 1 (fun _ => 1) (fun _ => 1)) as (r & s & E & S & _ & W & _);
    try (exact gs_least_squares || exact gs_rank_correct || exact drift_true || exact drift_id || exact I || (left; reflexivity) || lra || (cbn; lia)).
  exists r, s. split; [exact E |]. split; [exact S |]. rewrite W by (cbn; lia). rewrite Rabs_R1. unfold drift_w. split; [field |]. unfold amplitude. f_equal. ring.
Qed.
(** With the default step and tolerance, the automatic search started from an exact estimate does
    not stop; its second iteration runs half a bin away (n = 8 samples: 1/4 becomes 1/4 + 1/16). *)
Lemma c80_exact_start_moves_refuted : exists bits f w off a b, true_weights bits 1 f w off a b /\ drift_identifiable bits f w off (a 0%nat) (b 0%nat) /\
  forall lstsq rank r, least_squares lstsq -> rank_correct rank ->
  calibrate_weight_sine lstsq rank (fun _ => f) [bits] FNone None None 1 (1 / 2) (1 / 10 ^ 12) 2 = Ok r ->
  r_freqs r 0%nat = f + 1 / 16.
Proof.
  exists drift_bits, (1 / 4), drift_w, 1, (fun _ => 1), (fun _ => 1). split; [exact drift_true |]. split; [exact drift_id |]. intros lstsq rank r L RC.
  destruct (prepare_single drift_bits None ltac:(cbn; lia) I) as (nw & PR).
  unfold calibrate_weight_sine. unfold raise_if at 1. cbn [freq_list existsb]. rewrite PR. cbn [bind]. cbv beta iota.
  change (length [drift_bits]) with 1%nat.
  rewrite (patch_single rank drift_bits nw RC (identifiable_independent drift_bits 1 (1 / 4) drift_w 1 (fun _ => 1) (fun _ => 1) ltac:(lia) (or_introl R1_neq_R0) (drift_identifiable_plain drift_bits (1 / 4) drift_w 1 (fun _ => 1) (fun _ => 1) drift_id))).
  unfold estimate_frequencies, all_zero. cbn [freq_list forallb bind p_eff orb].
  cbv zeta. cbn [map split_rows]. fold (eff_single drift_bits). change (rows_from 0 (m_n drift_bits) (scale_columns (eff_single drift_bits))) with (scaled_single drift_bits).
  change (2 - 1)%nat with 1%nat. cbn [search_loop].
  destruct (search_step_exact lstsq drift_bits (scaled_single drift_bits) _ (1 / 4) drift_w 1 (fun _ => 1) (fun _ => 1) (fun _ => 1 / 4) (1 / 2) L (scaled_single_of drift_bits) ltac:(cbn; lia) eq_refl drift_true drift_id R1_neq_R0 R1_neq_R0)
    as (x & raw & relerr & E & RAW & _ & _ & _ & RE).
  rewrite E. cbv beta iota.
  assert (BIG : 1 / 10 ^ 12 <= relerr).
  { rewrite RE. assert (T12 : 1 / 10 ^ 12 <= 1 / 8).
    { assert (8 <= 10 ^ 12) by (apply (Rle_trans _ (10 ^ 1)); [lra | apply Rle_pow; [lra | lia]]). unfold Rdiv. rewrite !Rmult_1_l. apply Rinv_le_contravar; lra. }
    apply (Rle_trans _ (1 / 8)); [exact T12 |]. apply Rsqr_incr_0_var; [| apply sqrt_pos]. rewrite Rsqr_sqrt.
    2:{ apply Rmult_le_pos; [apply rsum_nonneg; intros; apply pow2_ge_0 | left; apply Rinv_0_lt_compat; cbn; lra]. }
    change (m_n drift_bits) with 8%nat.
    rewrite (rsum_ext 8 _ (fun t => (PI / 8 * INR t * (qcos t - qsin t)) ^ 2)).
    2:{ intros t _. rewrite quarter_arg'. destruct (quarter_trig t) as (-> & ->). cbn [INR]. field. }
    cbn [rsum]. unfold qcos, qsin. cbn -[pow]. unfold Rsqr. pose proof PI2_1. pose proof (pow2_ge_0 PI).
    assert (4 <= PI * PI) by nra. field_simplify. nra. }
  destruct (Rltb_spec relerr (1 / 10 ^ 12)) as [Y | _]; [lra |].
  match goal with |- context [search_step lstsq ?p 1 ?q ?fr2] => destruct (search_step lstsq p 1 q fr2) as [[[x2 ch2] raw2] relerr2] end.
  match goal with |- context [if Rltb relerr2 ?t then ?p else ?q] => replace (if Rltb relerr2 t then p else q) with p by (destruct (Rltb relerr2 t); reflexivity) end.
  cbv beta iota. rewrite map_length, seq_length.
  match goal with |- context [recover_rank_deficiency ?w _] => destruct (recover_identity 1 1 w (colm (stack [drift_bits])) ltac:(lia) eq_refl) as (w' & RW & _) end.
  change (m_m drift_bits) with 1%nat in *. rewrite RW. cbn [bind]. intros H. apply Ok_inj in H. subst r. cbn [r_freqs post_process]. cbn [nth]. rewrite RAW. change (m_n (scaled_single drift_bits)) with 8%nat. cbn [INR]. field.
Qed.

(** ** C81: input preparation *)
Definition width (s : mat) : nat := Nat.min (m_n s) (m_m s).
Definition oriented (s : mat) : mat := if (m_n s <? m_m s)%nat then transpose s else s.
Lemma oriented_width s : m_m (oriented s) = width s /\ (m_m (oriented s) <= m_n (oriented s))%nat.
Proof. unfold oriented, width. destruct (Nat.ltb_spec (m_n s) (m_m s)); cbn; lia. Qed.
Lemma prepare_loop_spec l : forall bw, 
  (forall segs, prepare_loop l bw = Ok segs -> segs = map oriented l /\ (forall s, In s l -> width s <> 0%nat /\ match bw with Some w => width s = w | None => True end) /\ (forall s s', In s l -> In s' l -> width s = width s')) /\
  (forall e, prepare_loop l bw = Err e -> e = ValueError) /\
  (forall w, match bw with Some v => v = w | None => True end -> (forall s, In s l -> width s = w /\ w <> 0%nat) -> exists segs, prepare_loop l bw = Ok segs).
Proof.
  induction l as [| s l IH]; intros bw; cbn [prepare_loop].
  { split; [| split]. - intros segs E. apply Ok_inj in E. subst segs. split; [reflexivity |]. split; intros; contradiction. - discriminate. - intros. eexists; reflexivity. }
  unfold raise_if. fold (oriented s). destruct (oriented_width s) as (OW & _). rewrite OW.
  destruct (Nat.eqb_spec (m_n s * m_m s) 0) as [Z | Z].
  { split; [discriminate |]. split; [congruence |]. intros w _ A. destruct (A s (or_introl eq_refl)) as (A1 & A2). exfalso. unfold width in A1. apply Nat.eq_mul_0 in Z. lia. }
  assert (WS : width s <> 0%nat) by (unfold width; nia).
  set (bw' := match bw with Some w => w | None => width s end).
  destruct (match bw with Some w => negb (width s =? w)%nat | None => false end) eqn:MM.
  { split; [discriminate |]. split; [congruence |]. intros w BW A. exfalso. destruct bw as [v |]; [| discriminate]. subst v. destruct (A s (or_introl eq_refl)) as (A1 & _). rewrite A1, Nat.eqb_refl in MM. discriminate. }
  assert (BE : bw' = width s). { unfold bw'. destruct bw as [v |]; [| reflexivity]. apply negb_false_iff, Nat.eqb_eq in MM. congruence. }
  destruct (IH (Some bw')) as (I1 & I2 & I3). destruct (prepare_loop l (Some bw')) as [r | e] eqn:E; cbn [bind].
  - split; [| split].
    + intros segs S. apply Ok_inj in S. subst segs. destruct (I1 r eq_refl) as (-> & A & _). split; [reflexivity |].
      assert (ALL : forall s', In s' (s :: l) -> width s' = width s). { intros s' [<- | Hs]; [reflexivity |]. destruct (A s' Hs) as (_ & ->). exact BE. }
      split. { intros s' Hs. rewrite (ALL s' Hs). split; [exact WS |]. destruct bw as [v |]; [| exact I]. unfold bw' in BE. congruence. }
      intros s1 s2 H1 H2. rewrite (ALL s1 H1), (ALL s2 H2). reflexivity.
    + discriminate. + intros. eexists. reflexivity.
  - split; [discriminate |]. split; [intros e' E'; injection E' as <-; apply (I2 e eq_refl) |].
    intros w BW A. exfalso. destruct (I3 w) as (segs & X); [| | discriminate].
    + rewrite BE. apply A. left. reflexivity. + intros s' Hs. apply A. right. exact Hs.
Qed.
(** Preparation accepts exactly a non-empty list of non-empty matrices that all have the same
    smaller dimension (the bit width), with nominal weights absent or of that length; it orients
    each matrix with samples along the longer side and defaults the nominal weights to powers of two. *)
Lemma c81_prepare bits_list nominal segs bw nw :
  prepare_input bits_list nominal = Ok (segs, bw, nw) <->
  bits_list <> [] /\ bw <> 0%nat /\ (forall s, In s bits_list -> Nat.min (m_n s) (m_m s) = bw) /\
  segs = map (fun s => if (m_n s <? m_m s)%nat then transpose s else s) bits_list /\
  match nominal with Some v => length v = bw /\ nw = v | None => nw = map (fun i => 2 ^ (bw - 1 - i)) (seq 0 bw) end.
Proof.
  unfold prepare_input. destruct bits_list as [| s l]. { split; [discriminate | intros (H & _); contradiction]. }
  destruct (prepare_loop_spec (s :: l) None) as (P1 & P2 & P3).
  split.
  - destruct (prepare_loop (s :: l) None) as [r | e] eqn:E; [| discriminate]. cbn [bind]. destruct (P1 r eq_refl) as (-> & A & B). intros H.
    change (match map oriented (s :: l) with s0 :: _ => m_m s0 | [] => 0%nat end) with (m_m (oriented s)) in H. rewrite (proj1 (oriented_width s)) in H.
    assert (X : segs = map oriented (s :: l) /\ bw = width s /\ match nominal with Some v => length v = bw /\ nw = v | None => nw = map (fun i => 2 ^ (bw - 1 - i)) (seq 0 bw) end).
    { unfold setup_nominal_weights in H. destruct nominal as [v |].
      - unfold raise_if in H. destruct (Nat.eqb_spec (length v) (width s)) as [Y | Y]; cbn [negb bind] in H; [| discriminate]. apply Ok_inj in H. inversion H. subst. repeat split. exact Y.
      - cbn [bind] in H. apply Ok_inj in H. inversion H. subst. repeat split. }
    destruct X as (-> & -> & X). split; [discriminate |]. split; [apply A; left; reflexivity |]. split; [| split; [reflexivity | exact X]].
    intros s' Hs. apply (B s' s Hs). left. reflexivity.
  - intros (_ & NZ & W & -> & NW). destruct (P3 bw I) as (r & E). { intros s' Hs. split; [apply W; exact Hs | exact NZ]. }
    rewrite E. cbn [bind]. destruct (P1 r E) as (-> & _). change (match map oriented (s :: l) with s0 :: _ => m_m s0 | [] => 0%nat end) with (m_m (oriented s)). rewrite (proj1 (oriented_width s)).
    assert (WB : width s = bw) by (apply W; left; reflexivity). rewrite WB. unfold setup_nominal_weights. destruct nominal as [v |].
    + destruct NW as (L & ->). rewrite L, Nat.eqb_refl. reflexivity. + subst nw. reflexivity.
Qed.
(** Every rejection is a ValueError. *)
Lemma c81_rejects bits_list nominal e : prepare_input bits_list nominal = Err e -> e = ValueError.
Proof.
  unfold prepare_input. destruct bits_list as [| s l]; [intros H; injection H as <-; reflexivity |].
  destruct (prepare_loop_spec (s :: l) None) as (_ & P2 & _). destruct (prepare_loop (s :: l) None) as [r | e'] eqn:E; cbn [bind].
  - unfold setup_nominal_weights, raise_if. destruct nominal as [v |]; [| discriminate]. destruct (negb _); cbn [bind]; [intros H; injection H as <-; reflexivity | discriminate].
  - intros H. injection H as <-. apply (P2 e' eq_refl).
Qed.
(** The whole calibration fails only with ValueError (bad input) or IndexError (every bit dropped);
    a frequency above one half is always rejected. *)
Lemma c81_calibrate_errors lstsq rank est l freq fs nominal H lr reltol mi :
  (forall e, calibrate_weight_sine lstsq rank est l freq fs nominal H lr reltol mi = Err e -> e = ValueError \/ e = IndexError) /\
  ((exists x, In x (freq_list freq) /\ 1 / 2 < x) -> calibrate_weight_sine lstsq rank est l freq fs nominal H lr reltol mi = Err ValueError).
Proof.
  unfold calibrate_weight_sine. unfold raise_if at 1 2. split.
  - intros e. destruct (existsb _ (freq_list freq)); [intros E; injection E as <-; left; reflexivity |].
    destruct (prepare_input l nominal) as [[[segs bw] nw] | e'] eqn:P; cbn [bind]; [| intros E; injection E as <-; left; apply (c81_rejects _ _ _ P)].
    destruct (estimate_frequencies est (length segs) freq) as [fr | e'] eqn:F; cbn [bind].
    2:{ intros E. injection E as <-. left. unfold estimate_frequencies in F. destruct (all_zero freq); [discriminate |]. destruct freq; try discriminate. unfold raise_if in F. destruct (negb _); [injection F as <-; reflexivity | discriminate]. }
    cbv zeta. match goal with |- context [if ?c then search_loop _ _ _ _ _ _ _ else _] => destruct (if c then search_loop lstsq (split_rows (scale_columns (of_cols (m_n (stack segs)) (p_eff (patch_rank_deficiency rank (stack segs) nw)))) 0 (map m_n segs)) H lr reltol (mi - 1) fr else (fr, fst (solve_known_freq lstsq (split_rows (scale_columns (of_cols (m_n (stack segs)) (p_eff (patch_rank_deficiency rank (stack segs) nw)))) 0 (map m_n segs)) fr H), snd (solve_known_freq lstsq (split_rows (scale_columns (of_cols (m_n (stack segs)) (p_eff (patch_rank_deficiency rank (stack segs) nw)))) 0 (map m_n segs)) fr H))) as [[f' co] ch] end.
    unfold recover_rank_deficiency, raise_if. destruct (_ && _)%bool; cbn [bind]; [intros E; injection E as <-; right; reflexivity | discriminate].
  - intros (x & X & Y). replace (existsb (fun x0 => Rltb (1 / 2) x0) (freq_list freq)) with true; [reflexivity |]. symmetry. apply existsb_exists. exists x. split; [exact X |]. apply Rltb_true. exact Y.
Qed.
Lemma c81_prepare_ex : exists segs nw, prepare_input [transpose ex_bits; ex_bits] None = Ok (segs, 3%nat, nw) /\ map m_n segs = [8%nat; 8%nat] /\ nw = [2 ^ 2; 2 ^ 1; 2 ^ 0] /\
  prepare_input [ex_bits; drift_bits] None = Err ValueError /\ prepare_input [] None = Err ValueError /\ prepare_input [ex_bits] (Some [1; 1]) = Err ValueError.
Proof. eexists. eexists. split; [reflexivity |]. repeat split. Qed.

(** ** Examples for C37, C38, C40 *)
Definition dup_bits : mat := of_rows [[1; 1]; [0; 0]].
(** Two identical bits with nominal weights 2 and 1 share one column; a solved weight 4 comes back
    as 4 and 2. *)
Lemma c37_bit_weights_ex : exists w, recover_rank_deficiency (fun _ => 4) (patch_rank_deficiency gs_rank dup_bits [2; 1]) = Ok w /\ w 0%nat = 4 /\ w 1%nat = 2.
Proof.
  destruct gs_rank_correct as (R1 & R2). set (rank := gs_rank) in *. clearbody rank.
  assert (EPS : 0 < 1 / 10 ^ 15 < 1 / 4).
  { assert (4 < 10 ^ 15) by (apply (Rlt_le_trans _ (10 ^ 1)); [lra | apply Rle_pow; [lra | lia]]). split; [apply Rdiv_lt_0_compat; lra |].
    unfold Rdiv. rewrite !Rmult_1_l. apply Rinv_lt_contravar; lra. }
  assert (FAST : (m_m dup_bits + 1 <=? rank (hcat dup_bits (ones (m_n dup_bits))))%nat = false).
  { apply Nat.leb_gt. destruct (Nat.lt_ge_cases (rank (hcat dup_bits (ones (m_n dup_bits)))) (m_m dup_bits + 1)) as [Y | Y]; [exact Y | exfalso].
    assert (IN : independent (hcat dup_bits (ones (m_n dup_bits)))) by (apply R1; exact Y).
    assert (Z : (fun j => nth j [1; -1] 0) 0%nat = 0). { apply (IN (fun j => nth j [1; -1] 0)); [| cbn; lia]. intros t T. cbn in T. destruct t as [| [| t]]; [cbn; lra | cbn; lra | lia]. }
    cbn in Z. lra. }
  assert (PTP : forall c, (c = colm dup_bits 0 \/ c = colm dup_bits 1) -> Rltb (vptp 2 c) (1 / 10 ^ 15) = false).
  { intros c [-> | ->]; apply Rltb_false; unfold vptp, colm, lmax1, lmin1; cbn -[pow Rmax Rmin]; unfold Rmax, Rmin; repeat destruct (Rle_dec _ _); lra. }
  assert (RNK : forall cols c, (rank (hcat (ones 2) (of_cols 2 cols)) < rank (hcat (hcat (ones 2) (of_cols 2 cols)) (of_cols 2 [c])))%nat <-> ~ in_span (hcat (ones 2) (of_cols 2 cols)) c).
  { intros cols c. apply R2; [reflexivity | reflexivity | |].
    - intros p q Q. unfold hcat at 1. cbn [m_at]. destruct (Nat.ltb_spec q (m_m (hcat (ones 2) (of_cols 2 cols)))); [reflexivity | lia].
    - intros p. unfold hcat at 1. cbn [m_at]. rewrite Nat.ltb_irrefl, Nat.sub_diag. reflexivity. }
  assert (S4 : sqrt (1 / 4) = 1 / 2) by (replace (1 / 4) with (1 / 2 * (1 / 2)) by lra; apply sqrt_square; lra).
  assert (LOOP : patch_rank_deficiency rank dup_bits [2; 1] = mkPatch [fun i => colm dup_bits 0 i + colm dup_bits 1 i * (1 / 2)] [0%nat] [Some 0%nat; Some 0%nat] [1; 1 / 2]).
  { unfold patch_rank_deficiency. rewrite FAST. change (m_m dup_bits) with 2%nat. change (m_n dup_bits) with 2%nat. cbn [seq fold_left].
    unfold patch_step at 2. rewrite PTP by (left; reflexivity). cbv zeta. cbn [p_eff p_founder p_map p_ratio app length].
    destruct (Nat.ltb_spec (rank (hcat (ones 2) (of_cols 2 []))) (rank (hcat (hcat (ones 2) (of_cols 2 [])) (of_cols 2 [colm dup_bits 0])))) as [_ | B1].
    2:{ exfalso. apply Nat.le_ngt in B1. apply B1. apply RNK. intros (x & X). pose proof (X 0%nat ltac:(cbn; lia)) as X0. pose proof (X 1%nat ltac:(cbn; lia)) as X1. unfold colm in X0, X1. cbn in X0, X1. lra. }
    unfold patch_step. rewrite PTP by (right; reflexivity). cbv zeta. cbn [p_eff p_founder p_map p_ratio app length].
    destruct (Nat.ltb_spec (rank (hcat (ones 2) (of_cols 2 [colm dup_bits 0]))) (rank (hcat (hcat (ones 2) (of_cols 2 [colm dup_bits 0])) (of_cols 2 [colm dup_bits 1])))) as [B2 | _].
    { exfalso. apply RNK in B2. apply B2. exists (fun q => nth q [0; 1] 0). intros t T. cbn in T. destruct t as [| [| t]]; [unfold colm; cbn; lra | unfold colm; cbn; lra | lia]. }
    cbn [find_correlated].
    assert (CORR : correlation 2 (colm dup_bits 1) (colm dup_bits 0) = 1).
    { unfold correlation. assert (M1 : vmean 2 (colm dup_bits 1) = 1 / 2) by (unfold vmean, colm; cbn; lra). assert (M0 : vmean 2 (colm dup_bits 0) = 1 / 2) by (unfold vmean, colm; cbn; lra). rewrite M1, M0.
      replace (vmean 2 (fun i0 => (colm dup_bits 1 i0 - 1 / 2) ^ 2)) with (1 / 4) by (unfold vmean, colm; cbn; lra).
      replace (vmean 2 (fun i0 => (colm dup_bits 0 i0 - 1 / 2) ^ 2)) with (1 / 4) by (unfold vmean, colm; cbn; lra).
      replace (vmean 2 (fun i0 => (colm dup_bits 1 i0 - 1 / 2) * (colm dup_bits 0 i0 - 1 / 2))) with (1 / 4) by (unfold vmean, colm; cbn; lra).
      rewrite S4. destruct (Rltb_spec (1 / 2 * (1 / 2)) (1 / 10 ^ 15)); [lra | lra]. }
    rewrite CORR. replace (Rabs (Rabs 1 - 1)) with 0. 2:{ unfold Rabs. repeat destruct (Rcase_abs _); lra. }
    destruct (Rltb_spec 0 (1 / 1000)); [| lra]. reflexivity. }
  rewrite LOOP. eexists. split; [reflexivity |]. cbn. split; lra.
Qed.
(** A column with largest entry 250 is divided by 100. *)
Lemma c38_undone_ex : let bits := of_rows [[0]; [250]] in m_at (scale_columns bits) 1 0 = 5 / 2 /\ recover_columns (fun _ => 3) 2 (bit_scales bits) 0%nat = 3 / 200 /\
  output (scale_columns bits) (fun _ => 3) 1 = 2 * output bits (recover_columns (fun _ => 3) 2 (bit_scales bits)) 1.
Proof.
  intros bits.
  assert (MA : max_abs 2 (colm bits 0) = 250).
  { unfold max_abs, colm, lmax1, lmin1. cbn -[Rmax Rmin]. repeat match goal with |- context [Rmax ?a ?b] => first [rewrite (Rmax_left a b) by (rewrite ?Rabs_R0; unfold Rabs; repeat destruct (Rcase_abs _); lra) | rewrite (Rmax_right a b) by lra] | |- context [Rmin ?a ?b] => first [rewrite (Rmin_left a b) by lra | rewrite (Rmin_right a b) by lra] end. unfold Rabs. destruct (Rcase_abs _); lra. }
  assert (EPS : 0 < 1 / 10 ^ 15 < 1).
  { assert (1 < 10 ^ 15) by (apply Rlt_pow_R1; [lra | lia]). split; [apply Rdiv_lt_0_compat; lra |]. apply (Rmult_lt_reg_r (10 ^ 15)); [lra |]. unfold Rdiv. rewrite Rmult_1_l, Rinv_l by lra. lra. }
  assert (P10 : 0 < ln 10) by (rewrite <- ln_1; apply ln_increasing; lra).
  assert (BS : bit_scale 2 (colm bits 0) = 2%Z).
  { unfold bit_scale. rewrite MA. destruct (Rleb_spec 250 (1 / 10 ^ 15)); [lra |]. apply Zfloor_imp. unfold log10.
    assert (E2 : ln (10 ^ 2) = 2 * ln 10) by (rewrite ln_pow by lra; cbn; ring). assert (E3 : ln (10 ^ 3) = 3 * ln 10) by (rewrite ln_pow by lra; cbn; ring).
    assert (L2 : ln (10 ^ 2) < ln (250 + 1 / 10 ^ 15)) by (apply ln_increasing; lra). assert (L3 : ln (250 + 1 / 10 ^ 15) < ln (10 ^ 3)) by (apply ln_increasing; lra).
    rewrite E2 in L2. rewrite E3 in L3. split.
    - apply (Rmult_le_reg_r (ln 10)); [exact P10 |]. unfold Rdiv. rewrite Rmult_assoc, Rinv_l by lra. lra.
    - apply (Rmult_lt_reg_r (ln 10)); [exact P10 |]. unfold Rdiv. rewrite Rmult_assoc, Rinv_l by lra. replace (IZR (2 + 1)) with 3 by (cbn; lra). lra. }
  assert (BSS : bit_scales bits 0%nat = 2%Z) by exact BS.
  split; [| split].
  - unfold scale_columns. cbn [m_at]. change (m_n bits) with 2%nat. rewrite BS. unfold bits. cbn. change (Pos.to_nat 2) with 2%nat. field.
  - unfold recover_columns. rewrite BSS. cbn. change (Pos.to_nat 2) with 2%nat. field.
  - apply c38_undone. lra.
Qed.
(** Solver weights -3, 1 (sum below zero) are flipped, together with the signals. *)
Lemma c40_invariants_ex : let r := post_process 2 (fun j => nth j [-3; 1] 0) (fun _ => 2) 1 1 [cos_bits] 2 1 (cos_basis [cos_bits] (fun _ => 1 / 4) 1) (sin_basis [cos_bits] (fun _ => 1 / 4) 1) (fun _ => 1 / 4) in
  r_weight r 0%nat = 3 /\ r_weight r 1%nat = -1 /\ r_offset r = 2 /\ exists d, r_sets r = [d] /\ r_calibrated d 0%nat = 3.
Proof.
  intros r. unfold r, post_process. cbv zeta. cbn [r_weight r_offset r_sets length post_sets map]. 
  assert (P : Rltb (rsum 2 (fun j => nth j [-3; 1] 0)) 0 = true) by (apply Rltb_true; cbn; lra). rewrite P. cbn [nth].
  split; [lra |]. split; [lra |]. split; [field |]. eexists. split; [reflexivity |]. cbn [r_calibrated]. unfold mv. cbn. lra.
Qed.
