(** * Proofs about the weight calibration. *)
From Verif Require Import Base BaseLemmas CalModel CalSpec SpecLemmas DoutProofs.
Local Open Scope R_scope.

Lemma mv_ext A x y i : (forall j, (j < m_m A)%nat -> x j = y j) -> mv A x i = mv A y i.
Proof. intros H. unfold mv. apply rsum_ext. intros j J. rewrite (H j J). reflexivity. Qed.
Lemma mv_hcat A B x i : mv (hcat A B) x i = mv A x i + mv B (fun j => x (m_m A + j)%nat) i.
Proof.
  unfold mv, hcat. cbn [m_n m_m m_at]. rewrite rsum_app. f_equal; apply rsum_ext; intros j J.
  - destruct (Nat.ltb_spec j (m_m A)); [reflexivity | lia].
  - destruct (Nat.ltb_spec (m_m A + j) (m_m A)); [lia |]. f_equal. f_equal. lia.
Qed.
Lemma sq_zero x : x ^ 2 = 0 -> x = 0.
Proof. intros H. apply Rsqr_0_uniq. unfold Rsqr. lra. Qed.
Lemma least_squares_exact lstsq A b y : least_squares lstsq -> (forall i, (i < m_n A)%nat -> mv A y i = b i) ->
  forall i, (i < m_n A)%nat -> mv A (lstsq A b) i = b i.
Proof.
  intros L E i I.
  assert (Z : (mv A (lstsq A b) i - b i) ^ 2 = 0).
  { apply (rsum_nonneg_zero (m_n A) (fun i => (mv A (lstsq A b) i - b i) ^ 2)); [intros; apply pow2_ge_0 | | exact I].
    eapply Rle_trans; [apply (L A b y) |]. right. apply rsum_zero. intros k K. specialize (E k K). unfold mv in E. rewrite E. ring. }
  apply sq_zero in Z. lra.
Qed.
Lemma norm2_zero n v : (forall i, (i < n)%nat -> v i = 0) -> norm2 n v = 0.
Proof. intros Z. unfold norm2. rewrite rsum_zero; [apply sqrt_0 |]. intros i I. rewrite (Z i I). ring. Qed.
Lemma norm2_zero_inv n v : norm2 n v = 0 -> forall i, (i < n)%nat -> v i = 0.
Proof.
  intros Z i I. assert (P : 0 <= rsum n (fun i => v i ^ 2)) by (apply rsum_nonneg; intros; apply pow2_ge_0).
  apply sqrt_eq_0 in Z; [| exact P].
  assert (v i ^ 2 = 0). { apply (rsum_nonneg_zero n (fun i => v i ^ 2)); [intros; apply pow2_ge_0 | lra | exact I]. } apply sq_zero. assumption.
Qed.
Lemma norm2_nonneg n v : 0 <= norm2 n v. Proof. apply sqrt_pos. Qed.

(** Putting back the coefficient of the column that was moved to the right-hand side. *)
Definition with_unity (x : vec) (e : nat) : vec := fun h => match h with O => 1 | S h' => x (e + h')%nat end.
Lemma mv_unity B x e i : (1 <= m_m B)%nat -> mv B (with_unity x e) i = m_at B i 0%nat + mv (cols_from 1 (m_m B - 1) B) (fun j => x (e + j)%nat) i.
Proof.
  intros M. unfold mv, cols_from. cbn [m_m m_at]. replace (m_m B) with (S (m_m B - 1)) at 1 by lia. rewrite rsum_shift. cbn. rewrite Rmult_1_r. reflexivity.
Qed.
Lemma mv_basis E B C x i : (1 <= m_m B)%nat ->
  mv (hcat (hcat E (cols_from 1 (m_m B - 1) B)) C) x i + m_at B i 0%nat
  = mv E x i + mv B (with_unity x (m_m E)) i + mv C (fun h => x (m_m E + (m_m B - 1) + h)%nat) i.
Proof. intros M. rewrite !mv_hcat, mv_unity by exact M. cbn [m_m hcat cols_from]. ring. Qed.

(** All relations E v + B c + C s = 0 are multiples of one. *)
Definition one_relation (E B C : mat) (v0 c0 s0 : vec) : Prop :=
  forall v c s, (forall i, (i < m_n E)%nat -> mv E v i + mv B c i + mv C s i = 0) ->
  exists k, (forall j, (j < m_m E)%nat -> v j = k * v0 j) /\ (forall h, (h < m_m B)%nat -> c h = k * c0 h) /\ (forall h, (h < m_m C)%nat -> s h = k * s0 h).
Lemma one_relation_swap E B C v c s : one_relation E B C v c s -> one_relation E C B v s c.
Proof. intros O v' s' c' Z. destruct (O v' c' s') as (k & A1 & A2 & A3). { intros i I. rewrite <- (Z i I). ring. } exists k. auto. Qed.
(** One of the two solves: solvable iff the moved column takes part in the relation. *)
Lemma unity_solve lstsq E B C v0 c0 s0 : least_squares lstsq -> (1 <= m_m B)%nat ->
  (forall i, (i < m_n E)%nat -> mv E v0 i + mv B c0 i + mv C s0 i = 0) -> one_relation E B C v0 c0 s0 ->
  let A := hcat (hcat E (cols_from 1 (m_m B - 1) B)) C in
  let b := fun i => - m_at B i 0%nat in
  let x := lstsq A b in
  (c0 0%nat <> 0 -> norm2 (m_n E) (fun i => mv A x i - b i) = 0) /\
  (norm2 (m_n E) (fun i => mv A x i - b i) = 0 ->
   exists k, k * c0 0%nat = 1 /\ (forall j, (j < m_m E)%nat -> x j = k * v0 j) /\ (forall h, (h < m_m B)%nat -> with_unity x (m_m E) h = k * c0 h) /\
             (forall h, (h < m_m C)%nat -> x (m_m E + (m_m B - 1) + h)%nat = k * s0 h)).
Proof.
  intros L M R O A b x. split.
  - intros N. apply norm2_zero. intros i I. apply Rminus_diag_eq.
    set (k := / c0 0%nat).
    set (y := fun j => if (j <? m_m E)%nat then k * v0 j else if (j <? m_m E + (m_m B - 1))%nat then k * c0 (j - m_m E + 1)%nat else k * s0 (j - m_m E - (m_m B - 1))%nat).
    apply (least_squares_exact lstsq A b y L); [| exact I]. clear i I. intros i I. cbn in I. unfold b.
    apply (Rplus_eq_reg_r (m_at B i 0%nat)). unfold A. rewrite mv_basis by exact M.
    rewrite (mv_ext E y (fun j => k * v0 j)). 2:{ intros j J. unfold y. destruct (Nat.ltb_spec j (m_m E)); [reflexivity | lia]. }
    rewrite (mv_ext B (with_unity y (m_m E)) (fun j => k * c0 j)).
    2:{ intros j J. unfold with_unity, y. destruct j as [| j]. { unfold k. field. exact N. }
        destruct (Nat.ltb_spec (m_m E + j) (m_m E)); [lia |]. destruct (Nat.ltb_spec (m_m E + j) (m_m E + (m_m B - 1))); [| lia]. do 2 f_equal. lia. }
    rewrite (mv_ext C _ (fun j => k * s0 j)).
    2:{ intros j J. unfold y. destruct (Nat.ltb_spec (m_m E + (m_m B - 1) + j) (m_m E)); [lia |].
        destruct (Nat.ltb_spec (m_m E + (m_m B - 1) + j) (m_m E + (m_m B - 1))); [lia |]. do 2 f_equal. lia. }
    assert (SC : forall D z, mv D (fun j => k * z j) i = k * mv D z i).
    { intros D z. unfold mv. rewrite <- rsum_scale. apply rsum_ext. intros; ring. }
    rewrite !SC. pose proof (R i I) as Z. nra.
  - intros Z. pose proof (norm2_zero_inv _ _ Z) as Z'. clear Z. cbn beta in Z'.
    destruct (O x (with_unity x (m_m E)) (fun h => x (m_m E + (m_m B - 1) + h)%nat)) as (k & A1 & A2 & A3).
    { intros i I. rewrite <- mv_basis by exact M. specialize (Z' i I). unfold A, b in Z'. lra. }
    exists k. split; [| repeat split; assumption]. rewrite <- (A2 0%nat) by lia. reflexivity.
Qed.
(** The dual-basis solve recovers the relation, whichever basis it picks. *)
Definition extra_block (common offset : mat) (deriv : option mat) : mat := match deriv with Some d => hcat (hcat common offset) d | None => hcat common offset end.
Lemma dual_basis_recovers lstsq common cosb sinb offset deriv v0 c0 s0 :
  let E := extra_block common offset deriv in
  least_squares lstsq -> (1 <= m_m cosb)%nat -> m_m sinb = m_m cosb -> (c0 0%nat <> 0 \/ s0 0%nat <> 0) ->
  (forall i, (i < m_n common)%nat -> mv E v0 i + mv cosb c0 i + mv sinb s0 i = 0) -> one_relation E cosb sinb v0 c0 s0 ->
  let '(x, choice) := dual_basis_lstsq lstsq common cosb sinb offset deriv in
  let u := with_unity x (m_m E) in
  let q := fun h => x (m_m E + (m_m cosb - 1) + h)%nat in
  exists k, (forall j, (j < m_m E)%nat -> x j = k * v0 j) /\
    ((choice = 0%nat /\ s0 0%nat = 0 /\ k * c0 0%nat = 1 /\ (forall h, (h < m_m cosb)%nat -> u h = k * c0 h) /\ (forall h, (h < m_m cosb)%nat -> q h = k * s0 h)) \/
     (choice = 1%nat /\ k * s0 0%nat = 1 /\ (forall h, (h < m_m cosb)%nat -> u h = k * s0 h) /\ (forall h, (h < m_m cosb)%nat -> q h = k * c0 h))).
Proof.
  intros E L M MS NZ R O.
  assert (EN : m_n E = m_n common) by (unfold E, extra_block; destruct deriv; reflexivity).
  assert (R1 : forall i, (i < m_n E)%nat -> mv E v0 i + mv cosb c0 i + mv sinb s0 i = 0) by (intros i I; apply R; rewrite <- EN; exact I).
  assert (R2 : forall i, (i < m_n E)%nat -> mv E v0 i + mv sinb s0 i + mv cosb c0 i = 0) by (intros i I; rewrite <- (R1 i I); ring).
  pose proof (unity_solve lstsq E cosb sinb v0 c0 s0 L M R1 O) as P1.
  pose proof (unity_solve lstsq E sinb cosb v0 s0 c0 L ltac:(lia) R2 (one_relation_swap _ _ _ _ _ _ O)) as P2.
  cbv zeta in P1, P2. rewrite EN in P1, P2. rewrite MS in P2.
  unfold dual_basis_lstsq. fold (extra_block common offset deriv). fold E. rewrite MS.
  match type of P1 with (_ -> ?e = 0) /\ _ => set (e1 := e) in * end.
  match type of P2 with (_ -> ?e = 0) /\ _ => set (e2 := e) in * end.
  assert (N1 : 0 <= e1) by apply norm2_nonneg. assert (N2 : 0 <= e2) by apply norm2_nonneg.
  destruct P1 as (P1 & Q1). destruct P2 as (P2 & Q2).
  destruct (Rltb_spec e1 e2) as [Lt | Ge]; cbn zeta iota beta.
  - assert (S0 : s0 0%nat = 0). { destruct (Req_dec (s0 0%nat) 0) as [Y | Y]; [exact Y |]. specialize (P2 Y). lra. }
    assert (e1 = 0) as Z1 by (apply P1; tauto). destruct (Q1 Z1) as (k & K & A1 & A2 & A3).
    exists k. split; [exact A1 |]. left. rewrite MS in A3. repeat split; assumption.
  - assert (Z2 : e2 = 0). { destruct (Req_dec (c0 0%nat) 0) as [Y | Y]. { apply P2. tauto. } specialize (P1 Y). lra. }
    destruct (Q2 Z2) as (k & K & A1 & A2 & A3). exists k. split; [exact A1 |]. right. repeat split; assumption.
Qed.

(** ** C39 *)
Definition pm1 (s : R) : Prop := s = 1 \/ s = -1.
Lemma sq_pos x : x <> 0 -> 0 < x ^ 2.
Proof. intros H. destruct (pow2_ge_0 x) as [P | P]; [exact P |]. exfalso. apply H. apply sq_zero. symmetry. exact P. Qed.
Lemma amplitude_pos a b : a <> 0 \/ b <> 0 -> 0 < amplitude a b.
Proof.
  intros H. unfold amplitude. apply sqrt_lt_R0.
  assert (0 <= a ^ 2) by apply pow2_ge_0. assert (0 <= b ^ 2) by apply pow2_ge_0.
  destruct H as [H | H]; [assert (0 < a ^ 2) by (apply sq_pos; exact H) | assert (0 < b ^ 2) by (apply sq_pos; exact H)]; lra.
Qed.
Lemma norm_is_amplitude k x y : k * x = 1 -> sqrt (1 + (k * y) ^ 2) = Rabs k * amplitude x y.
Proof.
  intros H. unfold amplitude. rewrite <- sqrt_Rsqr_abs. rewrite <- sqrt_mult_alt by apply Rle_0_sqr. f_equal. unfold Rsqr.
  replace 1 with ((k * x) * (k * x)) by (rewrite H; ring). ring.
Qed.
Lemma sign_of k : k <> 0 -> pm1 (k / Rabs k).
Proof. intros H. unfold pm1, Rabs. destruct (Rcase_abs k); [right | left]; field; lra. Qed.
(** The sign that the polarity step ends up with. *)
Lemma polarity m w0 w amp s : 0 < amp -> pm1 s -> (forall j, (j < m)%nat -> w0 j = s * w j / amp) ->
  let pol := if Rltb (rsum m w0) 0 then -1 else 1 in
  pm1 (s * pol) /\ (0 < rsum m w -> s * pol = 1) /\ (rsum m w < 0 -> s * pol = -1) /\ 0 <= rsum m w0 * pol.
Proof.
  intros A S E pol.
  assert (SM : rsum m w0 = s * rsum m w / amp).
  { rewrite (rsum_ext m w0 (fun j => (s / amp) * w j)). { rewrite rsum_scale. field. lra. } intros j J. rewrite (E j J). field. lra. }
  assert (IV : 0 < / amp) by (apply Rinv_0_lt_compat; exact A).
  unfold pol. unfold pm1 in *. unfold Rdiv in SM. destruct (Rltb_spec (rsum m w0) 0) as [X | X]; (split; [destruct S; subst s; lra |]);
    (split; [| split; [| lra]]); intros Y; destruct S; subst s; try lra; exfalso; nra.
Qed.
Lemma flip_nonneg m (v : vec) : 0 <= rsum m (if Rltb (rsum m v) 0 then fun j => - v j else v).
Proof.
  destruct (Rltb_spec (rsum m v) 0) as [X | X]; [| exact X].
  rewrite (rsum_ext m _ (fun j => -1 * v j)) by (intros; ring). rewrite rsum_scale. lra.
Qed.
(** Every output of the lite calibration has a non-negative sum. *)
Lemma c39_nonneg_sum lstsq bits f wt : calibrate_weight_sine_lite lstsq bits f = Ok wt -> 0 <= rsum (m_m bits) wt.
Proof.
  unfold calibrate_weight_sine_lite, raise_if. destruct (Rltb (1 / 2) f); [discriminate |]. cbv zeta. intros H. apply Ok_inj in H. subst wt. apply flip_nonneg.
Qed.
(** A frequency above one half raises ValueError; nothing else does. *)
Lemma c39_frequency_guard lstsq bits f : calibrate_weight_sine_lite lstsq bits f = Err ValueError <-> 1 / 2 < f.
Proof.
  unfold calibrate_weight_sine_lite, raise_if. destruct (Rltb_spec (1 / 2) f) as [X | X].
  - tauto.
  - split; [discriminate | lra].
Qed.
(** Exact recovery of the weights. *)
Lemma c39_recovers lstsq bits f w off a b : least_squares lstsq -> f <= 1 / 2 ->
  true_weights bits 1 f w off a b -> identifiable bits 1 f w off a b -> a 0%nat <> 0 ->
  exists wt s, calibrate_weight_sine_lite lstsq bits f = Ok wt /\ (s = 1 \/ s = -1) /\
    (forall j, (j < m_m bits)%nat -> wt j = s * w j / amplitude (a 0%nat) (b 0%nat)) /\
    (0 < rsum (m_m bits) w -> s = 1) /\ (rsum (m_m bits) w < 0 -> s = -1).
Proof.
  intros L F T ID A0. unfold calibrate_weight_sine_lite, raise_if. destruct (Rltb_spec (1 / 2) f) as [X | X]; [lra | clear X]. cbv beta zeta.
  set (A := hcat (hcat bits (ones (m_n bits))) (of_cols (m_n bits) [fun t => sin (2 * PI * f * INR t)])).
  set (bb := fun t => - cos (2 * PI * f * INR t)). set (m := m_m bits) in *.
  assert (EX : forall x t, mv A x t = output bits x t + x m + sin (2 * PI * f * INR t) * x (m + 1)%nat).
  { intros x t. unfold A. rewrite !mv_hcat. unfold output. unfold mv at 1. fold m. unfold mv. cbn. fold m. rewrite Nat.add_0_r. rewrite ?Nat.add_0_r. ring. }
  assert (TE : forall o c s t, tone 1 o c s f t = o + c 0%nat * cos (2 * PI * f * INR t) + s 0%nat * sin (2 * PI * f * INR t)).
  { intros. unfold tone. cbn. rewrite !Rmult_1_r. ring. }
  assert (SOL : forall t, (t < m_n A)%nat -> mv A (lstsq A bb) t = bb t).
  { apply (least_squares_exact lstsq A bb (fun j => if (j <? m)%nat then - / a 0%nat * w j else if (j =? m)%nat then off / a 0%nat else b 0%nat / a 0%nat) L).
    intros t Ht. cbn in Ht. rewrite EX. rewrite Nat.ltb_irrefl, Nat.eqb_refl.
    destruct (Nat.ltb_spec (m + 1) m); [lia |]. destruct (Nat.eqb_spec (m + 1) m); [lia |].
    unfold output. fold m. rewrite (rsum_ext m _ (fun j => - / a 0%nat * (m_at bits t j * w j))).
    2:{ intros j J. destruct (Nat.ltb_spec j m); [ring | lia]. }
    rewrite rsum_scale. pose proof (T t Ht) as TT. unfold output in TT. fold m in TT. rewrite TT, TE. unfold bb. field. exact A0. }
  set (x := lstsq A bb) in *.
  destruct (ID x (- x m) (fun _ => -1) (fun _ => - x (m + 1)%nat)) as (k & U & O & C & S).
  { intros t Ht. specialize (SOL t Ht). rewrite EX in SOL. rewrite TE. unfold bb in SOL. lra. }
  specialize (C 0%nat ltac:(lia)). specialize (S 0%nat ltac:(lia)). cbn beta in C, S.
  assert (K0 : k <> 0) by (intros ->; lra).
  replace (m_m A - 1)%nat with (m + 1)%nat by (cbn; fold m; lia).
  assert (NF : sqrt (1 + x (m + 1)%nat ^ 2) = Rabs k * amplitude (a 0%nat) (b 0%nat)).
  { replace (x (m + 1)%nat) with ((- k) * b 0%nat) by lra. rewrite (norm_is_amplitude (- k) (a 0%nat) (b 0%nat)) by lra. rewrite Rabs_Ropp. reflexivity. }
  rewrite NF. assert (AP : 0 < amplitude (a 0%nat) (b 0%nat)) by (apply amplitude_pos; tauto).
  assert (AK : Rabs k <> 0) by (apply Rabs_no_R0; exact K0).
  assert (W : forall j, (j < m)%nat -> x j / (Rabs k * amplitude (a 0%nat) (b 0%nat)) = (k / Rabs k) * w j / amplitude (a 0%nat) (b 0%nat)).
  { intros j J. rewrite (U j J). field. split; lra. }
  pose proof (polarity m (fun j => x j / (Rabs k * amplitude (a 0%nat) (b 0%nat))) w _ _ AP (sign_of k K0) W) as (P1 & P2 & P3 & _).
  eexists. exists (k / Rabs k * (if Rltb (rsum m (fun j => x j / (Rabs k * amplitude (a 0%nat) (b 0%nat)))) 0 then -1 else 1)).
  split; [reflexivity |]. split; [exact P1 |]. split; [| split; assumption].
  intros j J. cbn beta in *. destruct (Rltb _ 0); rewrite (W j J); field; split; lra.
Qed.

(** ** C38 *)
Lemma powerRZ_10_pos z : 0 < powerRZ 10 z. Proof. apply powerRZ_lt. lra. Qed.
(** Unscaled columns with the recovered weights give the solved output divided by the normalisation. *)
Lemma c38_undone bits coeffs norm i : norm <> 0 ->
  output (scale_columns bits) coeffs i = norm * output bits (recover_columns coeffs norm (bit_scales bits)) i.
Proof.
  intros N. unfold output, scale_columns, recover_columns, bit_scales. cbn [m_m m_at]. rewrite <- rsum_scale. apply rsum_ext. intros j J. field. exact N.
Qed.
Lemma max_abs_spec n col : (0 < n)%nat -> (forall i, (i < n)%nat -> Rabs (col i) <= max_abs n col) /\ exists i, (i < n)%nat /\ Rabs (col i) = max_abs n col.
Proof.
  intros N. unfold max_abs. destruct (map col (seq 0 n)) as [| x l] eqn:E. { destruct n; [lia | discriminate]. }
  assert (IN : forall y, In y (x :: l) <-> exists i, (i < n)%nat /\ y = col i).
  { intros y. rewrite <- E, in_map_iff. split. { intros (i & <- & I). apply in_seq in I. exists i. split; [lia | reflexivity]. } intros (i & I & ->). exists i. split; [reflexivity | apply in_seq; lia]. }
  pose proof (proj1 (IN _) (lmax1_in x l)) as (im & IM & EM). pose proof (proj1 (IN _) (lmin1_in x l)) as (il & IL & EL).
  assert (B : forall i, (i < n)%nat -> lmin1 x l <= col i <= lmax1 x l).
  { intros i I. destruct (proj2 (IN (col i)) (ex_intro _ i (conj I eq_refl))) as [<- | J].
    - split; [apply lmin1_le_init | apply lmax1_ge_init]. - split; [apply lmin1_le | apply lmax1_ge]; exact J. }
  split.
  - intros i I. specialize (B i I). unfold Rabs at 1. destruct (Rcase_abs (col i)).
    + eapply Rle_trans; [| apply Rmax_r]. rewrite Rabs_left1 by lra. lra.
    + eapply Rle_trans; [| apply Rmax_l]. rewrite Rabs_pos_eq by lra. lra.
  - unfold Rmax. destruct (Rle_dec _ _); [exists il | exists im]; (split; [assumption |]); congruence.
Qed.
Lemma powerRZ_Rpower z : powerRZ 10 z = Rpower 10 (IZR z).
Proof. apply powerRZ_Rpower. lra. Qed.
(** After scaling the largest magnitude of every column that is not (near) zero lies between 1/2
    and 10; the factor is a power of ten. *)
Lemma c38_range bits j : (0 < m_n bits)%nat -> 1 / 10 ^ 15 < max_abs (m_n bits) (colm bits j) ->
  (forall i, (i < m_n bits)%nat -> Rabs (m_at (scale_columns bits) i j) < 10) /\
  exists i, (i < m_n bits)%nat /\ 1 / 2 < Rabs (m_at (scale_columns bits) i j).
Proof.
  intros N X. pose proof (max_abs_spec (m_n bits) (colm bits j) N) as (UB & i0 & I0 & E0).
  unfold scale_columns. cbn [m_at]. unfold bit_scale. destruct (Rleb_spec (max_abs (m_n bits) (colm bits j)) (1 / 10 ^ 15)) as [Y | _]; [lra |].
  set (M := max_abs (m_n bits) (colm bits j)) in *. set (z := Zfloor (log10 (M + 1 / 10 ^ 15))).
  assert (EPS : 0 < 1 / 10 ^ 15) by (apply Rdiv_lt_0_compat; [lra | apply pow_lt; lra]).
  assert (P10 : 0 < ln 10) by (rewrite <- ln_1; apply ln_increasing; lra).
  assert (BB : powerRZ 10 z <= M + 1 / 10 ^ 15 < 10 * powerRZ 10 z).
  { assert (EE : exp (ln 10 * log10 (M + 1 / 10 ^ 15)) = M + 1 / 10 ^ 15).
    { unfold log10. replace (ln 10 * (ln (M + 1 / 10 ^ 15) / ln 10)) with (ln (M + 1 / 10 ^ 15)) by (field; lra). apply exp_ln. lra. }
    assert (ZL := Zfloor_lb (log10 (M + 1 / 10 ^ 15))). assert (ZU := Zfloor_ub (log10 (M + 1 / 10 ^ 15))). fold z in ZL, ZU.
    split.
    - rewrite powerRZ_Rpower. unfold Rpower. rewrite <- EE. destruct ZL as [ZL | ZL].
      + left. apply exp_increasing. nra. + right. f_equal. rewrite ZL. ring.
    - replace (10 * powerRZ 10 z) with (powerRZ 10 (z + 1)) by (rewrite powerRZ_add by lra; rewrite powerRZ_1; ring).
      rewrite powerRZ_Rpower. unfold Rpower. rewrite <- EE. apply exp_increasing. rewrite plus_IZR. nra. }
  assert (PI : powerRZ 10 (- z) * powerRZ 10 z = 1) by (rewrite <- powerRZ_add by lra; rewrite Z.add_opp_diag_l; reflexivity).
  pose proof (powerRZ_10_pos z) as PZ. pose proof (powerRZ_10_pos (- z)) as PN.
  split.
  - intros i I. rewrite Rabs_mult, (Rabs_pos_eq (powerRZ 10 (- z))) by lra. specialize (UB i I). unfold colm in UB.
    apply (Rle_lt_trans _ (M * powerRZ 10 (- z))); [apply Rmult_le_compat_r; lra |].
    replace 10 with (10 * powerRZ 10 z * powerRZ 10 (- z)) at 2 by (rewrite Rmult_assoc, (Rmult_comm (powerRZ 10 z)), PI; ring). apply Rmult_lt_compat_r; lra.
  - exists i0. split; [exact I0 |]. rewrite Rabs_mult, (Rabs_pos_eq (powerRZ 10 (- z))) by lra. unfold colm in E0. rewrite E0.
    replace (1 / 2) with (1 / 2 * powerRZ 10 z * powerRZ 10 (- z)) by (rewrite Rmult_assoc, (Rmult_comm (powerRZ 10 z)), PI; ring). apply Rmult_lt_compat_r; lra.
Qed.
(** The factor is never zero; (near) zero columns are left alone. *)
Lemma c38_factor bits i j : m_at (scale_columns bits) i j = m_at bits i j * powerRZ 10 (- bit_scales bits j) /\ powerRZ 10 (- bit_scales bits j) <> 0 /\
  (max_abs (m_n bits) (colm bits j) <= 1 / 10 ^ 15 -> m_at (scale_columns bits) i j = m_at bits i j).
Proof.
  split; [reflexivity |]. split. { pose proof (powerRZ_10_pos (- bit_scales bits j)). lra. }
  intros X. unfold scale_columns. cbn [m_at]. unfold bit_scale. destruct (Rleb_spec (max_abs (m_n bits) (colm bits j)) (1 / 10 ^ 15)) as [_ | Y]; [| lra]. cbn. ring.
Qed.

(** ** C37 *)
Definition rec_weight (w_eff : vec) (p : patch_state) (j : nat) : R := match nth j (p_map p) None with None => 0 | Some c => w_eff c * nth j (p_ratio p) 0 end.
Record patch_inv (bits : mat) (nominal : list R) (k : nat) (p : patch_state) : Prop := {
  pi_map : length (p_map p) = k; pi_ratio : length (p_ratio p) = k; pi_founder : length (p_founder p) = length (p_eff p);
  pi_range : forall j c, (j < k)%nat -> nth j (p_map p) None = Some c -> (c < length (p_eff p))%nat;
  pi_founders : forall c, (c < length (p_eff p))%nat -> (nth c (p_founder p) 0 < k)%nat /\ nth (nth c (p_founder p) 0%nat) (p_map p) None = Some c /\ nth (nth c (p_founder p) 0%nat) (p_ratio p) 0 = 1;
  pi_merged : forall j c, (j < k)%nat -> nth j (p_map p) None = Some c -> j = nth c (p_founder p) 0%nat \/ nth j (p_ratio p) 0 = nth j nominal 0 / nth (nth c (p_founder p) 0%nat) nominal 0;
  pi_out : forall w i, rsum (length (p_eff p)) (fun c => nth c (p_eff p) zvec i * w c) = rsum k (fun j => m_at bits i j * rec_weight w p j) }.
Lemma upd_length {A} (l : list A) i v : length (upd l i v) = length l.
Proof. revert i. induction l as [| x l IH]; intros [| i]; cbn; auto. Qed.
Lemma upd_nth {A} (l : list A) i j v d : (i < length l)%nat -> nth j (upd l i v) d = if (j =? i)%nat then v else nth j l d.
Proof. revert i j. induction l as [| x l IH]; intros [| i] [| j] H; cbn in *; try lia; auto. apply IH. lia. Qed.
Lemma find_correlated_range n col eff k c : find_correlated n col eff k = Some c -> (k <= c < k + length eff)%nat.
Proof.
  revert k. induction eff as [| e eff IH]; intros k; cbn; [discriminate |]. destruct (Rltb _ _). { intros E. injection E as <-. lia. } intros E. apply IH in E. lia.
Qed.
Lemma rsum_update n c f g d : (c < n)%nat -> f c = g c + d -> (forall i, (i < n)%nat -> i <> c -> f i = g i) -> rsum n f = rsum n g + d.
Proof.
  intros C E O. assert (X : rsum n (fun i => f i - g i) = d). { rewrite (rsum_single n c); [lra | exact C |]. intros i I N. rewrite (O i I N). ring. }
  rewrite rsum_minus in X. lra.
Qed.
Lemma patch_inv_drop bits nominal k p : patch_inv bits nominal k p -> patch_inv bits nominal (S k) (mkPatch (p_eff p) (p_founder p) (p_map p ++ [None]) (p_ratio p ++ [0])).
Proof.
  intros [M Ra F Rg Fo Me O].
  assert (NM : forall j, (j < k)%nat -> nth j (p_map p ++ [None]) None = nth j (p_map p) None) by (intros; apply app_nth1; lia).
  assert (NR : forall j, (j < k)%nat -> nth j (p_ratio p ++ [0]) 0 = nth j (p_ratio p) 0) by (intros; apply app_nth1; lia).
  assert (NK : nth k (p_map p ++ [None]) None = None) by (rewrite app_nth2, M, Nat.sub_diag by lia; reflexivity).
  constructor; cbn [p_eff p_founder p_map p_ratio].
  - rewrite app_length. cbn. lia. - rewrite app_length. cbn. lia. - exact F.
  - intros j c J E. destruct (Nat.eq_dec j k) as [-> | N]; [congruence |]. rewrite NM in E by lia. apply (Rg j c); [lia | exact E].
  - intros c C. specialize (Fo c C) as (A1 & A2 & A3). rewrite NM, NR by lia. repeat split; [lia | assumption ..].
  - intros j c J E. destruct (Nat.eq_dec j k) as [-> | N]; [congruence |]. rewrite NM in E by lia. rewrite NR by lia. apply Me; [lia | exact E].
  - intros w i. rewrite O. cbn [rsum]. unfold rec_weight at 3. cbn [p_map p_ratio]. rewrite NK, Rmult_0_r, Rplus_0_r. apply rsum_ext. intros j J. unfold rec_weight. cbn [p_map p_ratio]. rewrite NM, NR by lia. reflexivity.
Qed.
Lemma patch_inv_step rank bits nominal k p : patch_inv bits nominal k p -> patch_inv bits nominal (S k) (patch_step rank (m_n bits) nominal p k (colm bits k)).
Proof.
  intros I. unfold patch_step. destruct (Rltb _ _); [apply patch_inv_drop; exact I |]. cbv zeta.
  destruct (_ <? _)%nat.
  - destruct I as [M Ra F Rg Fo Me O]. set (L := length (p_eff p)) in *.
    assert (NM : forall j, (j < k)%nat -> nth j (p_map p ++ [Some L]) None = nth j (p_map p) None) by (intros; apply app_nth1; lia).
    assert (NR : forall j, (j < k)%nat -> nth j (p_ratio p ++ [1]) 0 = nth j (p_ratio p) 0) by (intros; apply app_nth1; lia).
    assert (NK : nth k (p_map p ++ [Some L]) None = Some L) by (rewrite app_nth2, M, Nat.sub_diag by lia; reflexivity).
    assert (NKr : nth k (p_ratio p ++ [1]) 0 = 1) by (rewrite app_nth2, Ra, Nat.sub_diag by lia; reflexivity).
    assert (NF : forall c, (c < L)%nat -> nth c (p_founder p ++ [k]) 0%nat = nth c (p_founder p) 0%nat) by (intros; apply app_nth1; lia).
    assert (NFL : nth L (p_founder p ++ [k]) 0%nat = k) by (rewrite app_nth2, F, Nat.sub_diag by lia; reflexivity).
    constructor; cbn [p_eff p_founder p_map p_ratio]; rewrite ?app_length; cbn [length]; fold L; try lia.
    + intros j c J E. destruct (Nat.eq_dec j k) as [-> | N]. { rewrite NK in E. injection E as <-. lia. } rewrite NM in E by lia. pose proof (Rg j c ltac:(lia) E). lia.
    + intros c C. destruct (Nat.eq_dec c L) as [-> | N]. { rewrite NFL. repeat split; [lia | assumption ..]. }
      rewrite NF by lia. specialize (Fo c ltac:(lia)) as (A1 & A2 & A3). rewrite NM, NR by lia. repeat split; [lia | assumption ..].
    + intros j c J E. destruct (Nat.eq_dec j k) as [-> | N]. { left. rewrite NK in E. injection E as <-. congruence. }
      rewrite NM in E by lia. rewrite NF, NR by (lia || (apply (Rg j c); [lia | exact E])). apply Me; [lia | exact E].
    + intros w i. rewrite rsum_app. cbn [rsum]. rewrite Nat.add_0_r, Rplus_0_l. rewrite app_nth2 by (fold L; lia). fold L. rewrite Nat.sub_diag. cbn [nth]. unfold colm.
      unfold rec_weight at 2. cbn [p_map p_ratio]. rewrite NK, NKr. f_equal; [| ring].
      rewrite (rsum_ext L _ (fun c => nth c (p_eff p) zvec i * w c)) by (intros c C; rewrite app_nth1 by (fold L; lia); reflexivity). rewrite O.
      apply rsum_ext. intros j J. unfold rec_weight. cbn [p_map p_ratio]. rewrite NM, NR by lia. reflexivity.
  - destruct (find_correlated (m_n bits) (colm bits k) (p_eff p) 0) as [c0 |] eqn:FC; [| apply patch_inv_drop; exact I].
    apply find_correlated_range in FC. cbn in FC. destruct FC as [_ FC]. destruct I as [M Ra F Rg Fo Me O]. set (L := length (p_eff p)) in *.
    set (ra := nth k nominal 0 / nth (nth c0 (p_founder p) 0%nat) nominal 0).
    assert (NM : forall j, (j < k)%nat -> nth j (p_map p ++ [Some c0]) None = nth j (p_map p) None) by (intros; apply app_nth1; lia).
    assert (NR : forall j, (j < k)%nat -> nth j (p_ratio p ++ [ra]) 0 = nth j (p_ratio p) 0) by (intros; apply app_nth1; lia).
    assert (NK : nth k (p_map p ++ [Some c0]) None = Some c0) by (rewrite app_nth2, M, Nat.sub_diag by lia; reflexivity).
    assert (NKr : nth k (p_ratio p ++ [ra]) 0 = ra) by (rewrite app_nth2, Ra, Nat.sub_diag by lia; reflexivity).
    constructor; cbn [p_eff p_founder p_map p_ratio]; rewrite ?upd_length, ?app_length; cbn [length]; fold L; try lia.
    + intros j c J E. destruct (Nat.eq_dec j k) as [-> | N]. { rewrite NK in E. injection E as <-. lia. } rewrite NM in E by lia. pose proof (Rg j c ltac:(lia) E). lia.
    + intros c C. specialize (Fo c ltac:(lia)) as (A1 & A2 & A3). rewrite NM, NR by lia. repeat split; [lia | assumption ..].
    + intros j c J E. destruct (Nat.eq_dec j k) as [-> | N]. { right. rewrite NK in E. injection E as <-. rewrite NKr. reflexivity. }
      rewrite NM in E by lia. rewrite NR by lia. apply Me; [lia | exact E].
    + intros w i. cbn [rsum]. unfold rec_weight at 2. cbn [p_map p_ratio]. rewrite NK, NKr.
      rewrite (rsum_update L c0 _ (fun c => nth c (p_eff p) zvec i * w c) (m_at bits i k * (w c0 * ra))).
      * f_equal. rewrite O. apply rsum_ext. intros j J. unfold rec_weight. cbn [p_map p_ratio]. rewrite NM, NR by lia. reflexivity.
      * exact FC.
      * rewrite upd_nth by exact FC. rewrite Nat.eqb_refl. unfold colm. ring.
      * intros c C N. rewrite upd_nth by exact FC. destruct (Nat.eqb_spec c c0); [contradiction | reflexivity].
Qed.
Lemma patch_inv_all rank bits nominal : patch_inv bits nominal (m_m bits) (patch_rank_deficiency rank bits nominal).
Proof.
  unfold patch_rank_deficiency. destruct (_ <=? _)%nat.
  - constructor; cbn [p_eff p_founder p_map p_ratio]; rewrite ?map_length, ?seq_length, ?repeat_length; try reflexivity.
    + intros j c J E. rewrite (nth_indep _ None (Some 0%nat)) in E by (rewrite map_length, seq_length; exact J). rewrite map_nth, seq_nth in E by exact J. injection E as <-. exact J.
    + intros c C. rewrite seq_nth by exact C. cbn [Nat.add]. rewrite (nth_indep _ None (Some 0%nat)) by (rewrite map_length, seq_length; exact C). rewrite map_nth, seq_nth by exact C.
      repeat split; [exact C |]. apply nth_repeat_lt || (rewrite (nth_indep _ 0 1) by (rewrite repeat_length; exact C); apply nth_repeat).
    + intros j c J E. left. rewrite (nth_indep _ None (Some 0%nat)) in E by (rewrite map_length, seq_length; exact J). rewrite map_nth, seq_nth in E by exact J. injection E as <-. cbn. rewrite seq_nth by exact J. reflexivity.
    + intros w i. apply rsum_ext. intros j J. unfold rec_weight. cbn [p_map p_ratio].
      rewrite (nth_indep (map Some _) None (Some 0%nat)) by (rewrite map_length, seq_length; exact J). rewrite map_nth, seq_nth by exact J.
      rewrite (nth_indep (repeat 1 _) 0 1) by (rewrite repeat_length; exact J). rewrite nth_repeat.
      rewrite (nth_indep _ zvec (colm bits 0%nat)) by (rewrite map_length, seq_length; exact J). rewrite map_nth, seq_nth by exact J. unfold colm. cbn. ring.
  - assert (G : forall k p, patch_inv bits nominal k p -> patch_inv bits nominal (k + (m_m bits - k)) (fold_left (fun st j => patch_step rank (m_n bits) nominal st j (colm bits j)) (seq k (m_m bits - k)) p)).
    { intros k. remember (m_m bits - k)%nat as d eqn:D. clear D. revert k. induction d as [| d IH]; intros k p I; cbn [seq fold_left]. { rewrite Nat.add_0_r. exact I. }
      replace (k + S d)%nat with (S k + d)%nat by lia. apply IH. apply patch_inv_step. exact I. }
    specialize (G 0%nat (mkPatch [] [] [] [])). rewrite Nat.sub_0_r in G. apply G. constructor; cbn; try reflexivity; intros; try lia.
Qed.
(** Weights mapped back to the original bits reproduce the output solved on the patched columns. *)
Lemma c37_output_preserved rank bits nominal w_eff w i :
  let p := patch_rank_deficiency rank bits nominal in recover_rank_deficiency w_eff p = Ok w ->
  output bits w i = output (of_cols (m_n bits) (p_eff p)) w_eff i.
Proof.
  intros p H. pose proof (patch_inv_all rank bits nominal) as I. fold p in I. unfold recover_rank_deficiency, raise_if in H.
  destruct (_ && _)%bool; [discriminate |]. apply Ok_inj in H. subst w. unfold output. cbn [of_cols m_m m_at]. rewrite (pi_out _ _ _ _ I). reflexivity.
Qed.
(** A bit is dropped (weight 0), kept as the founder of a column (that column's weight), or merged
    into the column of a founder, with its nominal ratio to that founder. *)
Lemma c37_bit_weights rank bits nominal w_eff w j :
  let p := patch_rank_deficiency rank bits nominal in recover_rank_deficiency w_eff p = Ok w -> (j < m_m bits)%nat ->
  w j = 0 \/ exists c founder, (c < length (p_eff p))%nat /\ (founder < m_m bits)%nat /\ w founder = w_eff c /\
     (j = founder \/ w j = w founder * (nth j nominal 0 / nth founder nominal 0)).
Proof.
  intros p H J. pose proof (patch_inv_all rank bits nominal) as I. fold p in I. unfold recover_rank_deficiency, raise_if in H.
  destruct (_ && _)%bool; [discriminate |]. apply Ok_inj in H. subst w. cbv beta. destruct (nth j (p_map p) None) as [c |] eqn:E; [right | left; reflexivity].
  pose proof (pi_range _ _ _ _ I j c J E) as C. destruct (pi_founders _ _ _ _ I c C) as (F1 & F2 & F3).
  exists c, (nth c (p_founder p) 0%nat). split; [exact C |]. split; [exact F1 |]. rewrite F2, F3. split; [ring |].
  destruct (pi_merged _ _ _ _ I j c J E) as [X | X]; [left; exact X | right]. rewrite X. ring.
Qed.
(** Mapping back fails (IndexError) exactly when every bit was dropped. *)
Lemma c37_error rank bits nominal w_eff : (0 < m_m bits)%nat ->
  let p := patch_rank_deficiency rank bits nominal in
  recover_rank_deficiency w_eff p = Err IndexError <-> forall j, (j < m_m bits)%nat -> nth j (p_map p) None = None.
Proof.
  intros M p. pose proof (patch_inv_all rank bits nominal) as I. fold p in I. unfold recover_rank_deficiency, raise_if.
  pose proof (pi_map _ _ _ _ I) as ML. destruct (Nat.eqb_spec (length (p_eff p)) 0) as [Z | Z]; destruct (Nat.eqb_spec (length (p_map p)) 0) as [Y | Y]; cbn; try lia.
  - split; [| reflexivity]. intros _ j J. destruct (nth j (p_map p) None) as [c |] eqn:E; [| reflexivity]. pose proof (pi_range _ _ _ _ I j c J E). lia.
  - split; [discriminate |]. intros A. destruct (pi_founders _ _ _ _ I 0%nat ltac:(lia)) as (F1 & F2 & _). rewrite A in F2 by exact F1. discriminate.
Qed.

(** ** C40 *)
Lemma post_sets_spec weights sol nf dc choice bw H D segs cosb sinb : forall k row,
  let sets := post_sets weights sol nf dc choice bw H D k row segs cosb sinb in
  length sets = length segs /\
  forall d, (d < length segs)%nat -> forall i, let r := nth d sets (mkDs zvec zvec zvec (Fin 0)) in
    r_calibrated r i = output (nth d segs (mkMat 0 0 (fun _ _ => 0))) weights i /\ r_error r i = r_calibrated r i - dc - r_ideal r i.
Proof.
  induction segs as [| s segs IH]; intros k row; cbn [post_sets length]; cbv zeta; [split; [reflexivity | intros; lia] |].
  destruct (IH (S k) (row + m_n s)%nat) as (L & P). split; [cbn [length]; rewrite L; reflexivity |].
  intros [| d] Hd i. { cbn [nth r_calibrated r_ideal r_error]. split; reflexivity. }
  cbn [nth]. apply P. lia.
Qed.
(** For every solver output: the weights have non-negative sum, every calibrated signal is the bits
    times the returned weights, and error = calibrated - offset - ideal. *)
Lemma c40_invariants bw weights sol nf choice segs bw_eff H cosb sinb freqs :
  (forall d, (d < length segs)%nat -> m_m (nth d segs (mkMat 0 0 (fun _ _ => 0))) = bw) ->
  let r := post_process bw weights sol nf choice segs bw_eff H cosb sinb freqs in
  0 <= rsum bw (r_weight r) /\ length (r_sets r) = length segs /\
  forall d i, (d < length segs)%nat -> let s := nth d (r_sets r) (mkDs zvec zvec zvec (Fin 0)) in
    r_calibrated s i = rsum bw (fun j => m_at (nth d segs (mkMat 0 0 (fun _ _ => 0))) i j * r_weight r j) /\
    r_error s i = r_calibrated s i - r_offset r - r_ideal s i.
Proof.
  intros W r. unfold r, post_process. cbv zeta. cbn [r_weight r_offset r_sets].
  set (pol := if Rltb (rsum bw weights) 0 then -1 else 1).
  destruct (post_sets_spec weights sol nf (- sol bw_eff / nf) choice bw_eff H (length segs) segs cosb sinb 0%nat 0%nat) as (L & P).
  split.
  { rewrite (rsum_ext bw _ (fun j => pol * weights j)) by (intros; ring). rewrite rsum_scale. unfold pol. destruct (Rltb_spec (rsum bw weights) 0); lra. }
  split; [rewrite map_length; exact L |].
  intros d i Hd. set (g := fun r => mkDs (fun i => r_calibrated r i * pol) (fun i => r_ideal r i * pol) (fun i => r_error r i * pol) (r_sndr r)).
  rewrite (nth_indep (map g _) _ (g (mkDs zvec zvec zvec (Fin 0)))) by (rewrite map_length, L; exact Hd). rewrite map_nth.
  destruct (P d Hd i) as (P1 & P2). unfold g. cbn [r_calibrated r_ideal r_error]. rewrite P2, P1. unfold output. rewrite (W d Hd). split; [| ring].
  rewrite Rmult_comm, <- rsum_scale. apply rsum_ext. intros; ring.
Qed.

(** ** C55 *)
Lemma mv_output A x i : mv A x i = output A x i. Proof. reflexivity. Qed.
Lemma vcat_single (A Z : mat) i j : (i < m_n A)%nat -> m_at (vcat A Z) i j = m_at A i j.
Proof. intros I. unfold vcat. cbn [m_at]. destruct (Nat.ltb_spec i (m_n A)); [reflexivity | lia]. Qed.
Lemma cos_basis_single s freqs H i h : (i < m_n s)%nat -> (h < H)%nat -> m_at (cos_basis [s] freqs H) i h = cos (2 * PI * freqs 0%nat * (INR i * INR (S h))).
Proof.
  intros I Hh. unfold cos_basis. cbn [length blocks vcat_all fold_right]. rewrite vcat_single by exact I. cbn [pad_block cos_block m_at m_m].
  rewrite Nat.mul_0_l. destruct (Nat.leb_spec 0 h); [| lia]. destruct (Nat.ltb_spec h ((0 + 1) * H)); [| lia]. cbn [andb]. rewrite Nat.sub_0_r. reflexivity.
Qed.
Lemma sin_basis_single s freqs H i h : (i < m_n s)%nat -> (h < H)%nat -> m_at (sin_basis [s] freqs H) i h = sin (2 * PI * freqs 0%nat * (INR i * INR (S h))).
Proof.
  intros I Hh. unfold sin_basis. cbn [length blocks vcat_all fold_right]. rewrite vcat_single by exact I. cbn [pad_block sin_block m_at m_m].
  rewrite Nat.mul_0_l. destruct (Nat.leb_spec 0 h); [| lia]. destruct (Nat.ltb_spec h ((0 + 1) * H)); [| lia]. cbn [andb]. rewrite Nat.sub_0_r. reflexivity.
Qed.
Lemma mv_cos_single s freqs H x i : (i < m_n s)%nat -> mv (cos_basis [s] freqs H) x i = rsum H (fun h => x h * cos (2 * PI * freqs 0%nat * (INR i * INR (S h)))).
Proof.
  intros I. unfold mv. replace (m_m (cos_basis [s] freqs H)) with H by (cbn; lia). apply rsum_ext. intros h Hh. rewrite cos_basis_single by assumption. ring.
Qed.
Lemma mv_sin_single s freqs H x i : (i < m_n s)%nat -> mv (sin_basis [s] freqs H) x i = rsum H (fun h => x h * sin (2 * PI * freqs 0%nat * (INR i * INR (S h)))).
Proof.
  intros I. unfold mv. replace (m_m (sin_basis [s] freqs H)) with H by (cbn; lia). apply rsum_ext. intros h Hh. rewrite sin_basis_single by assumption. ring.
Qed.
Lemma mv_offset_single s x i : (i < m_n s)%nat -> mv (offset_matrix [s]) x i = x 0%nat.
Proof. intros I. unfold mv, offset_matrix. cbn [length offset_rows vcat_all fold_right m_m]. cbn [rsum vcat m_m]. rewrite vcat_single by exact I. cbn. ring. Qed.
Lemma mv_stack_single s x i : (i < m_n s)%nat -> mv (stack [s]) x i = mv s x i.
Proof. intros I. unfold mv, stack. cbn [vcat_all fold_right]. change (m_m (vcat s (mkMat 0 (m_m s) (fun _ _ => 0)))) with (m_m s). apply rsum_ext. intros j J. rewrite vcat_single by exact I. reflexivity. Qed.
Lemma rsum_opp_eq n f g : (forall h, (h < n)%nat -> f h = - g h) -> rsum n f = - rsum n g.
Proof. intros E. rewrite (rsum_ext n f (fun h => -1 * g h)) by (intros h Hh; rewrite (E h Hh); ring). rewrite rsum_scale. ring. Qed.
Section Scaled.
  Context (bits sc : mat) (g : vec).
  Definition scaled_of : Prop := m_n sc = m_n bits /\ m_m sc = m_m bits /\ forall i j, (i < m_n bits)%nat -> (j < m_m bits)%nat -> m_at sc i j = m_at bits i j * g j /\ g j <> 0.
  Lemma scaled_output x i : scaled_of -> (i < m_n bits)%nat -> mv sc x i = output bits (fun j => g j * x j) i.
  Proof. intros (_ & M & E) I. unfold mv, output. rewrite M. apply rsum_ext. intros j J. destruct (E i j I J) as (-> & _). ring. Qed.
End Scaled.
Definition known_solution (m H : nat) (w g : vec) (off : R) (a b : vec) (x : vec) (choice : nat) : Prop :=
  let u := with_unity x (m + 1) in let q := fun h => x (m + 1 + (H - 1) + h)%nat in
  exists k, k <> 0 /\ (forall j, (j < m)%nat -> g j * x j = k * w j) /\ x m = - (k * off) /\
    ((choice = 0%nat /\ b 0%nat = 0 /\ - k * a 0%nat = 1 /\ (forall h, (h < H)%nat -> u h = - k * a h) /\ (forall h, (h < H)%nat -> q h = - k * b h)) \/
     (choice = 1%nat /\ - k * b 0%nat = 1 /\ (forall h, (h < H)%nat -> u h = - k * b h) /\ (forall h, (h < H)%nat -> q h = - k * a h))).
Lemma solver_known lstsq bits sc g H f w off a b freqs : least_squares lstsq -> scaled_of bits sc g -> (1 <= H)%nat -> (0 < m_n bits)%nat -> freqs 0%nat = f ->
  true_weights bits H f w off a b -> identifiable bits H f w off a b -> a 0%nat <> 0 \/ b 0%nat <> 0 ->
  let s := solve_known_freq lstsq [sc] freqs H in known_solution (m_m bits) H w g off a b (fst s) (snd s).
Proof.
  intros L SC H1 NP F T ID NZ s. pose proof SC as (SN & SM & SE).
  set (m := m_m bits) in *.
  set (v0 := fun j => if (j <? m)%nat then w j / g j else - off).
  assert (EM : m_m (extra_block (stack [sc]) (offset_matrix [sc]) None) = (m + 1)%nat) by (cbn; rewrite SM; reflexivity).
  assert (CN : m_n (stack [sc]) = m_n bits) by (cbn; rewrite SN; lia).
  assert (CM : m_m (cos_basis [sc] freqs H) = H) by (cbn; lia).
  assert (SMM : m_m (sin_basis [sc] freqs H) = H) by (cbn; lia).
  assert (EV : forall v i, (i < m_n bits)%nat -> mv (extra_block (stack [sc]) (offset_matrix [sc]) None) v i = output bits (fun j => g j * v j) i + v m).
  { intros v i I. unfold extra_block. rewrite mv_hcat, mv_stack_single, mv_offset_single by (rewrite SN; exact I). rewrite (scaled_output bits sc g _ _ SC I).
    f_equal. f_equal. cbn. rewrite SM. unfold m. lia. }
  assert (G : forall j, (j < m)%nat -> g j <> 0) by (intros j J; apply (SE 0%nat j NP J)).
  pose proof (dual_basis_recovers lstsq (stack [sc]) (cos_basis [sc] freqs H) (sin_basis [sc] freqs H) (offset_matrix [sc]) None v0 (fun h => - a h) (fun h => - b h)) as P.
  cbv zeta in P. rewrite EM, CM, SMM in P. unfold s, solve_known_freq.
  destruct (dual_basis_lstsq lstsq (stack [sc]) (cos_basis [sc] freqs H) (sin_basis [sc] freqs H) (offset_matrix [sc]) None) as [x choice]. cbn [fst snd].
  destruct P as (k & X & C).
  - exact L. - exact H1. - reflexivity. - destruct NZ; [left | right]; lra.
  - intros i I. rewrite CN in I. rewrite EV, mv_cos_single, mv_sin_single by (rewrite ?SN; exact I). rewrite F.
    rewrite (rsum_opp_eq H (fun h => - a h * cos (2 * PI * f * (INR i * INR (S h)))) (fun h => a h * cos (2 * PI * f * (INR i * INR (S h))))) by (intros; ring).
    rewrite (rsum_opp_eq H (fun h => - b h * sin (2 * PI * f * (INR i * INR (S h)))) (fun h => b h * sin (2 * PI * f * (INR i * INR (S h))))) by (intros; ring).
    pose proof (T i I) as TT. unfold tone in TT.
    replace (output bits (fun j => g j * v0 j) i) with (output bits w i).
    { rewrite TT. unfold v0. rewrite Nat.ltb_irrefl. ring. }
    unfold output. apply rsum_ext. intros j J. unfold v0. fold m in J. destruct (Nat.ltb_spec j m); [| lia]. field. apply G. exact J.
  - intros v c s' Z. rewrite EM, CM, SMM.
    destruct (ID (fun j => g j * v j) (- v m) (fun h => - c h) (fun h => - s' h)) as (k & U & O & C & S).
    { intros t I. assert (I' : (t < m_n (extra_block (stack [sc]) (offset_matrix [sc]) None))%nat) by (cbn; rewrite SN; lia).
      specialize (Z t I'). rewrite EV, mv_cos_single, mv_sin_single in Z by (rewrite ?SN; exact I). rewrite F in Z. unfold tone.
      rewrite (rsum_opp_eq H (fun h => - c h * cos (2 * PI * f * (INR t * INR (S h)))) (fun h => c h * cos (2 * PI * f * (INR t * INR (S h))))) by (intros; ring).
      rewrite (rsum_opp_eq H (fun h => - s' h * sin (2 * PI * f * (INR t * INR (S h)))) (fun h => s' h * sin (2 * PI * f * (INR t * INR (S h))))) by (intros; ring). lra. }
    exists k. repeat split.
    + intros j J. unfold v0. destruct (Nat.ltb_spec j m) as [Y | Y].
      * specialize (U j Y). cbn beta in U. pose proof (G j Y). apply (Rmult_eq_reg_l (g j)); [| assumption]. rewrite U. field. assumption.
      * replace j with m by lia. lra.
    + intros h Hh. specialize (C h Hh). cbn beta in C. lra.
    + intros h Hh. specialize (S h Hh). cbn beta in S. lra.
  - exists k. assert (K0 : k <> 0) by (intros ->; destruct C as [(_ & _ & C & _) | (_ & C & _)]; lra).
    split; [exact K0 |]. split; [| split].
    + intros j J. rewrite X by lia. unfold v0. destruct (Nat.ltb_spec j m); [| lia]. field. apply G. exact J.
    + rewrite X by lia. unfold v0. rewrite Nat.ltb_irrefl. ring.
    + destruct C as [(C0 & C1 & C2 & C3 & C4) | (C0 & C2 & C3 & C4)]; [left | right]; repeat split; try assumption; try lra.
      * intros h Hh. rewrite C3 by exact Hh. ring. * intros h Hh. rewrite C4 by exact Hh. ring.
      * intros h Hh. rewrite C3 by exact Hh. ring. * intros h Hh. rewrite C4 by exact Hh. ring.
Qed.
(** Preparation and patching of one full-rank data set. *)
Lemma identifiable_independent bits H f w off a b : (1 <= H)%nat -> a 0%nat <> 0 \/ b 0%nat <> 0 -> identifiable bits H f w off a b -> independent (hcat (stack [bits]) (ones (m_n (stack [bits])))).
Proof.
  intros H1 NZ ID x Z. set (m := m_m bits) in *.
  destruct (ID x (- x m) (fun _ => 0) (fun _ => 0)) as (k & U & O & C & S).
  - intros t I. assert (I' : (t < m_n (hcat (stack [bits]) (ones (m_n (stack [bits])))))%nat) by (cbn; lia).
    specialize (Z t I'). change (mv (hcat (stack [bits]) (ones (m_n (stack [bits])))) x t = 0) in Z. rewrite mv_hcat, mv_stack_single in Z by exact I.
    unfold tone. rewrite (rsum_zero H), (rsum_zero H) by (intros; ring). rewrite mv_output in Z.
    replace (mv (ones (m_n (stack [bits]))) (fun j => x (m_m (stack [bits]) + j)%nat) t) with (x m) in Z; [lra |].
    unfold mv. cbn. fold m. rewrite Nat.add_0_r. ring.
  - assert (k = 0).
    { specialize (C 0%nat ltac:(lia)). specialize (S 0%nat ltac:(lia)). cbn beta in C, S. symmetry in C, S. apply Rmult_integral in C. apply Rmult_integral in S. tauto. }
    subst k. intros j J. cbn in J. fold m in J. destruct (Nat.lt_ge_cases j m) as [Y | Y]. { rewrite (U j Y). ring. } replace j with m by lia. lra.
Qed.
Lemma prepare_single bits nominal : (0 < m_m bits <= m_n bits)%nat -> nominal_ok (m_m bits) nominal -> exists nw, prepare_input [bits] nominal = Ok ([bits], m_m bits, nw).
Proof.
  intros M NO. unfold prepare_input, prepare_loop, raise_if. destruct (Nat.eqb_spec (m_n bits * m_m bits) 0) as [Z | _]; [apply Nat.eq_mul_0 in Z; lia |].
  destruct (Nat.ltb_spec (m_n bits) (m_m bits)); [lia |]. cbn [bind]. unfold setup_nominal_weights. destruct nominal as [l |]; cbn in NO.
  - rewrite NO, Nat.eqb_refl. cbn. eexists. reflexivity. - cbn. eexists. reflexivity.
Qed.
Definition scaled_single (bits : mat) : mat := rows_from 0 (m_n bits) (scale_columns (of_cols (m_n (stack [bits])) (map (colm (stack [bits])) (seq 0 (m_m bits))))).
Definition eff_single (bits : mat) : mat := of_cols (m_n (stack [bits])) (map (colm (stack [bits])) (seq 0 (m_m bits))).
Lemma scaled_single_of bits : scaled_of bits (scaled_single bits) (fun j => powerRZ 10 (- bit_scales (eff_single bits) j)).
Proof.
  split; [reflexivity |]. split; [cbn; rewrite map_length, seq_length; reflexivity |]. intros i j I J.
  split; [| pose proof (powerRZ_10_pos (- bit_scales (eff_single bits) j)); lra].
  unfold scaled_single. cbn [rows_from m_at]. rewrite Nat.add_0_l. fold (eff_single bits). unfold scale_columns. cbn [m_at]. fold (bit_scales (eff_single bits)). f_equal.
  cbn [eff_single of_cols m_at]. rewrite (nth_indep _ zvec (colm (stack [bits]) 0%nat)) by (rewrite map_length, seq_length; exact J). rewrite map_nth, seq_nth by exact J. cbn [Nat.add]. unfold colm, stack. cbn [vcat_all fold_right]. apply vcat_single. exact I.
Qed.
Lemma patch_single rank bits nw : rank_correct rank -> independent (hcat (stack [bits]) (ones (m_n (stack [bits])))) ->
  patch_rank_deficiency rank (stack [bits]) nw = mkPatch (map (colm (stack [bits])) (seq 0 (m_m bits))) (seq 0 (m_m bits)) (map Some (seq 0 (m_m bits))) (repeat 1 (m_m bits)).
Proof.
  intros (RK & _) I. unfold patch_rank_deficiency. apply RK in I.
  destruct (Nat.leb_spec (m_m (stack [bits]) + 1) (rank (hcat (stack [bits]) (ones (m_n (stack [bits])))))) as [_ | Y]; [reflexivity |]. cbn in I, Y. lia.
Qed.
Lemma recover_identity n m w (eff : nat -> vec) : (0 < m)%nat -> n = m -> exists w', recover_rank_deficiency w (mkPatch (map eff (seq 0 n)) (seq 0 m) (map Some (seq 0 m)) (repeat 1 m)) = Ok w' /\ forall j, (j < m)%nat -> w' j = w j.
Proof.
  intros M ->. unfold recover_rank_deficiency, raise_if. cbn [p_eff p_map p_ratio]. rewrite map_length, seq_length. destruct (Nat.eqb_spec m 0); [lia |]. cbn [andb].
  eexists. split; [reflexivity |]. intros j J. cbv beta. rewrite (nth_indep (map Some _) None (Some 0%nat)) by (rewrite map_length, seq_length; exact J). rewrite map_nth, seq_nth by exact J.
  rewrite (nth_indep (repeat 1 _) 0 1) by (rewrite repeat_length; exact J). rewrite nth_repeat. cbn. ring.
Qed.
Lemma freq_is_facts f x est : freq_is f x -> x <> 0 -> x <= 1 / 2 ->
  existsb (fun y => Rltb (1 / 2) y) (freq_list f) = false /\ all_zero f = false /\ exists fr, estimate_frequencies est 1 f = Ok fr /\ fr 0%nat = x.
Proof.
  intros FI X0 X. assert (L : freq_list f = [x]) by (destruct FI as [-> | ->]; reflexivity).
  assert (AZ : all_zero f = false). { unfold all_zero. rewrite L. cbn. destruct (Reqb_spec x 0); [contradiction | reflexivity]. }
  split; [| split; [exact AZ |]].
  - rewrite L. cbn. destruct (Rltb_spec (1 / 2) x); [lra | reflexivity].
  - unfold estimate_frequencies. rewrite AZ. destruct FI as [-> | ->]; cbn; eexists; (split; [reflexivity |]); reflexivity.
Qed.
(** The calibration of one data set at a known frequency recovers weights, offset and tone, all
    divided by the amplitude of the fundamental, with the sign that makes the sum of the weights
    non-negative; the residual is zero. *)
Lemma c55_recovers lstsq rank est bits freq f fs nominal H lr reltol max_iter w off a b :
  least_squares lstsq -> rank_correct rank -> freq_is freq f -> f <> 0 -> f <= 1 / 2 -> fs = None \/ fs = Some false ->
  (0 < m_m bits <= m_n bits)%nat -> nominal_ok (m_m bits) nominal -> (1 <= H)%nat ->
  true_weights bits H f w off a b -> identifiable bits H f w off a b -> a 0%nat <> 0 \/ b 0%nat <> 0 ->
  exists r d s, calibrate_weight_sine lstsq rank est [bits] freq fs nominal H lr reltol max_iter = Ok r /\ r_sets r = [d] /\ r_freqs r 0%nat = f /\
    (s = 1 \/ s = -1) /\ (0 < rsum (m_m bits) w -> s = 1) /\ (rsum (m_m bits) w < 0 -> s = -1) /\
    (forall j, (j < m_m bits)%nat -> r_weight r j = s * w j / amplitude (a 0%nat) (b 0%nat)) /\
    r_offset r = s * off / amplitude (a 0%nat) (b 0%nat) /\
    (forall t, (t < m_n bits)%nat -> r_calibrated d t = s * tone H off a b f t / amplitude (a 0%nat) (b 0%nat) /\
                                     r_ideal d t = s * tone H 0 a b f t / amplitude (a 0%nat) (b 0%nat) /\ r_error d t = 0) /\
    r_sndr d = Fin 200.
Proof.
  intros L RC FI F0 F FS M NO H1 T ID NZ.
  destruct (freq_is_facts freq f est FI F0 F) as (G1 & G2 & fr & G3 & G4).
  destruct (prepare_single bits nominal M NO) as (nw & PR).
  unfold calibrate_weight_sine. unfold raise_if at 1. rewrite G1. rewrite PR. cbn [bind]. cbv beta iota.
  change (length [bits]) with 1%nat. rewrite (patch_single rank bits nw RC (identifiable_independent bits H f w off a b H1 NZ ID)). rewrite G3. cbn [bind p_eff].
  assert (SF : ((match fs with None => all_zero freq | Some b0 => b0 end) || existsb (fun k => Reqb (fr k) 0) (seq 0 1))%bool = false).
  { rewrite G2. cbn. rewrite G4. destruct (Reqb_spec f 0); [contradiction |]. destruct FS as [-> | ->]; reflexivity. }
  rewrite SF. clear SF. cbv zeta. cbn [map split_rows]. fold (eff_single bits). change (rows_from 0 (m_n bits) (scale_columns (eff_single bits))) with (scaled_single bits).
  set (sol := solve_known_freq lstsq [scaled_single bits] fr H).
  pose proof (solver_known lstsq bits (scaled_single bits) _ H f w off a b fr L (scaled_single_of bits) H1 ltac:(lia) G4 T ID NZ) as KS. cbv zeta in KS. fold sol in KS.
  destruct sol as [x choice]. cbn [fst snd] in *.
  rewrite map_length, seq_length. set (m := m_m bits) in *.
  set (g := fun j => powerRZ 10 (- bit_scales (eff_single bits) j)) in *.
  destruct KS as (k & K0 & KW & KO & KC).
  set (A0 := amplitude (a 0%nat) (b 0%nat)). assert (AP : 0 < A0) by (apply amplitude_pos; exact NZ).
  assert (AK : Rabs k <> 0) by (apply Rabs_no_R0; exact K0).
  set (q := fun h => x (m + 1 + (H - 1) + h)%nat) in *.
  replace (x (m + 1 * H)%nat) with (q 0%nat) by (unfold q; f_equal; lia).
  assert (NF : sqrt (1 + q 0%nat ^ 2) = Rabs k * A0).
  { unfold A0, q. cbv beta. destruct KC as [(_ & _ & E & _ & Q) | (_ & E & _ & Q)]; rewrite (Q 0%nat) by lia; rewrite (norm_is_amplitude _ _ _ E), Rabs_Ropp; [reflexivity |].
    f_equal. unfold amplitude. f_equal. ring. }
  rewrite NF.
  destruct (recover_identity m m (recover_columns x (Rabs k * A0) (bit_scales (eff_single bits))) (colm (stack [bits])) ltac:(lia) eq_refl) as (w' & RW & EW).
  rewrite RW. cbn [bind].
  assert (W' : forall j, (j < m)%nat -> w' j = k / Rabs k * w j / A0).
  { intros j J. rewrite (EW j J). unfold recover_columns. fold (g j). replace (x j / (Rabs k * A0) * g j) with ((g j * x j) / (Rabs k * A0)) by (field; split; lra). rewrite (KW j J). field. split; lra. }
  destruct (polarity m w' w A0 (k / Rabs k) AP (sign_of k K0) W') as (P1 & P2 & P3 & _). cbv zeta in P1, P2, P3.
  set (pol := if Rltb (rsum m w') 0 then -1 else 1) in *.
  eexists. eexists. exists (k / Rabs k * pol). split; [reflexivity |].
  unfold post_process. cbv zeta. cbn [r_sets r_weight r_offset r_freqs length post_sets map]. fold pol. split; [reflexivity |]. split; [exact G4 |].
  split; [exact P1 |]. split; [exact P2 |]. split; [exact P3 |].
  split. { intros j J. rewrite (W' j J). field. split; lra. }
  split. { rewrite KO. field. split; lra. }
  cbn [r_calibrated r_ideal r_error r_sndr].
  set (ref := reconstruct_sine x 0 H 1 (m + 1) choice (cols_from (0 * H) H (rows_from 0 (m_n bits) (cos_basis [bits] fr H))) (cols_from (0 * H) H (rows_from 0 (m_n bits) (sin_basis [bits] fr H))) (Rabs k * A0)).
  assert (REF : forall t, (t < m_n bits)%nat -> ref t = k / Rabs k * tone H 0 a b f t / A0).
  { intros t Ht. unfold ref, reconstruct_sine. cbv zeta.
    assert (FIRST : forall h, match h with O => 1 | S h' => x (m + 1 + 0 * (H - 1) + h')%nat end = with_unity x (m + 1) h).
    { intros [| h]; [reflexivity |]. cbn. f_equal. lia. }
    assert (SECOND : forall h, x (m + 1 + (1 * H - 1) + 0 * H + h)%nat = q h) by (intros h; unfold q; f_equal; lia).
    assert (CC : forall h, (h < H)%nat -> (if (choice =? 0)%nat then fun h => match h with O => 1 | S h' => x (m + 1 + 0 * (H - 1) + h')%nat end else fun h => x (m + 1 + (1 * H - 1) + 0 * H + h)%nat) h = - k * a h).
    { intros h Hh. destruct KC as [(-> & _ & _ & U & _) | (-> & _ & _ & Q)]; cbn [Nat.eqb]; [rewrite FIRST; apply U | rewrite SECOND; apply Q]; exact Hh. }
    assert (CS : forall h, (h < H)%nat -> (if (choice =? 0)%nat then fun h => x (m + 1 + (1 * H - 1) + 0 * H + h)%nat else fun h => match h with O => 1 | S h' => x (m + 1 + 0 * (H - 1) + h')%nat end) h = - k * b h).
    { intros h Hh. destruct KC as [(-> & _ & _ & _ & Q) | (-> & _ & U & _)]; cbn [Nat.eqb]; [rewrite SECOND; apply Q | rewrite FIRST; apply U]; exact Hh. }
    unfold mv. cbn [cols_from rows_from m_m m_at]. rewrite !Nat.mul_0_l.
    rewrite (rsum_ext H (fun j => m_at (cos_basis [bits] fr H) (0 + t) (0 + j) * _ j) (fun h => - k * (a h * cos (2 * PI * f * (INR t * INR (S h)))))).
    2:{ intros h Hh. rewrite !Nat.add_0_l, cos_basis_single by assumption. rewrite G4. rewrite !Nat.mul_0_l in CC. rewrite (CC h Hh). ring. }
    rewrite (rsum_ext H (fun j => m_at (sin_basis [bits] fr H) (0 + t) (0 + j) * _ j) (fun h => - k * (b h * sin (2 * PI * f * (INR t * INR (S h)))))).
    2:{ intros h Hh. rewrite !Nat.add_0_l, sin_basis_single by assumption. rewrite G4. rewrite !Nat.mul_0_l in CS. rewrite (CS h Hh). ring. }
    rewrite !rsum_scale. unfold tone. field. split; lra. }
  assert (SIG : forall t, (t < m_n bits)%nat -> mv bits w' t = k / Rabs k * tone H off a b f t / A0).
  { intros t Ht. rewrite <- (T t Ht). unfold mv, output. rewrite (rsum_ext _ _ (fun j => k / Rabs k / A0 * (m_at bits t j * w j))). { rewrite rsum_scale. field. split; lra. }
    intros j J. rewrite (W' j J). field. split; lra. }
  assert (ERR : forall t, (t < m_n bits)%nat -> mv bits w' t - - x m / (Rabs k * A0) - ref t = 0).
  { intros t Ht. rewrite (SIG t Ht), (REF t Ht), KO. unfold tone. field. split; lra. }
  split.
  - intros t Ht. rewrite (SIG t Ht), (REF t Ht). split; [field; split; lra |]. split; [field; split; lra |].
    rewrite <- (REF t Ht), <- (SIG t Ht). rewrite (ERR t Ht). ring.
  - unfold sndr_db. replace (vmean (m_n bits) (fun i => (mv bits w' i - - x m / (Rabs k * A0) - ref i) ^ 2)) with 0.
    { destruct (Rltb_spec 0 0); [lra | reflexivity]. }
    unfold vmean. rewrite rsum_zero; [unfold Rdiv; ring |]. intros i I. rewrite (ERR i I). ring.
Qed.
