(** * Proofs about the MATLAB polar plots. *)
From Coq Require Import Lia Lra Psatz Permutation Sorting.
From Verif Require Import Base BaseLemmas Cplx FreqModel FreqSpec FreqProofs UnitsModel UnitsSpec UnitsProofs TiModel TiSpec TiProofs TiToneProofs SpecModel SpecSpec SpecLemmas SpecProofs SpecMetricProofs SpecPrepProofs SpecToneSpec SpecToneProofs SpecReportSpec SpecReportProofs CalModel CalSpec CalProofs CalExLemmas FitModel FitSpec FitProofs HarmModel HarmSpec HarmProofs PlotModel PlotSpec PlotProofs MatModel MatProofs CohModel CohSpec CohLemmas CohProofs DoutModel DoutSpec DoutProofs AcfProofs MsinModel MsinProofs MspecModel MspecSpec MspecProofs MspecCohProofs MphaseModel MphaseSpec.
Local Open Scope R_scope.

Lemma Zfloor_bounds x : IZR (Zfloor x) <= x < IZR (Zfloor x) + 1.
Proof. split; [apply Zfloor_lb | apply Zfloor_ub]. Qed.
Lemma Zceil_bounds x : IZR (Zceil x) - 1 < x <= IZR (Zceil x).
Proof. split; [pose proof (Zceil_lb x); lra | apply Zceil_ub]. Qed.
(** ** C190: the harmonics by least squares *)
Lemma p_mv n f H (W : vec) t : mv (p_basis n f H) W t = rsum H (fun h => W h * cos (INR (S h) * (2 * PI * f * INR t)) + W (h + H)%nat * sin (INR (S h) * (2 * PI * f * INR t))).
Proof.
  unfold mv. cbn [m_m m_at p_basis]. replace (2 * H)%nat with (H + H)%nat by lia. rewrite rsum_app, <- rsum_plus. apply rsum_ext. intros h Hh. unfold p_basis. cbn [m_at].
  destruct (Nat.ltb_spec h H); [|lia]. destruct (Nat.ltb_spec (H + h) H); [lia|]. replace (H + h - H + 1)%nat with (S h) by lia. replace (h + 1)%nat with (S h) by lia. rewrite (Nat.add_comm H h).
  replace (INR t * f * INR (S h) * 2 * PI) with (INR (S h) * (2 * PI * f * INR t)) by ring. ring.
Qed.
Lemma p_at n f H t h : (h < H)%nat -> m_at (p_basis n f H) t h = cos (INR (S h) * (2 * PI * f * INR t)) /\ m_at (p_basis n f H) t (h + H) = sin (INR (S h) * (2 * PI * f * INR t)).
Proof.
  intros Hh. unfold p_basis. cbn [m_at]. destruct (Nat.ltb_spec h H); [|lia]. destruct (Nat.ltb_spec (h + H) H); [lia|]. replace (h + H - H + 1)%nat with (S h) by lia. replace (h + 1)%nat with (S h) by lia.
  split; f_equal; ring.
Qed.
(** A least-squares solution with independent columns is the one whose residual is orthogonal to them. *)
Lemma solve_unique lin A b x : least_squares lin -> independent A -> (forall j, (j < m_m A)%nat -> rsum (m_n A) (fun i => (b i - mv A x i) * m_at A i j) = 0) ->
  forall j, (j < m_m A)%nat -> lin A b j = x j.
Proof.
  intros L IND OR. set (v := lin A b). assert (MIN : minimises A b v) by (apply ls_minimises, L).
  set (d := fun j => v j - x j). assert (MD : forall i, mv A d i = mv A v i - mv A x i) by (intros i; unfold mv, d; rewrite <- rsum_minus; apply rsum_ext; intros; ring).
  assert (OD : forall j, (j < m_m A)%nat -> rsum (m_n A) (fun i => mv A d i * m_at A i j) = 0).
  { intros j J. pose proof (normal_equations A b v j MIN J) as E1. pose proof (OR j J) as E2. rewrite (rsum_ext _ _ (fun i => (b i - mv A x i) * m_at A i j - (b i - mv A v i) * m_at A i j)) by (intros i _; rewrite MD; ring).
    rewrite rsum_minus, E2. unfold mv at 1. rewrite E1. ring. }
  assert (SQ : rsum (m_n A) (fun i => mv A d i ^ 2) = 0).
  { rewrite (rsum_ext _ _ (fun i => rsum (m_m A) (fun j => d j * (mv A d i * m_at A i j)))).
    - rewrite rsum_swap. apply rsum_zero. intros j J. rewrite rsum_scale, OD by exact J. ring.
    - intros i _. replace (mv A d i ^ 2) with (mv A d i * rsum (m_m A) (fun j => m_at A i j * d j)) by (unfold mv; ring). rewrite <- rsum_scale. apply rsum_ext. intros; ring. }
  assert (Z : forall i, (i < m_n A)%nat -> mv A d i = 0).
  { intros i Hi. pose proof (rsum_nonneg_zero (m_n A) (fun i => mv A d i ^ 2) (fun i _ => pow2_ge_0 _) (Req_le _ _ SQ) i Hi) as E. cbv beta in E. destruct (Req_dec (mv A d i) 0) as [X|X]; [exact X|]. exfalso. pose proof (Rsqr_pos_lt _ X) as Y. unfold Rsqr in Y. nra. }
  intros j J. pose proof (IND d (fun i Hi => Z i Hi) j J) as E. unfold d in E. lra.
Qed.

Definition p_sol (lin : lstsq_fun) (y : list R) (freq : R) (H : nat) : vec := lin (p_basis (length y) freq H) (fun i => nth i y 0).
Definition p_coef (lin : lstsq_fun) (y : list R) (freq : R) (H h : nat) : C := (p_sol lin y freq H h, p_sol lin y freq H (h + H)%nat).
Lemma coef_part c th : fst c * cos th + snd c * sin th = Cmod c * cos (th + - Carg c).
Proof. rewrite cos_plus, cos_neg, sin_neg. rewrite (polar c) at 1 2. unfold Cscale, cis. cbn [fst snd]. ring. Qed.
Lemma p_mv_distorted lin y f H t : mv (p_basis (length y) f H) (p_sol lin y f H) t =
  distorted H 0 (fun h => Cmod (p_coef lin y f H h)) (fun h => - Carg (p_coef lin y f H h)) f t.
Proof. rewrite p_mv. unfold distorted. rewrite Rplus_0_l. apply rsum_ext. intros h _. exact (coef_part (p_coef lin y f H h) _). Qed.
Lemma same_angle_wrap x : same_angle (wrap_phase x) x.
Proof. unfold wrap_phase, same_angle. exists (- Zfloor ((x + PI) / (2 * PI)))%Z. rewrite opp_IZR. ring. Qed.
Lemma lms_inv lin y f nh osr w g : p_lms_at lin y f nh osr w = Ok g ->
  let H := Z.to_nat nh in let c := p_coef lin y f H in (0 < nh)%Z /\
  pl_mag g = map (fun h => Cmod (c h) * 2) (seq 0 H) /\ pl_phase g = map (fun h => wrap_phase (Carg (c h) - Carg (c 0%nat) * INR (h + 1))) (seq 0 H) /\
  (exists res, p_inband osr w (left_over y H (fun h => Cmod (c h)) (fun h => - Carg (c h)) f) = Ok res /\ pl_noise g = sqrt (lmean (map (fun x => x ^ 2) res)) * 2 * sqrt 2) /\
  pl_noise g <> 0 /\ (forall m, In m (pl_mag g) -> m <> 0) /\
  let db := map p_db (pl_mag g) in let maxk := Zceil (lmax1 (hd 0 db) db / 10) in let mink := Zfloor ((Rmin (lmin1 (hd 0 db) db) (p_db (pl_noise g)) - 10) / 10) in let base := IZR mink * 10 in
  g = mkPlms (pl_mag g) (pl_phase g) (pl_noise g) (combine (pl_phase g) (map (fun x => x - base) db)) (p_db (pl_noise g) - base) (fixed 1 (p_db (pl_noise g)))
             (map (fun i => (10 * INR i, (10 * (mink + Z.of_nat i))%Z)) (seq 0 (Z.to_nat (maxk - mink + 1)))) (IZR maxk * 10 - base).
Proof.
  intros E H c. unfold p_lms_at in E. destruct (Z.leb_spec nh 0) as [|NH]; cbn [raise_if] in E; [discriminate|]. cbv zeta in E. fold H in E.
  change (lin (p_basis (length y) f H) (fun i => nth i y 0)) with (p_sol lin y f H) in E.
  assert (RES : map2 Rminus y (map (mv (p_basis (length y) f H) (p_sol lin y f H)) (seq 0 (length y))) = left_over y H (fun h => Cmod (c h)) (fun h => - Carg (c h)) f).
  { apply (nth_ext _ _ 0 0); unfold left_over; rewrite ?map2_length, ?map_length, ?seq_length by (rewrite map_length, seq_length; reflexivity); [reflexivity|]. intros t T. rewrite nth_map2 by (rewrite ?map_length, ?seq_length; exact T).
    rewrite !(nth_map_in _ _ _ 0%nat) by (rewrite seq_length; exact T). rewrite seq_nth by exact T. cbn [Nat.add]. rewrite p_mv_distorted. reflexivity. }
  rewrite RES in E. destruct (p_inband osr w _) as [res|e] eqn:EB; cbn [bind] in E; [|discriminate].
  change (fun h => Cmod (p_sol lin y f H h, p_sol lin y f H (h + H)%nat) * 2) with (fun h => Cmod (c h) * 2) in E.
  change (fun h => wrap_phase (Carg (p_sol lin y f H h, p_sol lin y f H (h + H)%nat) - Carg (p_sol lin y f H 0%nat, p_sol lin y f H (0 + H)%nat) * INR (h + 1))) with (fun h => wrap_phase (Carg (c h) - Carg (c 0%nat) * INR (h + 1))) in E.
  destruct (Reqb_spec (sqrt (lmean (map (fun x => x ^ 2) res)) * 2 * sqrt 2) 0) as [|NN]; cbn [orb raise_if] in E; [discriminate|].
  destruct (existsb (fun m => Reqb m 0) (map (fun h => Cmod (c h) * 2) (seq 0 H))) eqn:EX; cbn [raise_if] in E; [discriminate|].
  apply Ok_inj in E. subst g. cbn [pl_mag pl_phase pl_noise]. split; [exact NH|]. split; [reflexivity|]. split; [reflexivity|]. split; [exists res; split; [first [exact EB|reflexivity]|reflexivity]|]. split; [exact NN|]. split; [|reflexivity].
  intros m Hm Z. apply not_true_iff_false in EX. apply EX. apply existsb_exists. exists m. split; [exact Hm|]. destruct (Reqb_spec m 0); [reflexivity|contradiction].
Qed.
(** The plotted values are a least-squares solution: magnitudes twice the amplitudes and angles the phases (clockwise, relative to the
    fundamental) of harmonics whose residual is the smallest possible; without oversampling that residual is the noise, times 2 sqrt 2. *)
Lemma c190_best lin y f nh osr w g : least_squares lin -> osr <= 1 -> p_lms_at lin y f nh osr w = Ok g -> let H := Z.to_nat nh in
  exists A ph, length (pl_mag g) = H /\ length (pl_phase g) = H /\
  (forall h, (h < H)%nat -> 0 <= A h /\ nth h (pl_mag g) 0 = 2 * A h /\ same_angle (nth h (pl_phase g) 0) (- (ph h - INR (S h) * ph 0%nat)) /\ - PI <= nth h (pl_phase g) 0 < PI) /\
  pl_noise g = 2 * sqrt 2 * rms_of (left_over y H A ph f) /\
  forall B th, rms_of (left_over y H A ph f) <= rms_of (left_over y H B th f).
Proof.
  intros L O E H. destruct (lms_inv _ _ _ _ _ _ _ E) as (NH & M & P & (res & RB & RN) & _). fold H in M, P, RB. set (c := p_coef lin y f H) in *.
  exists (fun h => Cmod (c h)), (fun h => - Carg (c h)). rewrite M, P, !map_length, seq_length. split; [reflexivity|]. split; [reflexivity|].
  split; [|split].
  - intros h Hh. rewrite !(nth_map_in _ _ _ 0%nat) by (rewrite seq_length; exact Hh). rewrite seq_nth by exact Hh. cbn [Nat.add]. split; [apply Cmod_nonneg|]. split; [ring|]. split.
    + replace (- (- Carg (c h) - INR (S h) * - Carg (c 0%nat))) with (Carg (c h) - Carg (c 0%nat) * INR (h + 1)) by (replace (h + 1)%nat with (S h) by lia; ring). apply same_angle_wrap.
    + unfold wrap_phase. pose proof PI_RGT_0. set (v := Carg (c h) - Carg (c 0%nat) * INR (h + 1) + PI). destruct (Zfloor_bounds (v / (2 * PI))) as [F1 F2].
      assert (2 * PI * IZR (Zfloor (v / (2 * PI))) <= v). { replace v with (2 * PI * (v / (2 * PI))) at 2 by (field; lra). apply Rmult_le_compat_l; [lra|exact F1]. }
      assert (v < 2 * PI * (IZR (Zfloor (v / (2 * PI))) + 1)). { replace v with (2 * PI * (v / (2 * PI))) at 1 by (field; lra). apply Rmult_lt_compat_l; [lra|exact F2]. }
      lra.
  - unfold p_inband in RB. destruct (Rltb_spec 1 osr); [lra|]. apply Ok_inj in RB. subst res. rewrite RN. unfold rms_of. rewrite lmean_rsum, map_length. rewrite (rsum_ext _ _ (fun t => nth t (left_over y H (fun h => Cmod (c h)) (fun h => - Carg (c h)) f) 0 ^ 2)); [ring|].
    intros t T. rewrite (nth_map_in _ _ _ 0) by exact T. reflexivity.
  - intros B th. unfold rms_of. assert (LL : forall A0 p0, length (left_over y H A0 p0 f) = length y) by (intros; unfold left_over; rewrite map_length, seq_length; reflexivity). rewrite !LL. apply sqrt_le_1_alt. unfold Rdiv. apply Rmult_le_compat_r.
    { destruct (Nat.eq_dec (length y) 0) as [Z|Z]; [rewrite Z; cbn [INR]; rewrite Rinv_0; lra|]. left. apply Rinv_0_lt_compat, lt_0_INR. lia. }
    assert (NL : forall A0 p0 t, (t < length y)%nat -> nth t (left_over y H A0 p0 f) 0 = nth t y 0 - distorted H 0 A0 p0 f t).
    { intros A0 p0 t T. unfold left_over. rewrite (nth_map_in _ _ _ 0%nat) by (rewrite seq_length; exact T). rewrite seq_nth by exact T. reflexivity. }
    set (x := fun j => if (j <? H)%nat then B j * cos (th j) else - B (j - H)%nat * sin (th (j - H)%nat)).
    pose proof (L (p_basis (length y) f H) (fun i => nth i y 0) x) as Q. change (m_n (p_basis (length y) f H)) with (length y) in Q.
    rewrite (rsum_ext _ _ (fun i => (rsum (m_m (p_basis (length y) f H)) (fun j => m_at (p_basis (length y) f H) i j * lin (p_basis (length y) f H) (fun i => nth i y 0) j) - nth i y 0) ^ 2)).
    2:{ intros t T. rewrite NL by exact T. pose proof (p_mv_distorted lin y f H t) as PD. fold c in PD. rewrite <- PD. unfold mv, p_sol. ring. }
    eapply Rle_trans; [exact Q|]. apply Req_le, rsum_ext. intros t T. rewrite NL by exact T. change (rsum (m_m (p_basis (length y) f H)) (fun j => m_at (p_basis (length y) f H) t j * x j)) with (mv (p_basis (length y) f H) x t).
    rewrite p_mv. unfold distorted. rewrite Rplus_0_l. rewrite (rsum_ext H (fun h => x h * _ + _) (fun h => B h * cos (INR (S h) * (2 * PI * f * INR t) + th h))); [ring|].
    intros h Hh. unfold x. destruct (Nat.ltb_spec h H); [|lia]. destruct (Nat.ltb_spec (h + H) H); [lia|]. replace (h + H - H)%nat with h by lia. rewrite cos_plus. ring.
Qed.

Lemma lms_forward lin y f nh osr w : osr <= 1 -> (0 < nh)%Z -> let H := Z.to_nat nh in let c := p_coef lin y f H in
  let A := (fun h => Cmod (c h)) in let ph := (fun h => - Carg (c h)) in
  (0 < rms_of (left_over y H A ph f) -> (forall h, (h < H)%nat -> c h <> C0) -> exists g, p_lms_at lin y f nh osr w = Ok g) /\
  (rms_of (left_over y H A ph f) = 0 \/ (exists h, (h < H)%nat /\ c h = C0) -> p_lms_at lin y f nh osr w = Err RuntimeError).
Proof.
  intros O NH H c A ph. unfold p_lms_at. destruct (Z.leb_spec nh 0); [lia|]. cbn [raise_if]. cbv zeta. fold H.
  change (lin (p_basis (length y) f H) (fun i => nth i y 0)) with (p_sol lin y f H).
  assert (RES : map2 Rminus y (map (mv (p_basis (length y) f H) (p_sol lin y f H)) (seq 0 (length y))) = left_over y H A ph f).
  { apply (nth_ext _ _ 0 0); unfold left_over; rewrite ?map2_length, ?map_length, ?seq_length by (rewrite map_length, seq_length; reflexivity); [reflexivity|]. intros t T. rewrite nth_map2 by (rewrite ?map_length, ?seq_length; exact T).
    rewrite !(nth_map_in _ _ _ 0%nat) by (rewrite seq_length; exact T). rewrite seq_nth by exact T. cbn [Nat.add]. rewrite p_mv_distorted. reflexivity. }
  rewrite RES. unfold p_inband. destruct (Rltb_spec 1 osr); [lra|]. cbn [bind].
  change (fun h => Cmod (p_sol lin y f H h, p_sol lin y f H (h + H)%nat) * 2) with (fun h => Cmod (c h) * 2).
  set (E := left_over y H A ph f). assert (RM : sqrt (lmean (map (fun x => x ^ 2) E)) = rms_of E).
  { unfold rms_of. rewrite lmean_rsum, map_length. f_equal. f_equal. apply rsum_ext. intros t T. rewrite (nth_map_in _ _ _ 0) by exact T. reflexivity. }
  rewrite RM. assert (S2 : 0 < sqrt 2) by (apply sqrt_lt_R0; lra). split.
  - intros P NC. destruct (Reqb_spec (rms_of E * 2 * sqrt 2) 0) as [Z|]; [exfalso; nra|]. cbn [orb].
    destruct (existsb (fun m => Reqb m 0) (map (fun h => Cmod (c h) * 2) (seq 0 H))) eqn:EX; [|cbn [raise_if]; eexists; reflexivity].
    exfalso. apply existsb_exists in EX. destruct EX as (m & Hm & Z). destruct (Reqb_spec m 0) as [->|]; [|discriminate]. apply in_map_iff in Hm. destruct Hm as (h & Q & Hh). apply in_seq in Hh.
    apply (NC h); [lia|]. apply Cmod_eq_0. lra.
  - intros D. destruct (Reqb_spec (rms_of E * 2 * sqrt 2) 0) as [Z|NZ]; [reflexivity|]. cbn [orb]. destruct D as [D|(h & Hh & D)]; [exfalso; apply NZ; rewrite D; ring|].
    replace (existsb (fun m => Reqb m 0) (map (fun h => Cmod (c h) * 2) (seq 0 H))) with true; [reflexivity|]. symmetry. apply existsb_exists. exists (Cmod (c h) * 2). split; [apply in_map_iff; exists h; split; [reflexivity|apply in_seq; lia]|].
    rewrite D, Cmod_0. destruct (Reqb_spec (0 * 2) 0); [reflexivity|lra].
Qed.
Lemma lms_total lin y f nh osr w : osr <= 1 -> (exists g, p_lms_at lin y f nh osr w = Ok g) \/ p_lms_at lin y f nh osr w = Err RuntimeError.
Proof.
  intros O. unfold p_lms_at, p_inband. destruct (nh <=? 0)%Z; cbn [raise_if]; [right; reflexivity|]. destruct (Rltb_spec 1 osr); [lra|]. cbv zeta. cbn [bind]. match goal with |- context [raise_if ?b _ _] => destruct b end; cbn [raise_if]; [right; reflexivity|left; eexists; reflexivity].
Qed.
(** A record that consists of harmonics only cannot be drawn: the residual's level is minus infinity. *)
Lemma c190_perfect lin y f nh osr w A ph : least_squares lin -> osr <= 1 -> (forall t, (t < length y)%nat -> nth t y 0 = distorted (Z.to_nat nh) 0 A ph f t) ->
  p_lms_at lin y f nh osr w = Err RuntimeError.
Proof.
  intros L O REC. destruct (Z_le_gt_dec nh 0) as [N|N]; [unfold p_lms_at; destruct (Z.leb_spec nh 0); [reflexivity|lia]|].
  set (H := Z.to_nat nh) in *. destruct (lms_forward lin y f nh osr w O ltac:(lia)) as [F1 F2]. fold H in F1, F2. set (c := p_coef lin y f H) in *.
  assert (R0 : 0 <= rms_of (left_over y H (fun h => Cmod (c h)) (fun h => - Carg (c h)) f)) by apply sqrt_pos.
  destruct (Rle_lt_or_eq_dec _ _ R0) as [P|Z]; [|apply F2; left; symmetry; exact Z].
  destruct (p_lms_at lin y f nh osr w) as [g|e] eqn:E.
  - exfalso. destruct (c190_best _ _ _ _ _ _ _ L O E) as (B & th & _ & _ & _ & RN & MN). fold H in RN, MN. specialize (MN A ph).
    assert (Z : rms_of (left_over y H A ph f) = 0).
    { unfold rms_of, left_over. rewrite map_length, seq_length. rewrite rsum_zero; [unfold Rdiv; rewrite Rmult_0_l; apply sqrt_0|]. intros t T. rewrite (nth_map_in _ _ _ 0%nat) by (rewrite seq_length; exact T). rewrite seq_nth by exact T. cbn [Nat.add]. rewrite REC by exact T. ring. }
    rewrite Z in MN. destruct (lms_inv _ _ _ _ _ _ _ E) as (_ & _ & _ & _ & NN & _). apply NN. rewrite RN. assert (0 <= rms_of (left_over y H B th f)) by apply sqrt_pos. replace (rms_of (left_over y H B th f)) with 0 by lra. ring.
  - destruct (lms_total lin y f nh osr w O) as [(g & Eg)|Ee]; congruence.
Qed.
(** What the figure shows: angle and level of every harmonic and the level of the residual, measured from a multiple of 10 dB that lies at
    least 10 dB below all of them; the fundamental points upwards; the labels are the levels; the perimeter is the next multiple of 10 dB above the
    largest harmonic, and the circle of the residual is inside it exactly when its level is not above that. *)
Lemma c190_reading lin y f nh osr w g : p_lms_at lin y f nh osr w = Ok g -> let H := Z.to_nat nh in
  exists b : Z, let B := IZR b * 10 in let out := pl_limit g in
  (0 < H)%nat /\ length (pl_points g) = H /\ length (pl_mag g) = H /\ 0 < pl_noise g /\
  (forall h, (h < H)%nat -> 0 < nth h (pl_mag g) 0 /\ nth h (pl_points g) (0, 0) = (nth h (pl_phase g) 0, level_db (nth h (pl_mag g) 0) - B) /\ 10 <= level_db (nth h (pl_mag g) 0) - B <= out) /\
  fst (nth 0 (pl_points g) (0, 0)) = 0 /\
  pl_circle g = level_db (pl_noise g) - B /\ 10 <= pl_circle g /\ (pl_circle g < 20 \/ exists h, (h < H)%nat /\ snd (nth h (pl_points g) (0, 0)) < 20) /\
  says (pl_text g, Unit) (level_db (pl_noise g)) /\
  (forall rad lab, In (rad, lab) (pl_ticks g) -> IZR lab = B + rad) /\
  (forall rad, (exists lab, In (rad, lab) (pl_ticks g)) <-> exists j : nat, rad = 10 * INR j /\ rad <= out) /\
  (exists k : Z, out = IZR k * 10) /\ (exists h, (h < H)%nat /\ out < level_db (nth h (pl_mag g) 0) - B + 10).
Proof.
  intros E H. destruct (lms_inv _ _ _ _ _ _ _ E) as (NH & M & P & (res & _ & RN) & NN & NM & G). cbv zeta in G. fold H in M, P. set (db := map p_db (pl_mag g)) in *.
  set (maxk := Zceil (lmax1 (hd 0 db) db / 10)) in *. set (mink := Zfloor ((Rmin (lmin1 (hd 0 db) db) (p_db (pl_noise g)) - 10) / 10)) in *. exists mink. cbv zeta.
  assert (HP : (0 < H)%nat) by (unfold H; lia). assert (LM : length (pl_mag g) = H) by (rewrite M, map_length, seq_length; reflexivity). assert (LP : length (pl_phase g) = H) by (rewrite P, map_length, seq_length; reflexivity).
  assert (LD : length db = H) by (unfold db; rewrite map_length; exact LM). assert (ND : db <> []) by (intros Z; rewrite Z in LD; simpl in LD; lia).
  assert (DB : forall h, (h < H)%nat -> nth h db 0 = level_db (nth h (pl_mag g) 0)) by (intros h Hh; unfold db; rewrite (nth_map_in _ _ _ 0) by lia; reflexivity).
  assert (HD : forall v, In v (hd 0 db :: db) <-> In v db). { intros v. destruct db as [|a l]; [contradiction|]. cbn [hd In]. tauto. }
  destruct (lmax1_facts (hd 0 db) db) as [X1 X2]. destruct (lmin1_facts (hd 0 db) db) as [N1 N2]. apply HD in X1. apply HD in N1. set (hi := lmax1 (hd 0 db) db) in *. set (lo := lmin1 (hd 0 db) db) in *. set (nz := p_db (pl_noise g)) in *.
  destruct (Zfloor_bounds ((Rmin lo nz - 10) / 10)) as [F1 F2]. fold mink in F1, F2. destruct (Zceil_bounds (hi / 10)) as [C1 C2]. fold maxk in C1, C2.
  assert (GP : pl_points g = combine (pl_phase g) (map (fun x => x - IZR mink * 10) db)) by (rewrite G; reflexivity). assert (GL : pl_limit g = IZR maxk * 10 - IZR mink * 10) by (rewrite G; reflexivity).
  assert (GC : pl_circle g = nz - IZR mink * 10) by (rewrite G; reflexivity). assert (GX : pl_text g = fixed 1 nz) by (rewrite G; reflexivity).
  assert (GT : pl_ticks g = map (fun i => (10 * INR i, (10 * (mink + Z.of_nat i))%Z)) (seq 0 (Z.to_nat (maxk - mink + 1)))) by (rewrite G; reflexivity). clear G.
  assert (NP : 0 < pl_noise g). { assert (0 <= pl_noise g). { rewrite RN. assert (0 <= sqrt (lmean (map (fun x => x ^ 2) res))) by apply sqrt_pos. assert (0 <= sqrt 2) by apply sqrt_pos. nra. } lra. }
  assert (PT : forall h, (h < H)%nat -> nth h (pl_points g) (0, 0) = (nth h (pl_phase g) 0, level_db (nth h (pl_mag g) 0) - IZR mink * 10)).
  { intros h Hh. rewrite GP, combine_nth by (rewrite map_length; congruence). f_equal. rewrite (nth_map_in _ _ _ 0) by lia. rewrite DB by exact Hh. reflexivity. }
  assert (RG : forall h, (h < H)%nat -> lo <= level_db (nth h (pl_mag g) 0) <= hi).
  { intros h Hh. rewrite <- DB by exact Hh. assert (I : In (nth h db 0) db) by (apply nth_In; lia). split; [apply N2|apply X2]; apply HD, I. }
  pose proof (Rmin_l lo nz). pose proof (Rmin_r lo nz). assert (ML : IZR mink * 10 + 10 <= lo) by lra. assert (MN : IZR mink * 10 + 10 <= nz) by lra.
  split; [exact HP|]. split; [rewrite GP, combine_length, map_length; lia|]. split; [exact LM|]. split; [exact NP|]. split.
  { intros h Hh. split. { assert (I : In (nth h (pl_mag g) 0) (pl_mag g)) by (apply nth_In; lia). specialize (NM _ I). rewrite M in *. apply in_map_iff in I. destruct I as (q & Q & _). pose proof (Cmod_nonneg (p_coef lin y f H q)). lra. }
    split; [apply PT, Hh|]. destruct (RG h Hh). rewrite GL. lra. }
  split. { rewrite PT by exact HP. cbn [fst]. rewrite P. rewrite (nth_map_in _ _ _ 0%nat) by (rewrite seq_length; exact HP). rewrite seq_nth by exact HP. cbn [Nat.add INR]. unfold wrap_phase. pose proof PI_RGT_0.
    replace (Carg (p_coef lin y f H 0) - Carg (p_coef lin y f H 0) * 1 + PI) with PI by ring. replace (Zfloor (PI / (2 * PI))) with 0%Z; [lra|]. symmetry. apply Zfloor_imp. rewrite plus_IZR. replace (PI / (2 * PI)) with (1 / 2) by (field; lra). lra. }
  split; [exact GC|]. split; [rewrite GC; lra|]. split.
  { destruct (Rle_lt_dec nz lo) as [D|D].
    - left. rewrite GC. rewrite Rmin_right in F2 by exact D. lra.
    - right. apply (In_nth _ _ 0) in N1. destruct N1 as (h & Hh & Q). exists h. split; [lia|]. rewrite PT by lia. cbn [snd]. rewrite <- DB, Q by lia. rewrite Rmin_left in F2 by lra. lra. }
  split. { rewrite GX. replace nz with (nz / 1) by field. apply fixed_says. reflexivity. }
  assert (MM : (mink <= maxk)%Z). { apply le_IZR. destruct (RG 0%nat HP). lra. }
  split. { intros rad lab I. rewrite GT in I. apply in_map_iff in I. destruct I as (i & Q & _). apply pair_equal_spec in Q; destruct Q as [<- <-]. rewrite mult_IZR, plus_IZR, <- INR_IZR_INZ. ring. }
  split. { intros rad. rewrite GT, GL. split.
    - intros (lab & I). apply in_map_iff in I. destruct I as (i & Q & Hi). apply in_seq in Hi. apply pair_equal_spec in Q; destruct Q as [<- <-]. exists i. split; [reflexivity|]. assert (IZR (Z.of_nat i) <= IZR (maxk - mink)) by (apply IZR_le; lia). rewrite <- INR_IZR_INZ, minus_IZR in H2. lra.
    - intros (j & -> & Q). exists (10 * (mink + Z.of_nat j))%Z. apply in_map_iff. exists j. split; [reflexivity|]. apply in_seq. assert (IZR (Z.of_nat j) <= IZR (maxk - mink)) by (rewrite <- INR_IZR_INZ, minus_IZR; lra). apply le_IZR in H2. lia. }
  split; [exists (maxk - mink)%Z; rewrite GL, minus_IZR; ring|]. apply (In_nth _ _ 0) in X1. destruct X1 as (h & Hh & Q). exists h. split; [lia|]. rewrite <- DB, Q, GL by lia. lra.
Qed.
Lemma p_independent n f H : independent (harm_basis n f H) -> independent (p_basis n f H).
Proof.
  intros I x Z j J. change (m_n (p_basis n f H)) with n in Z. change (m_m (p_basis n f H)) with (2 * H)%nat in J.
  set (v := fun q => if (q =? 0)%nat then 0 else if Nat.odd q then x ((q - 1) / 2)%nat else x ((q - 2) / 2 + H)%nat).
  assert (V : forall h, v (2 * h + 1)%nat = x h /\ v (2 * h + 2)%nat = x (h + H)%nat).
  { intros h. unfold v. destruct (Nat.eqb_spec (2 * h + 1) 0); [lia|]. destruct (Nat.eqb_spec (2 * h + 2) 0); [lia|]. replace (Nat.odd (2 * h + 1)) with true by (symmetry; apply Nat.odd_spec; exists h; lia).
    replace (Nat.odd (2 * h + 2)) with false by (symmetry; rewrite <- Nat.negb_even; apply Bool.negb_false_iff; apply Nat.even_spec; exists (S h); lia).
    replace (2 * h + 1 - 1)%nat with (h * 2)%nat by lia. replace (2 * h + 2 - 2)%nat with (h * 2)%nat by lia. rewrite !Nat.div_mul by lia. split; reflexivity. }
  assert (VZ : forall q, (q < 2 * H + 1)%nat -> v q = 0).
  { apply (I v). intros i Hi. change (mv (harm_basis n f H) v i = 0). rewrite basis_mv. rewrite <- (Z i Hi). change (rsum (m_m (p_basis n f H)) (fun j0 => m_at (p_basis n f H) i j0 * x j0)) with (mv (p_basis n f H) x i). rewrite p_mv.
    replace (v 0%nat) with 0 by reflexivity. rewrite Rplus_0_l. apply rsum_ext. intros h _. destruct (V h) as [-> ->]. reflexivity. }
  destruct (Nat.lt_ge_cases j H) as [C|C].
  - rewrite <- (proj1 (V j)). apply VZ. lia.
  - replace j with (j - H + H)%nat by lia. rewrite <- (proj2 (V (j - H)%nat)). apply VZ. lia.
Qed.
Lemma record_length scale d : length (p_record scale d) = length (hd [] d).
Proof. unfold p_record, harm_average. rewrite !map_length, seq_length. reflexivity. Qed.
Lemma record_nth scale d t : d <> [] -> (t < length (hd [] d))%nat -> nth t (p_record scale d) 0 = (run_mean d t - rsum (length (hd [] d)) (run_mean d) / INR (length (hd [] d))) / scale.
Proof.
  intros ND T. unfold p_record. assert (LA : length (harm_average d) = length (hd [] d)) by (unfold harm_average; rewrite map_length, seq_length; reflexivity).
  rewrite (nth_map_in _ _ _ 0) by (rewrite LA; exact T). rewrite average_nth by assumption. rewrite lmean_rsum, LA. do 2 f_equal. f_equal. apply rsum_ext. intros i Hi. apply average_nth; assumption.
Qed.
Lemma coherent_sum n H k A ph : (0 < k)%nat -> (2 * H * k < n)%nat -> rsum n (distorted H 0 A ph (INR k / INR n)) = 0.
Proof.
  intros K N. unfold distorted. rewrite (rsum_ext n _ (fun t => rsum H (fun h => A h * cos (INR (S h) * (2 * PI * (INR k / INR n) * INR t) + ph h)))) by (intros; ring). rewrite rsum_swap. apply rsum_zero. intros h Hh.
  rewrite <- (tone_sum n (S h * k) (A h) (ph h)) by nia. apply rsum_ext. intros t _. f_equal. f_equal. f_equal. rewrite mult_INR. field. apply not_0_INR. lia.
Qed.
(** A capture whose runs average to harmonics of a coherent frequency plus an error that has no part at those frequencies: the plotted magnitudes
    are twice the amplitudes, the angles the phases relative to the fundamental, the noise 2 sqrt 2 times the rms of the error, all over the full scale. *)
Lemma c190_recovers lin d scale k nh osr w dc A ph e : least_squares lin -> d <> [] -> 0 < scale -> osr <= 1 -> (0 < nh)%Z -> let H := Z.to_nat nh in
  let n := length (hd [] d) in let f := INR k / INR n in (0 < k)%nat -> (2 * H * k < n)%nat ->
  (forall t, (t < n)%nat -> run_mean d t = distorted H dc A ph f t + e t) -> out_of_harmonics n H f e -> (forall h, (h < H)%nat -> 0 < A h) -> 0 < rsum n (fun t => e t ^ 2) ->
  exists g, p_lms_at lin (p_record scale d) f nh osr w = Ok g /\
  (forall h, (h < H)%nat -> nth h (pl_mag g) 0 = 2 * A h / scale /\ same_angle (nth h (pl_phase g) 0) (- (ph h - INR (S h) * ph 0%nat))) /\
  pl_noise g = 2 * sqrt 2 * sqrt (rsum n (fun t => e t ^ 2) / INR n) / scale.
Proof.
  intros L ND SC O NH H n f K N REC [E0 EO] AP EP. set (y := p_record scale d). assert (LY : length y = n) by apply record_length. assert (NP : 0 < INR n) by (apply lt_0_INR; lia).
  assert (MEAN : rsum n (run_mean d) / INR n = dc).
  { rewrite (rsum_ext n _ (fun t => dc + (distorted H 0 A ph f t + e t))) by (intros t T; rewrite REC by exact T; unfold distorted; ring). rewrite !rsum_plus, rsum_const, E0. unfold f. rewrite coherent_sum by assumption. field. lra. }
  assert (YT : forall t, (t < n)%nat -> nth t y 0 = distorted H 0 (fun h => A h / scale) ph f t + e t / scale).
  { intros t T. unfold y. rewrite record_nth by assumption. fold n. rewrite MEAN, REC by exact T. unfold distorted. rewrite (rsum_ext H (fun h => A h / scale * _) (fun h => / scale * (A h * cos (INR (S h) * (2 * PI * f * INR t) + ph h)))) by (intros; unfold Rdiv; ring). rewrite rsum_scale. field. lra. }
  set (x := fun j => if (j <? H)%nat then A j / scale * cos (ph j) else - (A (j - H)%nat / scale) * sin (ph (j - H)%nat)).
  assert (XM : forall t, mv (p_basis (length y) f H) x t = distorted H 0 (fun h => A h / scale) ph f t).
  { intros t. rewrite p_mv. unfold distorted. rewrite Rplus_0_l. apply rsum_ext. intros h Hh. unfold x. destruct (Nat.ltb_spec h H); [|lia]. destruct (Nat.ltb_spec (h + H) H); [lia|]. replace (h + H - H)%nat with h by lia. rewrite cos_plus. ring. }
  assert (SOL : forall j, (j < 2 * H)%nat -> p_sol lin y f H j = x j).
  { unfold p_sol. apply (solve_unique lin (p_basis (length y) f H)); [exact L|rewrite LY; apply p_independent, c94_coherent_independent; assumption|].
    intros j J. change (m_n (p_basis (length y) f H)) with (length y). change (m_m (p_basis (length y) f H)) with (2 * H)%nat in J. rewrite LY at 1.
    rewrite (rsum_ext _ _ (fun t => / scale * (e t * m_at (p_basis (length y) f H) t j))) by (intros t T; rewrite XM, YT by exact T; unfold Rdiv; ring). rewrite rsum_scale.
    replace (rsum n (fun t => e t * m_at (p_basis (length y) f H) t j)) with 0; [ring|]. symmetry. destruct (Nat.lt_ge_cases j H) as [C|C].
    - rewrite <- (EO j 0 C). apply rsum_ext. intros t _. rewrite (proj1 (p_at _ _ _ t j C)), Rplus_0_r. reflexivity.
    - rewrite <- (EO (j - H)%nat (- (PI / 2)) ltac:(lia)). apply rsum_ext. intros t _. pose proof (proj2 (p_at (length y) f H t (j - H)%nat ltac:(lia))) as Q. replace (j - H + H)%nat with j in Q by lia. rewrite Q. f_equal. rewrite cos_plus, cos_neg, sin_neg, cos_PI2, sin_PI2. ring. }
  assert (CF : forall h, (h < H)%nat -> p_coef lin y f H h = (A h / scale * cos (ph h), - (A h / scale) * sin (ph h))).
  { intros h Hh. unfold p_coef. rewrite !SOL by lia. unfold x. destruct (Nat.ltb_spec h H); [|lia]. destruct (Nat.ltb_spec (h + H) H); [lia|]. replace (h + H - H)%nat with h by lia. reflexivity. }
  assert (AS : forall h, (h < H)%nat -> 0 < A h / scale) by (intros h Hh; apply Rdiv_lt_0_compat; [apply AP, Hh|exact SC]).
  assert (LO : forall t, (t < n)%nat -> nth t (left_over y H (fun h => Cmod (p_coef lin y f H h)) (fun h => - Carg (p_coef lin y f H h)) f) 0 = e t / scale).
  { intros t T. unfold left_over. rewrite (nth_map_in _ _ _ 0%nat) by (rewrite seq_length; lia). rewrite seq_nth by lia. cbn [Nat.add]. rewrite <- p_mv_distorted.
    replace (mv (p_basis (length y) f H) (p_sol lin y f H) t) with (mv (p_basis (length y) f H) x t); [rewrite XM, YT by exact T; ring|]. unfold mv. apply rsum_ext. intros j J. rewrite SOL by exact J. reflexivity. }
  assert (RM : rms_of (left_over y H (fun h => Cmod (p_coef lin y f H h)) (fun h => - Carg (p_coef lin y f H h)) f) = sqrt (rsum n (fun t => e t ^ 2) / INR n) / scale).
  { unfold rms_of. unfold left_over at 1 3. rewrite map_length, seq_length, LY. rewrite (rsum_ext n _ (fun t => / scale ^ 2 * e t ^ 2)) by (intros t T; rewrite LO by exact T; field; lra). rewrite rsum_scale.
    replace (/ scale ^ 2 * rsum n (fun t => e t ^ 2) / INR n) with (rsum n (fun t => e t ^ 2) / INR n * (/ scale * / scale)) by (field; lra). rewrite sqrt_mult_alt; [|apply Rmult_le_pos; [lra|left; apply Rinv_0_lt_compat; lra]].
    rewrite sqrt_square by (left; apply Rinv_0_lt_compat; lra). reflexivity. }
  assert (RP : 0 < sqrt (rsum n (fun t => e t ^ 2) / INR n)) by (apply sqrt_lt_R0, Rdiv_lt_0_compat; lra).
  destruct (lms_forward lin y f nh osr w O NH) as [F _]. fold H in F. destruct F as (g & G).
  { rewrite RM. apply Rdiv_lt_0_compat; lra. }
  { intros h Hh Z. rewrite CF in Z by exact Hh. specialize (AS h Hh). pose proof (Cmod_minus (A h / scale) (ph h) ltac:(lra)) as Q. rewrite Z, Cmod_0 in Q. lra. }
  exists g. split; [exact G|]. destruct (lms_inv _ _ _ _ _ _ _ G) as (_ & M & P & (res & RB & RN) & _). fold H in M, P, RB. split.
  - intros h Hh. rewrite M, P. rewrite !(nth_map_in _ _ _ 0%nat) by (rewrite seq_length; exact Hh). rewrite seq_nth by exact Hh. cbn [Nat.add]. assert (H0 : (0 < H)%nat) by (unfold H; lia). rewrite !CF by assumption. pose proof (AS h Hh) as Ah. pose proof (AS 0%nat H0) as A0. split.
    + rewrite Cmod_minus by lra. unfold Rdiv. ring.
    + destruct (same_angle_wrap (Carg (A h / scale * cos (ph h), - (A h / scale) * sin (ph h)) - Carg (A 0%nat / scale * cos (ph 0%nat), - (A 0%nat / scale) * sin (ph 0%nat)) * INR (h + 1))) as (z & Z).
      destruct (Carg_minus _ (ph h) Ah) as (z1 & Z1). destruct (Carg_minus _ (ph 0%nat) A0) as (z2 & Z2). exists (z + z1 - z2 * Z.of_nat (S h))%Z. rewrite Z, Z1, Z2. replace (h + 1)%nat with (S h) by lia. rewrite minus_IZR, plus_IZR, mult_IZR, <- INR_IZR_INZ. ring.
  - rewrite RN. unfold p_inband in RB. destruct (Rltb_spec 1 osr); [lra|]. apply Ok_inj in RB. subst res. rewrite lmean_rsum, map_length.
    replace (sqrt (rsum (length (left_over y H (fun h => Cmod (p_coef lin y f H h)) (fun h => - Carg (p_coef lin y f H h)) f)) (fun i => nth i (map (fun x0 => x0 ^ 2) (left_over y H (fun h => Cmod (p_coef lin y f H h)) (fun h => - Carg (p_coef lin y f H h)) f)) 0) / INR (length (left_over y H (fun h => Cmod (p_coef lin y f H h)) (fun h => - Carg (p_coef lin y f H h)) f)))) with
      (rms_of (left_over y H (fun h => Cmod (p_coef lin y f H h)) (fun h => - Carg (p_coef lin y f H h)) f)); [rewrite RM; field; lra|].
    unfold rms_of. do 2 f_equal. apply rsum_ext. intros t T. rewrite (nth_map_in _ _ _ 0) by exact T. reflexivity.
Qed.
Lemma record_single scale y : p_record scale [y] = map (fun x => (x - lmean y) / scale) y.
Proof.
  assert (AV : harm_average [y] = y). { unfold harm_average. cbn [hd]. apply (nth_ext _ _ 0 0); rewrite map_length, seq_length; [reflexivity |]. intros t T. rewrite (nth_map_in _ _ _ 0%nat) by (rewrite seq_length; exact T). rewrite seq_nth by exact T. unfold lmean. cbn. field. }
  unfold p_record. rewrite AV. reflexivity.
Qed.
(** One run at a coherent frequency, no oversampling, any two least-squares solvers: the plotted magnitudes and the noise are the Python ones over the
    full scale, and the angles are the same. *)
Lemma c190_python lin lst y k nh tol osr w scale r g : least_squares lin -> least_squares lst -> 0 < scale -> osr <= 1 -> (2 <= length y)%nat -> let H := Z.to_nat nh in let f := INR k / INR (length y) in
  (0 < k)%nat -> (2 * H * k < length y)%nat -> decompose_harmonic_error lst [y] nh (Some f) 0 tol = Ok r -> p_lms_at lin (p_record scale [y]) f nh osr w = Ok g ->
  pl_phase g = h_phases r /\ pl_mag g = map (fun m => m / scale) (h_magnitudes r) /\ pl_noise g = h_residual_rms r / scale.
Proof.
  intros L1 L2 SC O NY H f K N EP EM. set (n := length y) in *. assert (NP : 0 < INR n) by (apply lt_0_INR; lia).
  destruct (harm_inv _ _ _ _ _ _ _ EP) as (fit & FC & NH & _ & FQ & LN & _ & _ & _ & V & MG & PH & RM & _). cbv zeta in V, MG, PH.
  assert (AV : dec_avg [y] = y). { unfold dec_avg. rewrite (proj1 c36_runs) by (fold n; lia). unfold harm_average. cbn [hd]. apply (nth_ext _ _ 0 0); rewrite map_length, seq_length; [reflexivity |]. intros t T. rewrite (nth_map_in _ _ _ 0%nat) by (rewrite seq_length; exact T). rewrite seq_nth by exact T. unfold lmean. cbn. field. }
  rewrite AV in *. fold n in V, MG, PH, LN. pose proof (given_frequency _ _ _ _ _ FC) as FF. rewrite FF in *. fold H in V, MG, PH. set (zm := map (fun x => x - lmean y) y) in *. set (B := harm_basis n f H) in *. set (W := lst B (fun i => nth i zm 0)) in *.
  assert (ZM : forall t, (t < n)%nat -> nth t zm 0 = nth t y 0 - lmean y) by (intros t T; unfold zm; rewrite (nth_map_in _ _ _ 0) by exact T; reflexivity).
  assert (MIN : minimises B (fun i => nth i zm 0) W) by (apply ls_minimises, L2).
  assert (NE : forall j, (j < 2 * H + 1)%nat -> rsum n (fun t => nth t (h_noise r) 0 * m_at B t j) = 0).
  { intros j J. etransitivity; [|apply (normal_equations B _ W j MIN J)]. apply rsum_ext. intros t T. destruct (V t T) as (_ & -> & _). rewrite ZM by exact T. reflexivity. }
  set (D := fun t => rsum H (fun h => W (2 * h + 1)%nat * cos (INR (S h) * (2 * PI * f * INR t)) + W (2 * h + 2)%nat * sin (INR (S h) * (2 * PI * f * INR t)))).
  assert (DS : rsum n D = 0).
  { rewrite <- (coherent_sum n H k (fun h => Cmod (W (2 * h + 1)%nat, W (2 * h + 2)%nat)) (fun h => - Carg (W (2 * h + 1)%nat, W (2 * h + 2)%nat)) K N). apply rsum_ext. intros t _. unfold D, distorted. rewrite Rplus_0_l. apply rsum_ext. intros h _. exact (coef_part (W (2 * h + 1)%nat, W (2 * h + 2)%nat) _). }
  assert (W0 : W 0%nat = 0).
  { pose proof (NE 0%nat ltac:(lia)) as Q. rewrite (rsum_ext n _ (fun t => nth t y 0 - lmean y - (W 0%nat + D t))) in Q.
    2:{ intros t T. unfold B at 1. rewrite (proj1 (basis_at n f H t)). destruct (V t T) as (_ & -> & _). unfold B at 1. rewrite basis_mv. fold (D t). ring. }
    rewrite !rsum_minus, rsum_plus, !rsum_const, DS in Q. rewrite lmean_rsum in Q. fold n in Q. replace (INR n * (rsum n (fun i => nth i y 0) / INR n)) with (rsum n (fun i => nth i y 0)) in Q by (field; lra).
    assert (INR n * W 0%nat = 0) by lra. apply Rmult_integral in H0. destruct H0; lra. }
  set (z := p_record scale [y]) in *. assert (LZ : length z = n) by (unfold z; rewrite record_length; reflexivity).
  assert (ZT : forall t, (t < n)%nat -> nth t z 0 = (D t + nth t (h_noise r) 0) / scale).
  { intros t T. unfold z. rewrite record_single. rewrite (nth_map_in _ _ _ 0) by exact T. destruct (V t T) as (_ & -> & _). unfold B. rewrite basis_mv. fold (D t). rewrite W0. f_equal. ring. }
  set (x := fun j => (if (j <? H)%nat then W (2 * j + 1)%nat else W (2 * (j - H) + 2)%nat) / scale).
  assert (XH : forall h, (h < H)%nat -> x h = W (2 * h + 1)%nat / scale /\ x (h + H)%nat = W (2 * h + 2)%nat / scale).
  { intros h Hh. unfold x. destruct (Nat.ltb_spec h H); [|lia]. destruct (Nat.ltb_spec (h + H) H); [lia|]. replace (h + H - H)%nat with h by lia. split; reflexivity. }
  assert (XM : forall t, mv (p_basis (length z) f H) x t = D t / scale).
  { intros t. rewrite p_mv. unfold D, Rdiv. rewrite (Rmult_comm _ (/ scale)), <- rsum_scale. apply rsum_ext. intros h Hh. destruct (XH h Hh) as [-> ->]. unfold Rdiv. ring. }
  assert (SOL : forall j, (j < 2 * H)%nat -> p_sol lin z f H j = x j).
  { unfold p_sol. apply (solve_unique lin (p_basis (length z) f H)); [exact L1|rewrite LZ; apply p_independent, c94_coherent_independent; assumption|].
    intros j J. change (m_n (p_basis (length z) f H)) with (length z). change (m_m (p_basis (length z) f H)) with (2 * H)%nat in J. rewrite LZ at 1.
    rewrite (rsum_ext _ _ (fun t => / scale * (nth t (h_noise r) 0 * m_at (p_basis (length z) f H) t j))) by (intros t T; rewrite XM, ZT by exact T; unfold Rdiv; ring). rewrite rsum_scale.
    replace (rsum n (fun t => nth t (h_noise r) 0 * m_at (p_basis (length z) f H) t j)) with 0; [ring|]. symmetry. destruct (Nat.lt_ge_cases j H) as [C|C].
    - etransitivity; [|exact (NE (2 * j + 1)%nat ltac:(lia))]. apply rsum_ext. intros t _. rewrite (proj1 (p_at _ _ _ t j C)). unfold B. rewrite (proj1 (proj2 (basis_at n f H t) j)). reflexivity.
    - etransitivity; [|exact (NE (2 * (j - H) + 2)%nat ltac:(lia))]. apply rsum_ext. intros t _. pose proof (proj2 (p_at (length z) f H t (j - H)%nat ltac:(lia))) as Q. replace (j - H + H)%nat with j in Q by lia. rewrite Q. unfold B. rewrite (proj2 (proj2 (basis_at n f H t) (j - H)%nat)). reflexivity. }
  assert (CF : forall h, (h < H)%nat -> p_coef lin z f H h = Cscale (/ scale) (W (2 * h + 1)%nat, W (2 * h + 2)%nat)).
  { intros h Hh. unfold p_coef. rewrite !SOL by lia. destruct (XH h Hh) as [-> ->]. unfold Cscale, Rdiv. cbn [fst snd]. f_equal; ring. }
  assert (IS : 0 < / scale) by (apply Rinv_0_lt_compat, SC).
  destruct (lms_inv _ _ _ _ _ _ _ EM) as (_ & M & P & (res & RB & RN) & _). fold H in M, P, RB. split; [|split].
  - rewrite P, PH. apply map_ext_in. intros h Hh. apply in_seq in Hh. rewrite !CF by lia. rewrite !Carg_scale by exact IS. reflexivity.
  - rewrite M, MG, map_map. apply map_ext_in. intros h Hh. apply in_seq in Hh. rewrite CF by lia. rewrite Cmod_scale, Rabs_pos_eq by lra. unfold Rdiv. ring.
  - rewrite RN, RM. unfold p_inband in RB. destruct (Rltb_spec 1 osr); [lra|]. apply Ok_inj in RB. subst res.
    set (E := left_over z H (fun h => Cmod (p_coef lin z f H h)) (fun h => - Carg (p_coef lin z f H h)) f). assert (LE : length E = n) by (unfold E, left_over; rewrite map_length, seq_length; exact LZ).
    assert (ET : forall t, (t < n)%nat -> nth t E 0 = nth t (h_noise r) 0 / scale).
    { intros t T. unfold E, left_over. rewrite (nth_map_in _ _ _ 0%nat) by (rewrite seq_length; lia). rewrite seq_nth by lia. cbn [Nat.add]. rewrite <- p_mv_distorted.
      replace (mv (p_basis (length z) f H) (p_sol lin z f H) t) with (mv (p_basis (length z) f H) x t); [rewrite XM, ZT by exact T; unfold Rdiv; ring|]. unfold mv. apply rsum_ext. intros j J. rewrite SOL by exact J. reflexivity. }
    assert (SQ : sqrt (lmean (map (fun x0 => x0 ^ 2) E)) = rms_of (h_noise r) / scale).
    { unfold rms_of. rewrite LN. rewrite lmean_rsum, map_length, LE. rewrite (rsum_ext n _ (fun t => / scale ^ 2 * nth t (h_noise r) 0 ^ 2)) by (intros t T; rewrite (nth_map_in _ _ _ 0) by lia; rewrite ET by exact T; field; lra). rewrite rsum_scale.
      replace (/ scale ^ 2 * rsum n (fun t => nth t (h_noise r) 0 ^ 2) / INR n) with (rsum n (fun t => nth t (h_noise r) 0 ^ 2) / INR n * (/ scale * / scale)) by (field; lra). 
      rewrite sqrt_mult_alt; [rewrite sqrt_square by lra; reflexivity|]. apply Rmult_le_pos; [apply rsum_nonneg; intros; apply pow2_ge_0|left; apply Rinv_0_lt_compat; lra]. }
    rewrite SQ. unfold Rdiv. ring.
Qed.
Lemma lmax1_affine a b x l : 0 < a -> lmax1 (a * x + b) (map (fun v => a * v + b) l) = a * lmax1 x l + b.
Proof.
  intros A. destruct (lmax1_facts (a * x + b) (map (fun v => a * v + b) l)) as [I1 G1]. destruct (lmax1_facts x l) as [I2 G2].
  change ((a * x + b) :: map (fun v => a * v + b) l) with (map (fun v => a * v + b) (x :: l)) in I1, G1. apply Rle_antisym.
  - apply in_map_iff in I1. destruct I1 as (v & <- & Hv). specialize (G2 v Hv). nra.
  - apply G1. apply in_map_iff. exists (lmax1 x l). split; [reflexivity|exact I2].
Qed.
Lemma lmin1_affine a b x l : 0 < a -> lmin1 (a * x + b) (map (fun v => a * v + b) l) = a * lmin1 x l + b.
Proof.
  intros A. destruct (lmin1_facts (a * x + b) (map (fun v => a * v + b) l)) as [I1 G1]. destruct (lmin1_facts x l) as [I2 G2].
  change ((a * x + b) :: map (fun v => a * v + b) l) with (map (fun v => a * v + b) (x :: l)) in I1, G1. apply Rle_antisym.
  - apply G1. apply in_map_iff. exists (lmin1 x l). split; [reflexivity|exact I2].
  - apply in_map_iff in I1. destruct I1 as (v & <- & Hv). specialize (G2 v Hv). nra.
Qed.
Lemma p_orient_row (q : list R) : m_orient [q] = [q].
Proof. unfold m_orient. change (length [q]) with 1%nat. change (1 <? 1)%nat with false. rewrite andb_false_r. reflexivity. Qed.
Lemma full_scale_affine a b r : 0 < a -> m_full_scale [map (fun v => a * v + b) r] = a * m_full_scale [r].
Proof. intros A. unfold m_full_scale. cbn [concat]. rewrite !app_nil_r. destruct r as [|x l]; [cbn [map]; ring|]. cbn [map]. rewrite lmax1_affine, lmin1_affine by exact A. ring. Qed.
(** With the automatic full scale, gain and offset of the converter change nothing. *)
Lemma c190_invariant lin r nh fs osr cutoff w a b : 0 < a ->
  m_plotphase_lms lin [map (fun v => a * v + b) r] nh None fs osr cutoff w = m_plotphase_lms lin [r] nh None fs osr cutoff w.
Proof.
  intros A. unfold m_plotphase_lms. destruct (p_bad None fs osr cutoff); cbn [raise_if]; [reflexivity|]. cbv zeta. unfold p_scale. rewrite full_scale_affine by exact A. rewrite !p_orient_row.
  destruct (Reqb_spec (m_full_scale [r]) 0) as [Z|NZ].
  { rewrite Z, Rmult_0_r. destruct (Reqb_spec 0 0); [reflexivity|contradiction]. }
  destruct (Reqb_spec (a * m_full_scale [r]) 0) as [Z|_]; [apply Rmult_integral in Z; destruct Z; lra|]. cbn [raise_if].
  assert (E : p_record (a * m_full_scale [r]) [map (fun v => a * v + b) r] = p_record (m_full_scale [r]) [r]).
  { rewrite !record_single. rewrite map_map. apply map_ext_in. intros v Hv. assert (LM : lmean (map (fun v0 => a * v0 + b) r) = a * lmean r + b).
    { destruct r as [|x l]; [destruct Hv|]. rewrite !lmean_rsum, map_length. set (n := length (x :: l)). rewrite (rsum_ext n _ (fun i => a * nth i (x :: l) 0 + b)) by (intros i Hi; rewrite (nth_map_in _ _ _ 0) by exact Hi; reflexivity).
      rewrite rsum_plus, rsum_scale, rsum_const. field. apply not_0_INR. unfold n. discriminate. }
    rewrite LM. field. split; lra. }
  rewrite E. reflexivity.
Qed.
(** A period of a cosine in four samples, with an error of alternating sign 20 dB below. *)
Definition alt_record : list R := [1 + sqrt 2 / 20; - (sqrt 2 / 20); -1 + sqrt 2 / 20; - (sqrt 2 / 20)].
Lemma alt_parts : forall t, (t < 4)%nat -> run_mean [alt_record] t = distorted 1 0 (fun _ => 1) (fun _ => 0) (INR 1 / INR 4) t + nth t [sqrt 2 / 20; - (sqrt 2 / 20); sqrt 2 / 20; - (sqrt 2 / 20)] 0.
Proof.
  assert (Q : forall t, distorted 1 0 (fun _ => 1) (fun _ => 0) (INR 1 / INR 4) t = cos (INR t * (PI / 2))). { intros t. unfold distorted. cbn [rsum]. rewrite !Rplus_0_l, Rplus_0_r, Rmult_1_l. f_equal. cbn [INR]. field. }
  intros t T. rewrite Q. unfold run_mean, alt_record. cbn [length rsum nth INR]. destruct t as [|[|[|[|t]]]]; [| | | |lia]; cbn [nth INR].
  - replace (0 * (PI / 2)) with 0 by ring. rewrite cos_0. field. - replace (1 * (PI / 2)) with (PI / 2) by ring. rewrite cos_PI2. field.
  - replace ((1 + 1) * (PI / 2)) with PI by field. rewrite cos_PI. field. - replace ((1 + 1 + 1) * (PI / 2)) with (3 * (PI / 2)) by ring. rewrite cos_3PI2. field.
Qed.
Lemma alt_out : out_of_harmonics 4 1 (INR 1 / INR 4) (fun t => nth t [sqrt 2 / 20; - (sqrt 2 / 20); sqrt 2 / 20; - (sqrt 2 / 20)] 0).
Proof.
  split; [cbn [rsum nth]; ring|]. intros h ph Hh. assert (h = 0%nat) by lia. subst h. cbn [rsum nth INR].
  replace (1 * (2 * PI * (1 / (1 + 1 + 1 + 1)) * 0) + ph) with ph by ring. replace (1 * (2 * PI * (1 / (1 + 1 + 1 + 1)) * 1) + ph) with (PI / 2 + ph) by field.
  replace (1 * (2 * PI * (1 / (1 + 1 + 1 + 1)) * (1 + 1)) + ph) with (ph + PI) by field. replace (1 * (2 * PI * (1 / (1 + 1 + 1 + 1)) * (1 + 1 + 1)) + ph) with (PI / 2 + ph + PI) by field.
  rewrite !neg_cos. ring.
Qed.
Lemma alt_figure lin : least_squares lin -> exists g, p_lms_at lin (p_record 2 [alt_record]) (INR 1 / INR 4) 1 1 MRect = Ok g /\ pl_mag g = [1] /\ pl_noise g = 1 / 10.
Proof.
  intros L. assert (S2 : sqrt 2 * sqrt 2 = 2) by (apply sqrt_sqrt; lra). assert (SP : 0 < sqrt 2) by (apply sqrt_lt_R0; lra).
  set (e := fun t => nth t [sqrt 2 / 20; - (sqrt 2 / 20); sqrt 2 / 20; - (sqrt 2 / 20)] 0). assert (SE : rsum 4 (fun t => e t ^ 2) = 1 / 50) by (unfold e; cbn [rsum nth]; nra).
  destruct (c190_recovers lin [alt_record] 2 1 1 1 MRect 0 (fun _ => 1) (fun _ => 0) e) as (g & E & M & NZ); try (exact L || discriminate || lra || lia || exact alt_parts || exact alt_out || (intros; lra)).
  { change (length (hd [] [alt_record])) with 4%nat. change (Z.to_nat 1) with 1%nat. lia. }
  { change (length (hd [] [alt_record])) with 4%nat. rewrite SE. lra. }
  change (length (hd [] [alt_record])) with 4%nat in *. exists g. split; [exact E|]. split.
  - destruct (c190_reading _ _ _ _ _ _ _ E) as (b & _ & _ & LM & _). change (Z.to_nat 1) with 1%nat in LM. destruct (M 0%nat) as [M0 _]; [change (Z.to_nat 1) with 1%nat; lia|]. destruct (pl_mag g) as [|x [|x2 l]]; try discriminate LM. cbn [nth] in M0. f_equal. lra.
  - rewrite NZ, SE. replace (1 / 50 / INR 4) with ((sqrt 2 / 20) * (sqrt 2 / 20)); [rewrite sqrt_square by lra; nra|]. cbn [INR]. nra.
Qed.
Lemma alt_points lin g : p_lms_at lin (p_record 2 [alt_record]) (INR 1 / INR 4) 1 1 MRect = Ok g -> pl_mag g = [1] -> pl_noise g = 1 / 10 ->
  pl_points g = [(0, 30)] /\ pl_circle g = 10 /\ pl_text g = Num 1 (-200) /\ pl_ticks g = [(0, (-30)%Z); (10, (-20)%Z); (20, (-10)%Z); (30, 0%Z)] /\ pl_limit g = 30.
Proof.
  intros E M NZ. destruct (lms_inv _ _ _ _ _ _ _ E) as (_ & _ & P & _ & _ & _ & G). cbv zeta in G. rewrite M, NZ in G. change (Z.to_nat 1) with 1%nat in P.
  assert (D1 : p_db 1 = 0) by (unfold p_db; rewrite ln_1; unfold Rdiv; ring). assert (L10 : 0 < ln 10) by (rewrite <- ln_1; apply ln_increasing; lra).
  assert (D2 : p_db (1 / 10) = -20). { unfold p_db. replace (1 / 10) with (/ 10) by lra. rewrite ln_Rinv by lra. field. lra. }
  cbn [map hd] in G. rewrite D1, D2 in G. unfold lmax1, lmin1 in G. cbn [fold_right] in G.
  replace (Rmax 0 0) with 0 in G by (unfold Rmax; destruct (Rle_dec 0 0); reflexivity). replace (Rmin 0 0) with 0 in G by (unfold Rmin; destruct (Rle_dec 0 0); reflexivity). rewrite Rmin_right in G by lra.
  replace (Zceil (0 / 10)) with 0%Z in G by (symmetry; apply Zceil_imp; rewrite minus_IZR; lra). replace (Zfloor ((-20 - 10) / 10)) with (-3)%Z in G by (symmetry; apply Zfloor_imp; rewrite plus_IZR; lra).
  assert (PP : pl_phase g = [0]). { rewrite P. cbn [seq map Nat.add INR]. f_equal. unfold wrap_phase. pose proof PI_RGT_0. match goal with |- context [Carg ?c] => set (q := Carg c) end. replace (q - q * 1 + PI) with PI by ring. replace (Zfloor (PI / (2 * PI))) with 0%Z; [lra|]. symmetry. apply Zfloor_imp. rewrite plus_IZR. replace (PI / (2 * PI)) with (1 / 2) by (field; lra). lra. }
  rewrite PP in G. rewrite G. cbn [pl_points pl_circle pl_text pl_ticks pl_limit combine]. split; [do 2 f_equal; lra|]. split; [lra|]. split; [apply fixed_exact; simpl; lra|]. split; [|lra].
  change (seq 0 (Z.to_nat (0 - -3 + 1))) with [0; 1; 2; 3]%nat. cbn [map]. change (10 * (-3 + Z.of_nat 0))%Z with (-30)%Z. change (10 * (-3 + Z.of_nat 1))%Z with (-20)%Z. change (10 * (-3 + Z.of_nat 2))%Z with (-10)%Z. change (10 * (-3 + Z.of_nat 3))%Z with 0%Z.
  repeat (apply (f_equal2 (@cons (R * Z))); [f_equal; simpl; lra|]); reflexivity.
Qed.
(** The figure of that record: the tone at full scale, the residual 20 dB below, the centre at -30 dB. *)
Example c190_reading_ex lin : least_squares lin -> exists g, p_lms_at lin (p_record 2 [alt_record]) (INR 1 / INR 4) 1 1 MRect = Ok g /\
  pl_points g = [(0, 30)] /\ pl_circle g = 10 /\ pl_text g = Num 1 (-200) /\ pl_ticks g = [(0, (-30)%Z); (10, (-20)%Z); (20, (-10)%Z); (30, 0%Z)] /\ pl_limit g = 30.
Proof. intros L. destruct (alt_figure lin L) as (g & E & M & NZ). exists g. split; [exact E|]. exact (alt_points lin g E M NZ). Qed.
Example c190_recovers_ex : exists g, p_lms_at gs_lstsq (p_record 2 [alt_record]) (INR 1 / INR 4) 1 1 MRect = Ok g /\ pl_mag g = [1] /\ pl_noise g = 1 / 10.
Proof. exact (alt_figure gs_lstsq gs_least_squares). Qed.
Example c190_best_ex : exists g A ph, p_lms_at gs_lstsq (p_record 2 [alt_record]) (INR 1 / INR 4) 1 1 MRect = Ok g /\ pl_mag g = [2 * A 0%nat] /\ A 0%nat = 1 / 2 /\
  rms_of (left_over (p_record 2 [alt_record]) 1 A ph (INR 1 / INR 4)) = sqrt 2 / 40 /\ forall B th, sqrt 2 / 40 <= rms_of (left_over (p_record 2 [alt_record]) 1 B th (INR 1 / INR 4)).
Proof.
  destruct c190_recovers_ex as (g & E & M & NZ). destruct (c190_best _ _ _ _ _ _ _ gs_least_squares (Rle_refl 1) E) as (A & ph & _ & _ & Q & RN & MN). change (Z.to_nat 1) with 1%nat in *. destruct (Q 0%nat ltac:(lia)) as (_ & Q1 & _). rewrite M in Q1. cbn [nth] in Q1.
  assert (S2 : sqrt 2 * sqrt 2 = 2) by (apply sqrt_sqrt; lra). assert (SP : 0 < sqrt 2) by (apply sqrt_lt_R0; lra).
  assert (RV : rms_of (left_over (p_record 2 [alt_record]) 1 A ph (INR 1 / INR 4)) = sqrt 2 / 40). { rewrite NZ in RN. apply (Rmult_eq_reg_l (2 * sqrt 2)); [|lra]. rewrite <- RN. nra. }
  exists g, A, ph. split; [exact E|]. split; [rewrite M; f_equal; lra|]. split; [lra|]. split; [exact RV|]. intros B th. rewrite <- RV. apply MN.
Qed.
Lemma cosine_parts : forall t, (t < 4)%nat -> nth t [1; 0; -1; 0] 0 = distorted 1 0 (fun _ => 1) (fun _ => 0) (1 / 4) t.
Proof.
  assert (Q : forall t, distorted 1 0 (fun _ => 1) (fun _ => 0) (1 / 4) t = cos (INR t * (PI / 2))). { intros t. unfold distorted. cbn [rsum]. rewrite !Rplus_0_l, Rplus_0_r, Rmult_1_l. f_equal. cbn [INR]. field. }
  intros t T. rewrite Q. destruct t as [|[|[|[|t]]]]; [| | | |lia]; cbn [nth INR].
  - replace (0 * (PI / 2)) with 0 by ring. rewrite cos_0. field. - replace (1 * (PI / 2)) with (PI / 2) by ring. rewrite cos_PI2. field.
  - replace ((1 + 1) * (PI / 2)) with PI by field. rewrite cos_PI. field. - replace ((1 + 1 + 1) * (PI / 2)) with (3 * (PI / 2)) by ring. rewrite cos_3PI2. field.
Qed.
Example c190_perfect_ex lin w : least_squares lin -> p_lms_at lin [1; 0; -1; 0] (1 / 4) 1 1 w = Err RuntimeError.
Proof. intros L. apply (c190_perfect lin [1; 0; -1; 0] (1 / 4) 1 1 w (fun _ => 1) (fun _ => 0) L (Rle_refl 1)). exact cosine_parts. Qed.
Example c190_python_ex : exists r g, decompose_harmonic_error gs_lstsq [alt_record] 1 (Some (INR 1 / INR 4)) 0 (1 / 10 ^ 9) = Ok r /\ p_lms_at gs_lstsq (p_record 2 [alt_record]) (INR 1 / INR 4) 1 1 MRect = Ok g /\
  pl_mag g = [1] /\ map (fun m => m / 2) (h_magnitudes r) = [1] /\ h_residual_rms r = 1 / 5.
Proof.
  destruct c190_recovers_ex as (g & E & M & NZ). destruct (c36_accepts gs_lstsq [alt_record] 1 (Some (INR 1 / INR 4)) 0 (1 / 10 ^ 9)) as [A _].
  rewrite (proj1 c36_runs) in A by discriminate. destruct A as (r & Er); [split; [lia|]; split; [cbn; lia|discriminate]|]. exists r, g. split; [exact Er|]. split; [exact E|].
  destruct (c190_python gs_lstsq gs_lstsq alt_record 1 1 (1 / 10 ^ 9) 1 MRect 2 r g gs_least_squares gs_least_squares ltac:(lra) (Rle_refl 1)) as (_ & Q1 & Q2); try (exact Er || exact E || (change (length alt_record) with 4%nat; change (Z.to_nat 1) with 1%nat; lia)).
  split; [exact M|]. split; [rewrite <- Q1; exact M|]. rewrite NZ in Q2. lra.
Qed.
Example c190_invariant_ex lin w : m_plotphase_lms lin [[5; 1; -3; 1; 4; 1; -3; 1]] 2 None 1 1 0 w = m_plotphase_lms lin [[1; 0; -1; 0; 3 / 4; 0; -1; 0]] 2 None 1 1 0 w.
Proof. rewrite <- (c190_invariant lin [1; 0; -1; 0; 3 / 4; 0; -1; 0] 2 1 1 0 w 4 1 ltac:(lra)). f_equal. f_equal. cbn [map]. repeat (apply (f_equal2 (@cons R)); [lra|]); reflexivity. Qed.
(** Without a constant among the columns the fit is biased when the record does not hold whole periods: a cosine of amplitude 1 and its true
    frequency, five samples, full scale 2.  The magnitude should be 1 (0 dB); the Python fit, which has the constant, finds 1. *)
Lemma c190_offset_refuted : exists y f g r, is_record y (sine 1 f 0 0) /\ p_lms_at gs_lstsq (p_record 2 [y]) f 1 1 MRect = Ok g /\ nth 0 (pl_mag g) 0 = 14 / 15 /\
  decompose_harmonic_error gs_lstsq [y] 1 (Some f) 0 (1 / 10 ^ 9) = Ok r /\ nth 0 (h_magnitudes r) 0 / 2 = 1.
Proof.
  set (y := [1; 0; -1; 0; 1]). assert (CO : forall t, (t < 5)%nat -> cos (INR t * (PI / 2)) = nth t [1; 0; -1; 0; 1] 0 /\ sin (INR t * (PI / 2)) = nth t [0; 1; 0; -1; 0] 0).
  { intros t T. destruct t as [|[|[|[|[|t]]]]]; [| | | | |lia]; cbn [nth INR].
    - replace (0 * (PI / 2)) with 0 by ring. rewrite cos_0, sin_0. split; reflexivity. - replace (1 * (PI / 2)) with (PI / 2) by ring. rewrite cos_PI2, sin_PI2. split; reflexivity.
    - replace ((1 + 1) * (PI / 2)) with PI by field. rewrite cos_PI, sin_PI. split; reflexivity. - replace ((1 + 1 + 1) * (PI / 2)) with (3 * (PI / 2)) by ring. rewrite cos_3PI2, sin_3PI2. split; reflexivity.
    - replace ((1 + 1 + 1 + 1) * (PI / 2)) with (2 * PI) by field. rewrite cos_2PI, sin_2PI. split; reflexivity. }
  assert (AG : forall t, INR (S 0) * (2 * PI * (1 / 4) * INR t) = INR t * (PI / 2)) by (intros t; cbn [INR]; field).
  set (z := p_record 2 [y]). assert (EZ : z = [4 / 10; - (1 / 10); - (6 / 10); - (1 / 10); 4 / 10]). { unfold z. rewrite record_single. unfold y, lmean, lsum. cbn [map length fold_left fold_right INR]. repeat (apply (f_equal2 (@cons R)); [field|]); reflexivity. }
  set (x := fun j : nat => if (j =? 0)%nat then 7 / 15 else 0).
  assert (IND : independent (p_basis 5 (1 / 4) 1)).
  { intros v Z j J. change (m_m (p_basis 5 (1 / 4) 1)) with 2%nat in *. change (m_n (p_basis 5 (1 / 4) 1)) with 5%nat in Z. pose proof (Z 0%nat ltac:(lia)) as Z0. pose proof (Z 1%nat ltac:(lia)) as Z1. change (mv (p_basis 5 (1 / 4) 1) v 0%nat = 0) in Z0. change (mv (p_basis 5 (1 / 4) 1) v 1%nat = 0) in Z1.
    rewrite p_mv in Z0, Z1. cbn [rsum] in Z0, Z1. rewrite AG in Z0, Z1. destruct (CO 0%nat ltac:(lia)) as [C0' S0']. destruct (CO 1%nat ltac:(lia)) as [C1' S1']. rewrite C0', S0' in Z0. rewrite C1', S1' in Z1. cbn [nth Nat.add] in *.
    destruct j as [|[|j]]; [| |lia]; lra. }
  assert (SOL : forall j, (j < 2)%nat -> p_sol gs_lstsq z (1 / 4) 1 j = x j).
  { unfold p_sol. rewrite EZ. cbn [length]. apply (solve_unique gs_lstsq (p_basis 5 (1 / 4) 1)); [exact gs_least_squares|exact IND|]. intros j J. change (m_n (p_basis 5 (1 / 4) 1)) with 5%nat. change (m_m (p_basis 5 (1 / 4) 1)) with 2%nat in J.
    rewrite (rsum_ext 5 _ (fun t => (nth t [4 / 10; - (1 / 10); - (6 / 10); - (1 / 10); 4 / 10] 0 - 7 / 15 * nth t [1; 0; -1; 0; 1] 0) * (if (j =? 0)%nat then nth t [1; 0; -1; 0; 1] 0 else nth t [0; 1; 0; -1; 0] 0))).
    - destruct j as [|[|j]]; [| |lia]; cbn [Nat.eqb rsum nth]; lra.
    - intros t T. rewrite p_mv. cbn [rsum Nat.add]. unfold x. cbn [Nat.eqb]. rewrite AG. destruct (CO t T) as [C S]. rewrite C. destruct (p_at 5 (1 / 4) 1 t 0 ltac:(lia)) as [P1 P2]. rewrite AG in P1, P2. cbn [Nat.add] in P2. destruct j as [|[|j]]; [| |lia]; cbn [Nat.eqb]; [rewrite P1, C|rewrite P2, S]; ring. }
  assert (CF : p_coef gs_lstsq z (1 / 4) 1 0 = RtoC (7 / 15)). { unfold p_coef. cbn [Nat.add]. rewrite !SOL by lia. reflexivity. }
  assert (DZ : forall t, (t < 5)%nat -> nth t (left_over z 1 (fun h => Cmod (p_coef gs_lstsq z (1 / 4) 1 h)) (fun h => - Carg (p_coef gs_lstsq z (1 / 4) 1 h)) (1 / 4)) 0 = nth t z 0 - 7 / 15 * nth t [1; 0; -1; 0; 1] 0).
  { intros t T. unfold left_over. assert (LZ : length z = 5%nat) by (rewrite EZ; reflexivity). rewrite (nth_map_in _ _ _ 0%nat) by (rewrite seq_length; lia). rewrite seq_nth by lia. cbn [Nat.add]. rewrite <- p_mv_distorted, p_mv. cbn [rsum Nat.add]. rewrite !SOL by lia. rewrite AG. destruct (CO t T) as [-> ->]. unfold x. cbn [Nat.eqb]. ring. }
  assert (LL : length (left_over z 1 (fun h => Cmod (p_coef gs_lstsq z (1 / 4) 1 h)) (fun h => - Carg (p_coef gs_lstsq z (1 / 4) 1 h)) (1 / 4)) = 5%nat) by (unfold left_over; rewrite map_length, seq_length, EZ; reflexivity).
  destruct (lms_forward gs_lstsq z (1 / 4) 1 1 MRect (Rle_refl 1) ltac:(lia)) as [F _]. change (Z.to_nat 1) with 1%nat in F. destruct F as (g & G).
  { unfold rms_of. rewrite LL. apply sqrt_lt_R0. apply Rdiv_lt_0_compat; [|cbn [INR]; lra]. rewrite (rsum_ext 5 _ (fun t => (nth t z 0 - 7 / 15 * nth t [1; 0; -1; 0; 1] 0) ^ 2)) by (intros t T; rewrite DZ by exact T; reflexivity). rewrite EZ. cbn [rsum nth]. lra. }
  { intros h Hh. assert (h = 0%nat) by lia. subst h. rewrite CF. intros Q. injection Q as Q. lra. }
  destruct (c94_exact gs_lstsq [y] 1 (1 / 4) (1 / 10 ^ 9) 0 (fun _ => 1) (fun _ => 0) gs_least_squares) as (r & R1 & _ & _ & _ & R5 & _).
  { rewrite (proj1 c36_runs) by discriminate. discriminate. } { lia. } { rewrite (proj1 c36_runs) by discriminate. cbn. lia. }
  { rewrite (proj1 c36_runs) by discriminate. change (length (hd [] [y])) with 5%nat. change (Z.to_nat 1) with 1%nat. intros v Z j J. change (m_m (harm_basis 5 (1 / 4) 1)) with 3%nat in *. change (m_n (harm_basis 5 (1 / 4) 1)) with 5%nat in Z.
    assert (ZT : forall t, (t < 5)%nat -> v 0%nat + (v 1%nat * nth t [1; 0; -1; 0; 1] 0 + v 2%nat * nth t [0; 1; 0; -1; 0] 0) = 0).
    { intros t T. pose proof (Z t T) as Q. change (mv (harm_basis 5 (1 / 4) 1) v t = 0) in Q. rewrite basis_mv in Q. cbn [rsum Nat.mul Nat.add] in Q. rewrite AG in Q. destruct (CO t T) as [C S]. rewrite C, S in Q. lra. }
    pose proof (ZT 0%nat ltac:(lia)) as Z0. pose proof (ZT 1%nat ltac:(lia)) as Z1. pose proof (ZT 2%nat ltac:(lia)) as Z2. cbn [nth] in Z0, Z1, Z2. destruct j as [|[|[|j]]]; [| | |lia]; lra. }
  { rewrite (proj1 c36_runs) by discriminate. change (length (hd [] [y])) with 5%nat. intros t T. unfold run_mean, distorted. change (Z.to_nat 1) with 1%nat. cbn [length rsum nth]. rewrite AG, Rplus_0_r, (proj1 (CO t T)). unfold y. cbn [INR]. field. }
  exists y, (1 / 4), g, r. split; [|split; [exact G|split; [|split; [exact R1|]]]].
  - intros t T. unfold sine. replace (2 * PI * (1 / 4) * INR t + 0) with (INR t * (PI / 2)) by field. rewrite (proj1 (CO t T)). unfold y. ring.
  - destruct (lms_inv _ _ _ _ _ _ _ G) as (_ & M & _). change (Z.to_nat 1) with 1%nat in M. rewrite M. cbn [seq map nth]. rewrite CF, Cmod_RtoC, Rabs_pos_eq by lra. lra.
  - rewrite (R5 0%nat) by (try (change (Z.to_nat 1) with 1%nat); lia || lra). lra.
Qed.
(** ** C191: the polar spectrum *)
Definition phase_bin (X : nat -> C) (k n : nat) (x : R) (b : nat) : C :=
  match first_order k n n b with
  | Some h => Cmult (X b) (rot (snd (landing k n h)) (cpow (unit_phasor (X k)) h))
  | None => Cmult (X b) (cpower (unit_phasor (X k)) (INR b / x))
  end.
Lemma phase_loop X k n x b : (0 < n)%nat -> (0 < k)%nat ->
  (let p := unit_phasor (X k) in let s := fold_left (harmonic_step k n p) (seq 1 n) (mkAlign (upd X 0 C0) (fun _ => false) p) in
   if al_done s b then al_fft s b else Cmult (al_fft s b) (cpower p (INR b / x))) = if (b =? 0)%nat then C0 else phase_bin X k n x b.
Proof.
  intros Hn Hk. cbv zeta. pose proof (align_loop k n (unit_phasor (X k)) (upd X 0 C0) n Hn) as [_ [Hd Hf]]. rewrite Hd, Hf. unfold upd, phase_bin.
  destruct (Nat.eqb_spec b 0) as [->|Nb]; destruct (first_order k n n _); try reflexivity; unfold Cmult, C0; cbn [fst snd]; f_equal; ring.
Qed.
Lemma phase_is N nb t k : length t = N -> (nb <= N / 2 + 1)%nat -> strongest_bin N nb t k -> 0 < Cmod (rfft t k) ->
  exists a, p_aligned N nb t = Some a /\ forall b, a b = if (b =? 0)%nat then C0 else phase_bin (rfft t) k N (p_position (upd (rfft t) 0 C0) nb k) b.
Proof.
  intros L Hnb S P. unfold p_aligned. cbv zeta. rewrite (strongest_is N nb t k L S P Hnb). destruct S as (K1 & K2 & _). destruct (Nat.eqb_spec k 0); [lia|].
  eexists. split; [reflexivity|]. intros b. cbv beta. assert (U : upd (rfft t) 0 C0 k = rfft t k) by (unfold upd; destruct (Nat.eqb_spec k 0); [lia|reflexivity]). rewrite U. apply (phase_loop (rfft t) k N); lia.
Qed.
Lemma phase_same N nb t : (p_aligned N nb t = None <-> m_aligned N nb t = None).
Proof. unfold p_aligned, m_aligned. cbv zeta. destruct (_ =? 0)%nat; split; intros H; try reflexivity; discriminate H. Qed.
Lemma phase_inv N nb t a : length t = N -> (1 <= nb <= N / 2 + 1)%nat -> p_aligned N nb t = Some a ->
  exists k, strongest_bin N nb t k /\ 0 < Cmod (rfft t k) /\ forall b, a b = if (b =? 0)%nat then C0 else phase_bin (rfft t) k N (p_position (upd (rfft t) 0 C0) nb k) b.
Proof.
  intros L Hnb H. destruct (m_aligned N nb t) as [m|] eqn:M; [|apply phase_same in M; congruence]. destruct (aligned_inv N nb t m L Hnb M) as (k & S & P & _). exists k. split; [exact S|]. split; [exact P|].
  destruct (phase_is N nb t k L (proj2 Hnb) S P) as (a' & E' & Q). rewrite E' in H. injection H as <-. exact Q.
Qed.
Lemma phase_bin_mod X k n x b : 0 < Cmod (X k) -> Cmod (phase_bin X k n x b) = Cmod (X b).
Proof.
  intros H. unfold phase_bin. pose proof (unit_phasor_mod _ H) as U. destruct (first_order k n n b) as [h|]; rewrite Cmod_mult.
  - rewrite Cmod_rot, Cmod_cpow, U, pow1. ring.
  - rewrite cpower_unit by exact U. ring.
Qed.
Lemma phase_turned N nb t a : length t = N -> (1 <= nb <= N / 2 + 1)%nat -> p_aligned N nb t = Some a ->
  a O = C0 /\ (forall b, (1 <= b)%nat -> Cmod (a b) = Cmod (rfft t b)) /\
  exists k, strongest_bin N nb t k /\ 0 < Cmod (rfft t k) /\ ((2 * k < N)%nat -> a k = RtoC (Cmod (rfft t k))).
Proof.
  intros L Hnb H. destruct (phase_inv N nb t a L Hnb H) as (k & S & P & Q). split; [rewrite Q; reflexivity|]. split.
  - intros b Hb. rewrite Q. destruct (Nat.eqb_spec b 0); [lia|]. apply phase_bin_mod, P.
  - exists k. split; [exact S|]. split; [exact P|]. intros K2. rewrite Q. destruct S as (K1 & _). destruct (Nat.eqb_spec k 0); [lia|]. unfold phase_bin.
    rewrite (first_of_one k N N k) by (rewrite ?landing_self by exact K2; reflexivity || lia). rewrite landing_self by exact K2. cbn [snd rot cpow].
    unfold unit_phasor. set (z := rfft t k) in *. pose proof (Cmod_sqr z) as M.
    destruct z as [x y]. set (m := Cmod (x, y)) in *. unfold Cmod2 in M. cbn [fst snd] in M. unfold Cmult, C1, Cconj, Cscale, RtoC. cbn [fst snd]. f_equal.
    + apply (Rmult_eq_reg_r m); [|lra]. field_simplify; [|lra]. lra.
    + field. lra.
Qed.
Lemma Ceqb0_false z : Ceqb0 z = false <-> z <> C0.
Proof. pose proof (Ceqb0_spec z). destruct (Ceqb0 z); split; intros; try congruence; try (intros E; apply H in E; discriminate); [exfalso; apply H0, H; reflexivity]. Qed.
Lemma Cmod_pos z : z <> C0 -> 0 < Cmod z.
Proof. intros H. destruct (Rle_lt_or_eq_dec _ _ (Cmod_nonneg z)) as [X|X]; [exact X|]. exfalso. apply H, Cmod_eq_0. symmetry. exact X. Qed.
Lemma level_is N runs z : (0 < N)%nat -> (0 < runs)%nat -> z <> C0 -> p_level N runs z = Some (level_db (4 * Cmod z / (INR N * INR runs))).
Proof.
  intros HN HR Z. unfold p_level. rewrite (proj2 (Ceqb0_false z) Z). f_equal. pose proof (Cmod_pos z Z) as P. pose proof (INR_pos N HN). pose proof (INR_pos runs HR). unfold level_db.
  assert (Q : 0 < 4 * Cmod z / (INR N * INR runs)) by (apply Rdiv_lt_0_compat; nra). replace (Cmod z ^ 2 / INR N ^ 2 * 16 / INR runs ^ 2) with ((4 * Cmod z / (INR N * INR runs)) * (4 * Cmod z / (INR N * INR runs))) by (field; lra).
  rewrite ln_mult by exact Q. unfold Rdiv. ring.
Qed.
Lemma raise_if_ok {A} c e (k : result A) v : raise_if c e k = Ok v -> c = false /\ k = Ok v.
Proof. destruct c; cbn [raise_if]; [discriminate|intros H; split; [reflexivity|exact H]]. Qed.
Lemma bind_ok {A B} (r : result A) (f : A -> result B) v : bind r f = Ok v -> exists x, r = Ok x /\ f x = Ok v.
Proof. destruct r; cbn [bind]; [intros H; eexists; split; [reflexivity|exact H]|discriminate]. Qed.
Lemma fft_inv sig H ms fs osr cut w g : m_plotphase_fft sig H ms fs osr cut w = Ok g ->
  let d := m_orient sig in let N := ncols d in let nb := p_band N osr in let scale := p_scale ms sig in
  let al := p_aligned_runs N nb (m_heard scale (m_window w N) d) in let sp := p_cut cut fs N (p_sum al nb) in
  let levels := map (p_level N (length al)) sp in let base := p_base levels in let radii := map (p_radius base) levels in let points := map2 p_point sp radii in
  p_bad ms fs osr cut = false /\ (1 <= nb <= N)%nat /\ scale <> 0 /\ (0 < length al)%nat /\ base < 0 /\ exists hs, m_harmonics (Some (p_peak radii nb)) H N = Ok hs /\ (forall b, In b hs -> (b < length sp)%nat) /\
  g = mkPfft points (nth (argmax radii) points None) (combine (seq 2 (length hs)) (map (fun b => nth b points None) hs))
        (rev (map (fun i => (- base - 10 * INR i, - 10 * INR i)) (seq 0 (S (Z.to_nat (Zfloor (- base / 10))))))) (- base).
Proof.
  unfold m_plotphase_fft. cbv zeta. intros E. apply raise_if_ok in E. destruct E as [E1 E]. set (d := m_orient sig) in *. set (N := ncols d) in *. set (nb := p_band N osr) in *. set (scale := p_scale ms sig) in *.
  apply raise_if_ok in E. destruct E as [E2 E]. apply orb_false_iff in E2. destruct E2 as [E2 E3]. apply Nat.eqb_neq in E2. apply Nat.ltb_ge in E3.
  apply raise_if_ok in E. destruct E as [E4 E]. apply Nat.eqb_neq in E4. destruct (Reqb_spec scale 0) as [SZ|SZ]; [exfalso; apply E4; reflexivity|].
  set (al := p_aligned_runs N nb (m_heard scale (m_window w N) d)) in *. set (sp := p_cut cut fs N (p_sum al nb)) in *. set (levels := map (p_level N (length al)) sp) in *. set (base := p_base levels) in *.
  apply raise_if_ok in E. destruct E as [E5 E]. destruct (Rleb_spec 0 base) as [|E6]; [discriminate E5|]. apply bind_ok in E. destruct E as (hs & Eh & E). apply raise_if_ok in E. destruct E as [E7 E].
  split; [exact E1|]. split; [lia|]. split; [exact SZ|]. split; [lia|]. split; [lra|]. exists hs. split; [exact Eh|]. split.
  - intros b Hb. destruct (Nat.ltb_spec b (length sp)) as [|G]; [assumption|]. exfalso. assert (X : existsb (fun b => (length sp <=? b)%nat) hs = true) by (apply existsb_exists; exists b; split; [exact Hb|apply Nat.leb_le; exact G]). congruence.
  - injection E as <-. reflexivity.
Qed.
Lemma Cmod_is z : sqrt (fst z ^ 2 + snd z ^ 2) = Cmod z.
Proof. unfold Cmod, Cmod2. f_equal. ring. Qed.
Lemma level_same N runs z : (0 < N)%nat -> (0 < runs)%nat -> p_level N runs z = level_of N runs z.
Proof.
  intros HN HR. unfold level_of. cbv zeta. rewrite Cmod_is. destruct (Req_EM_T (Cmod z) 0) as [E|E].
  - unfold p_level. rewrite (proj2 (Ceqb0_spec z)) by (apply Cmod_eq_0, E). reflexivity.
  - apply level_is; [exact HN|exact HR|]. intros Z. apply E. rewrite Z. apply Cmod_0.
Qed.
Lemma finite_short levels : (length (p_finite levels) <= length levels)%nat.
Proof. induction levels as [|[v|] t IH]; unfold p_finite in *; cbn [flat_map length app]; lia. Qed.
Lemma below_is x levels : below x levels = (length levels - length (p_finite levels) + length (filter (fun v => if Rlt_dec v x then true else false) (p_finite levels)))%nat.
Proof.
  induction levels as [|[v|] t IH]; [reflexivity| |]; pose proof (finite_short t); unfold below, p_finite in *; cbn [flat_map length app filter]; [|lia].
  destruct (Rlt_dec v x); cbn [length]; lia.
Qed.
Lemma sorted_below s i : StronglySorted Rle s -> (i < length s)%nat -> (length (filter (fun v => if Rlt_dec v (nth i s 0%R) then true else false) s) <= i)%nat.
Proof.
  revert i. induction s as [|a s IH]; intros i SS Hi; [cbn in Hi; lia|]. apply StronglySorted_inv in SS. destruct SS as [SS FA]. destruct i as [|i].
  - cbn [nth]. assert (F : forall l, Forall (Rle a) l -> filter (fun v => if Rlt_dec v a then true else false) l = []).
    { induction l as [|b l I]; intros Q; [reflexivity|]. inversion Q; subst. cbn [filter]. destruct (Rlt_dec b a); [lra|apply I; assumption]. }
    rewrite F; [cbn; lia|]. constructor; [lra|exact FA].
  - cbn [nth]. cbn [length] in Hi. specialize (IH i SS ltac:(lia)). cbn [filter]. destruct (Rlt_dec a (nth i s 0)); cbn [length]; lia.
Qed.
Lemma perm_filter_length {A} (p : A -> bool) l l' : Permutation l l' -> length (filter p l) = length (filter p l').
Proof. induction 1; cbn [filter]; repeat match goal with |- context [p ?a] => destruct (p a) end; cbn [length]; lia. Qed.
Lemma base_is levels : (0 < length levels)%nat -> let missing := (length levels - length (p_finite levels))%nat in
  (0.01 * INR (length levels) <= INR missing -> p_base levels = -100) /\
  (INR missing < 0.01 * INR (length levels) -> In (Some (p_base levels)) levels /\ INR (below (p_base levels) levels) < 0.01 * INR (length levels)).
Proof.
  intros HL missing. unfold p_base. cbv zeta. fold missing. set (n := length levels) in *. set (c := Zceil (INR n * 0.01)). pose proof (INR_pos n HL) as PN. destruct (Zceil_bounds (INR n * 0.01)) as [C1 C2]. fold c in C1, C2.
  assert (CP : (1 <= c)%Z) by (apply (Zlt_le_succ 0); apply lt_IZR; lra). assert (CE : INR (Z.to_nat c) = IZR c) by (rewrite INR_IZR_INZ, Z2Nat.id by lia; reflexivity).
  split; intros M; destruct (Nat.ltb_spec (Z.to_nat c - 1) missing) as [Q|Q]; try reflexivity.
  - exfalso. assert (IZR c - 1 < IZR (Z.of_nat missing)) by (rewrite <- INR_IZR_INZ; lra). assert (c - 1 < Z.of_nat missing)%Z by (apply lt_IZR; rewrite minus_IZR; exact H). lia.
  - exfalso. assert (QZ : (c <= Z.of_nat missing)%Z) by lia. apply IZR_le in QZ. rewrite <- INR_IZR_INZ in QZ. lra.
  - set (i := (Z.to_nat c - 1 - missing)%nat). pose proof (finite_short levels) as FS. fold n in FS.
    assert (CN : (c <= Z.of_nat n)%Z). { apply Z.lt_pred_le. apply lt_IZR. rewrite <- Z.sub_1_r, minus_IZR, <- INR_IZR_INZ. lra. }
    assert (I : (i < length (sortR (p_finite levels)))%nat) by (rewrite sortR_length; unfold i, missing in *; lia). split.
    + assert (IN : In (nth i (sortR (p_finite levels)) 0) (p_finite levels)) by (apply (Permutation_in _ (sortR_perm _)), nth_In, I). unfold p_finite in IN at 2. apply in_flat_map in IN. destruct IN as ([v|] & I1 & I2); [destruct I2 as [<-|[]]; exact I1|destruct I2].
    + rewrite below_is. fold n. fold missing. rewrite <- (perm_filter_length _ _ _ (sortR_perm (p_finite levels))). pose proof (sorted_below _ i (sortR_sorted (p_finite levels)) I) as SB.
      apply Rle_lt_trans with (INR (Z.to_nat c - 1)); [apply le_INR; unfold i in *; lia|]. rewrite minus_INR by lia. rewrite CE. cbn [INR]. lra.
Qed.
Lemma map2_len {A B E} (f : A -> B -> E) a b : length a = length b -> length (map2 f a b) = length a.
Proof. revert b. induction a as [|x a IH]; intros [|y b] H; cbn in *; try lia. rewrite IH by lia. reflexivity. Qed.
Lemma map2_nth_any {A B E} (f : A -> B -> E) a b i da db de : (i < length a)%nat -> (i < length b)%nat -> nth i (map2 f a b) de = f (nth i a da) (nth i b db).
Proof. revert b i. induction a as [|x a IH]; intros [|y b] [|i]; cbn [length map2 nth]; intros H1 H2; try lia; [reflexivity|]. apply IH; lia. Qed.
Lemma angle_scaled r z : 0 < r -> z <> C0 -> Carg (Cscale r (Cscale (/ Cmod z) z)) = Carg z.
Proof. intros R Z. pose proof (Cmod_pos z Z). rewrite !Carg_scale; [reflexivity|apply Rinv_0_lt_compat; assumption|exact R]. Qed.
Lemma angle_arg z : angle_of z (Carg z).
Proof. split; [apply Carg_range|]. rewrite Cmod_is. pose proof (polar z) as P. unfold Cscale, cis in P. cbn [fst snd] in P. split; [rewrite P at 1|rewrite P at 1]; reflexivity. Qed.
Lemma Carg_00 : Carg (0, 0) = 0.
Proof. unfold Carg. cbn [Re Im fst snd]. destruct (Rltb_spec 0 0); [lra | reflexivity]. Qed.
Lemma point_cases N runs base z : (0 < N)%nat -> (0 < runs)%nat -> let p := p_point z (p_radius base (p_level N runs z)) in
  (z = C0 -> p = None) /\ (z <> C0 -> p = Some (if Rltb base (level_db (4 * Cmod z / (INR N * INR runs))) then Carg z else 0, Rmax 0 (level_db (4 * Cmod z / (INR N * INR runs)) - base))).
Proof.
  intros HN HR p. split; intros Z.
  - unfold p, p_point. rewrite (proj2 (Ceqb0_spec z) Z). reflexivity.
  - unfold p. rewrite level_is by assumption. set (l := level_db _). unfold p_point, p_radius. rewrite (proj2 (Ceqb0_false z) Z). assert (RM : Rmax l base - base = Rmax 0 (l - base)) by (unfold Rmax; destruct (Rle_dec l base), (Rle_dec 0 (l - base)); lra).
    rewrite RM. f_equal. f_equal. destruct (Rltb_spec base l) as [B|B].
    + apply angle_scaled; [rewrite Rmax_right; lra|exact Z].
    + replace (Rmax 0 (l - base)) with 0 by (rewrite Rmax_left; lra). replace (Cscale 0 _) with (0, 0); [apply Carg_00|]. unfold Cscale. destruct (Cscale (/ Cmod z) z). cbn [fst snd]. f_equal; ring.
Qed.
(** What the polar spectrum shows.  S: the sum of the aligned runs over the band, without the bins below the cutoff. *)
Lemma c191_reading sig H ms fs osr cut w g : m_plotphase_fft sig H ms fs osr cut w = Ok g ->
  let N := ncols (m_orient sig) in let nb := p_band N osr in let al := p_aligned_runs N nb (m_heard (p_scale ms sig) (m_window w N) (m_orient sig)) in
  let S := p_cut cut fs N (p_sum al nb) in let level := fun b => level_db (4 * Cmod (nth b S C0) / (INR N * INR (length al))) in
  0 < px_limit g /\ length (px_points g) = length S /\
  (forall b, (b < length S)%nat -> (nth b S C0 = C0 -> nth b (px_points g) None = None) /\
     (nth b S C0 <> C0 -> exists a, nth b (px_points g) None = Some (a, Rmax 0 (level b + px_limit g)) /\ (0 < level b + px_limit g -> angle_of (nth b S C0) a))) /\
  (forall r l, In (r, l) (px_ticks g) <-> exists i : nat, l = - (10 * INR i) /\ r = px_limit g + l /\ 0 <= r) /\
  map fst (px_harmonics g) = seq 2 (H - 1) /\ (forall h p, In (h, p) (px_harmonics g) -> In p (px_points g)).
Proof.
  intros E N nb al S level. destruct (fft_inv _ _ _ _ _ _ _ _ E) as (_ & NB & _ & AL & B & hs & HS & IB & G). fold N in NB, AL, B, HS, IB, G. fold nb in NB, AL, B, HS, IB, G. fold al in AL, B, HS, IB, G. fold S in B, HS, IB, G.
  set (levels := map (p_level N (length al)) S) in *. set (base := p_base levels) in *. set (radii := map (p_radius base) levels) in *. assert (LR : length radii = length S) by (unfold radii, levels; rewrite !map_length; reflexivity).
  assert (PN : (0 < N)%nat) by lia. rewrite G. cbn [px_limit px_points px_ticks px_harmonics]. split; [lra|]. split; [apply map2_len; symmetry; exact LR|]. split; [|split; [|split]].
  - intros b Hb. rewrite (map2_nth_any _ _ _ _ C0 0) by lia. assert (NR : nth b radii 0 = p_radius base (p_level N (length al) (nth b S C0))).
    { unfold radii, levels. rewrite map_map. rewrite (nth_map_in _ _ _ C0) by exact Hb. reflexivity. }
    rewrite NR. destruct (point_cases N (length al) base (nth b S C0) PN AL) as [P1 P2]. split; [exact P1|]. intros Z. specialize (P2 Z). fold (level b) in P2. replace (level b + - base) with (level b - base) by ring. eexists. split; [exact P2|]. intros L. destruct (Rltb_spec base (level b)) as [|X]; [apply angle_arg|lra].
  - intros r l. rewrite <- in_rev, in_map_iff. assert (F0 : (0 <= Zfloor (- base / 10))%Z) by (apply Zfloor_lub; lra). destruct (Zfloor_bounds (- base / 10)) as [F1 F2]. split.
    + intros (i & Q & I). apply pair_equal_spec in Q. destruct Q as [<- <-]. apply in_seq in I. exists i. split; [ring|]. split; [ring|]. assert (I2 : (Z.of_nat i <= Zfloor (- base / 10))%Z) by lia. apply IZR_le in I2. rewrite <- INR_IZR_INZ in I2. lra.
    + intros (i & -> & -> & P). exists i. split; [f_equal; ring|]. apply in_seq. split; [lia|]. assert (I2 : (Z.of_nat i <= Zfloor (- base / 10))%Z) by (apply Zfloor_lub; rewrite <- INR_IZR_INZ; lra). lia.
  - assert (LH : length hs = (H - 1)%nat). { unfold m_harmonics in HS. destruct (Nat.leb_spec H 1); injection HS as <-; [cbn; lia|]. rewrite map_length, seq_length. reflexivity. }
    rewrite <- LH. assert (LM : length (map (fun b => nth b (map2 p_point S radii) None) hs) = length hs) by apply map_length. revert LM. generalize (map (fun b => nth b (map2 p_point S radii) None) hs). generalize 2%nat. clear. induction hs as [|x t IH]; intros m [|y l] L; cbn in *; try lia; [reflexivity|]. f_equal. apply IH. lia.
  - intros h p I. apply in_combine_r in I. apply in_map_iff in I. destruct I as (b & <- & I). apply nth_In. rewrite map2_len by (symmetry; exact LR). apply IB, I.
Qed.
(** Where the centre lies: at -100 dB as soon as one bin in a hundred is empty, else at the level of a bin with less than a hundredth of all
    bins below it. *)
Lemma c191_centre sig H ms fs osr cut w g : m_plotphase_fft sig H ms fs osr cut w = Ok g ->
  let N := ncols (m_orient sig) in let nb := p_band N osr in let al := p_aligned_runs N nb (m_heard (p_scale ms sig) (m_window w N) (m_orient sig)) in
  let levels := map (level_of N (length al)) (p_cut cut fs N (p_sum al nb)) in let n := INR (length levels) in let empty := length (filter (fun l => match l with None => true | Some _ => false end) levels) in
  (0.01 * n <= INR empty -> px_limit g = 100) /\ (INR empty < 0.01 * n -> In (Some (- px_limit g)) levels /\ INR (below (- px_limit g) levels) < 0.01 * n).
Proof.
  intros E N nb al levels n empty. destruct (fft_inv _ _ _ _ _ _ _ _ E) as (_ & NB & _ & AL & B & hs & _ & _ & G). fold N in NB, AL, B, G. fold nb in NB, AL, B, G. fold al in AL, B, G. assert (PN : (0 < N)%nat) by lia.
  assert (EL : map (p_level N (length al)) (p_cut cut fs N (p_sum al nb)) = levels) by (apply map_ext; intros z; apply level_same; [exact PN|exact AL]). rewrite EL in B, G.
  assert (EM : empty = (length levels - length (p_finite levels))%nat). { unfold empty. generalize levels. clear. intros l. induction l as [|[v|] t IH]; [reflexivity| |]; pose proof (finite_short t); unfold p_finite in *; cbn [filter flat_map length app]; lia. }
  rewrite G. cbn [px_limit]. rewrite Ropp_involutive. assert (HL : (0 < length levels)%nat).
  { assert (HC : (0 < length (p_cut cut fs N (p_sum al nb)))%nat); [|unfold levels; rewrite map_length; exact HC]. unfold p_cut. assert (length (p_sum al nb) = nb) by (unfold p_sum; rewrite map_length, seq_length; reflexivity). destruct (Rltb 0 cut); [|lia]. rewrite app_length, repeat_length, skipn_length. lia. }
  destruct (base_is levels HL) as [B1 B2]. rewrite <- EM in B1, B2. split; intros Q; [rewrite (B1 Q); ring|exact (B2 Q)].
Qed.
Lemma phase_zero N nb runs : (0 < N)%nat -> forall a, In a (p_aligned_runs N nb runs) -> a O = C0.
Proof.
  intros HN. induction runs as [|t T IH]; cbn [p_aligned_runs]; [intros a []|]. unfold p_aligned at 1. cbv zeta.
  destruct (Nat.eqb_spec (argmax (map (fun b => Cmod (upd (rfft t) 0 C0 b)) (seq 0 nb))) 0) as [E|E]; [exact IH|]. intros a [<-|Ha]; [|apply IH, Ha].
  set (k := argmax _) in *. assert (U : upd (rfft t) 0 C0 k = rfft t k) by (unfold upd; destruct (Nat.eqb_spec k 0); [lia|reflexivity]). rewrite U.
  apply (phase_loop (rfft t) k N _ 0); lia.
Qed.
Lemma sum_length al nb : length (p_sum al nb) = nb.
Proof. unfold p_sum. rewrite map_length, seq_length. reflexivity. Qed.
Lemma sum_nth al nb b : (b < nb)%nat -> nth b (p_sum al nb) C0 = fold_left (fun acc (a : nat -> C) => Cplus acc (a b)) al C0.
Proof. intros H. unfold p_sum. rewrite (nth_map_in _ _ _ 0%nat) by (rewrite seq_length; exact H). rewrite seq_nth by exact H. reflexivity. Qed.
(** With at most a hundred bins and no cutoff the axis always ends at 100 dB: bin 0 is empty. *)
Lemma c191_hundred sig H ms fs osr w g : m_plotphase_fft sig H ms fs osr 0 w = Ok g -> (length (px_points g) <= 100)%nat -> px_limit g = 100.
Proof.
  intros E L. pose proof (c191_reading _ _ _ _ _ _ _ _ E) as RD. cbv zeta in RD. destruct RD as (_ & LP & _). rewrite LP in L. pose proof (c191_centre _ _ _ _ _ _ _ _ E) as CE. cbv zeta in CE. destruct CE as [CE _].
  destruct (fft_inv _ _ _ _ _ _ _ _ E) as (_ & NB & _ & AL & _). set (N := ncols (m_orient sig)) in *. set (nb := p_band N osr) in *. set (al := p_aligned_runs N nb _) in *. apply CE. clear CE LP. revert L. unfold p_cut. rewrite (proj2 (Rltb_false 0 0)) by lra. rewrite map_length. intros L. rewrite sum_length in *.
  assert (Z : nth 0 (p_sum al nb) C0 = C0).
  { rewrite sum_nth by lia. pose proof (phase_zero N nb (m_heard (p_scale ms sig) (m_window w N) (m_orient sig)) ltac:(lia)) as AZ. fold al in AZ. clear -AZ. assert (Q : forall acc, fold_left (fun acc (a : nat -> C) => Cplus acc (a O)) al acc = acc); [|apply Q].
    induction al as [|a t IH]; intros acc; cbn [fold_left]; [reflexivity|]. rewrite (AZ a (or_introl eq_refl)). rewrite IH; [destruct acc; unfold Cplus, C0; cbn [fst snd]; f_equal; ring|]. intros u Hu. apply AZ. right. exact Hu. }
  pose proof (sum_length al nb) as SL. destruct (p_sum al nb) as [|z t]; [cbn in SL; lia|]. cbn [nth] in Z. subst z. cbn [map filter]. unfold level_of at 1. cbv zeta. rewrite Cmod_is, Cmod_0. destruct (Req_EM_T 0 0) as [_|X]; [|contradiction]. cbn [length]. rewrite S_INR. pose proof (pos_INR (length (filter (fun l => match l with None => true | Some _ => false end) (map (level_of N (length al)) t)))).
  apply le_INR in L. replace (INR 100) with 100 in L by (cbn; lra). lra.
Qed.
Lemma band_half N osr : 1 <= osr -> (p_band N osr <= N / 2)%nat.
Proof.
  intros O. unfold p_band. pose proof (Zfloor_bounds (INR N / 2 / osr)) as [F _]. set (z := Zfloor (INR N / 2 / osr)) in *. apply Nat.div_le_lower_bound; [lia|].
  destruct (Z.le_gt_cases z 0) as [Z0|Z0]; [lia|]. assert (INR N / 2 / osr <= INR N / 2). { unfold Rdiv at 1. rewrite <- (Rmult_1_r (INR N / 2)) at 2. apply Rmult_le_compat_l; [pose proof (pos_INR N); lra|]. rewrite <- Rinv_1. apply Rinv_le_contravar; lra. }
  assert (2 * z <= Z.of_nat N)%Z by (apply le_IZR; rewrite mult_IZR, <- INR_IZR_INZ; lra). lia.
Qed.
Lemma level_lt x y : 0 < x -> x < y -> level_db x < level_db y.
Proof. intros X L. unfold level_db. assert (0 < ln 10) by (rewrite <- ln_1; apply ln_increasing; lra). apply Rmult_lt_compat_l; [lra|]. apply Rmult_lt_compat_r; [apply Rinv_0_lt_compat; assumption|]. apply ln_increasing; assumption. Qed.
Lemma level_le x y : 0 < x -> x <= y -> level_db x <= level_db y.
Proof. intros X [L| ->]; [left; apply level_lt; assumption|right; reflexivity]. Qed.
Lemma silent_run v w r b : Forall (fun x => x = 0) r -> rfft (m_run v w r) b = C0.
Proof.
  intros Z. apply rfft_zeros. unfold m_run. cbv zeta. assert (M : lmean (map (fun x => x / v) r) = 0).
  { unfold lmean. replace (lsum (map (fun x => x / v) r)) with 0; [unfold Rdiv; ring|]. induction Z as [|x t X T IH]; [reflexivity|]. cbn [map lsum]. cbn [lsum] in *. rewrite <- IH, X. unfold Rdiv. ring. }
  rewrite M. generalize (sqrt (lmean (map (fun y => y ^ 2) w))). intros q. clear M. revert w. induction Z as [|x t X T IH]; intros [|u w]; cbn [map map2]; try constructor; [rewrite X; unfold Rdiv; ring|apply IH].
Qed.
Lemma orient_single (r : list R) : m_orient [r] = [r].
Proof. unfold m_orient. cbn [length]. change (1 <? 1)%nat with false. rewrite andb_false_r. reflexivity. Qed.
(** One run, no cutoff: every bin is as far out as the run's own spectrum is strong, and the strongest bin is at angle 0. *)
Lemma c191_single r H v fs osr w g : m_plotphase_fft [r] H (Some v) fs osr 0 w = Ok g -> 1 <= osr -> length (m_window w (length r)) = length r ->
  let N := length r in let X := rfft (m_run v (m_window w N) r) in let nb := length (px_points g) in let level := fun b => level_db (4 * Cmod (X b) / INR N) in
  nb = p_band N osr /\ nth 0 (px_points g) None = None /\
  (forall b, (1 <= b < nb)%nat -> (X b = C0 -> nth b (px_points g) None = None) /\ (X b <> C0 -> exists a, nth b (px_points g) None = Some (a, Rmax 0 (level b + px_limit g)))) /\
  exists k, (1 <= k < nb)%nat /\ X k <> C0 /\ (forall b, (1 <= b < nb)%nat -> Cmod (X b) <= Cmod (X k)) /\ (forall b, (1 <= b < k)%nat -> Cmod (X b) < Cmod (X k)) /\
    (- px_limit g < level k -> nth k (px_points g) None = Some (0, level k + px_limit g) /\ px_tone g = Some (0, level k + px_limit g)).
Proof.
  intros E O LW N X nb level. pose proof (fft_inv _ _ _ _ _ _ _ _ E) as I. cbv zeta in I. cbn [p_scale] in I. rewrite orient_single in I. change (ncols [r]) with N in I. set (B := p_band N osr) in *. set (t := m_run v (m_window w N) r) in *.
  destruct I as (_ & NB & SC & AL & BS & hs & _ & _ & G). assert (HB : (B <= N / 2)%nat) by (apply band_half, O). assert (Lt : length t = N) by (unfold t; rewrite run_length by (symmetry; exact LW); exact LW).
  assert (PN : (0 < N)%nat) by lia. pose proof (INR_pos N PN) as IN.
  assert (EA : exists a, p_aligned_runs N B (m_heard v (m_window w N) [r]) = [a] /\ p_aligned N B t = Some a).
  { revert AL. unfold m_heard. cbn [filter]. destruct (m_silent r); cbn [negb map p_aligned_runs length]; [lia|]. fold t. destruct (p_aligned N B t) as [a|]; cbn [length]; [|lia]. intros _. exists a. split; reflexivity. }
  destruct EA as (a & EA & PA). rewrite EA in *. destruct (phase_turned N B t a Lt ltac:(lia) PA) as (A0 & AM & k & (K1 & K2 & K3 & K4) & KP & KA).
  assert (ES : p_cut 0 fs N (p_sum [a] B) = map a (seq 0 B)). { unfold p_cut. rewrite (proj2 (Rltb_false 0 0)) by lra. unfold p_sum. apply map_ext. intros b. cbn [fold_left]. destruct (a b). unfold Cplus, C0. cbn [fst snd]. f_equal; ring. }
  rewrite ES in *. cbn [length] in *. set (lv := map (p_level N 1) (map a (seq 0 B))) in *. set (base := p_base lv) in *. set (radii := map (p_radius base) lv) in *.
  assert (LS : length (map a (seq 0 B)) = B) by (rewrite map_length, seq_length; reflexivity). assert (LR : length radii = B) by (unfold radii, lv; rewrite !map_length, seq_length; reflexivity).
  assert (RN : forall b, (b < B)%nat -> nth b radii 0 = p_radius base (p_level N 1 (a b))). { intros b Hb. unfold radii, lv. rewrite !map_map. rewrite (nth_map_in _ _ _ 0%nat) by (rewrite seq_length; exact Hb). rewrite seq_nth by exact Hb. reflexivity. }
  assert (PT : forall b, (b < B)%nat -> nth b (px_points g) None = p_point (a b) (p_radius base (p_level N 1 (a b)))).
  { intros b Hb. rewrite G. cbn [px_points]. rewrite (map2_nth_any _ _ _ _ C0 0) by lia. rewrite RN by exact Hb. f_equal. rewrite (nth_map_in _ _ _ 0%nat) by (rewrite seq_length; exact Hb). rewrite seq_nth by exact Hb. reflexivity. }
  assert (EN : nb = B). { unfold nb. rewrite G. cbn [px_points]. rewrite map2_len by lia. exact LS. }
  assert (EL : - px_limit g = base) by (rewrite G; cbn [px_limit]; ring).
  assert (LV : forall b, (1 <= b < B)%nat -> level_db (4 * Cmod (a b) / (INR N * INR 1)) = level b). { intros b Hb. unfold level. rewrite AM by lia. cbn [INR]. rewrite Rmult_1_r. reflexivity. }
  assert (AZ : forall b, (1 <= b)%nat -> (a b = C0 <-> X b = C0)). { intros b Hb. specialize (AM b Hb). fold (X b) in AM. split; intros Z; apply Cmod_eq_0; [rewrite <- AM|rewrite AM]; rewrite Z; apply Cmod_0. }
  assert (TD : forall j, rdft N (fun i => nth i t 0) j = X j) by (intros j; unfold X, rfft; rewrite Lt; reflexivity).
  split; [exact EN|]. split; [rewrite PT by lia; rewrite A0; apply (proj1 (point_cases N 1 base C0 PN ltac:(lia))); reflexivity|]. split.
  - rewrite EN. intros b Hb. rewrite PT by lia. destruct (point_cases N 1 base (a b) PN ltac:(lia)) as [P1 P2]. split; intros Z; [apply P1, AZ; [lia|exact Z]|].
    rewrite P2 by (intros Q; apply Z, AZ; [lia|exact Q]). rewrite LV by exact Hb. eexists. f_equal. f_equal. f_equal. lra.
  - exists k. rewrite EN. split; [exact K1|]. assert (XK : X k <> C0) by (intros Z; change (0 < Cmod (X k)) in KP; rewrite Z, Cmod_0 in KP; lra). split; [exact XK|]. split; [intros b Hb; rewrite <- !TD; apply K3; [exact Hb|apply half_bound; lia]|]. split; [intros b Hb; rewrite <- !TD; apply K4, Hb|].
    rewrite EL. intros LK. assert (NK : nth k (px_points g) None = Some (0, level k + px_limit g)).
    { rewrite PT by lia. destruct (point_cases N 1 base (a k) PN ltac:(lia)) as [_ P2]. rewrite P2 by (intros Q; apply XK, AZ; [lia|exact Q]). rewrite LV by exact K1. destruct (Rltb_spec base (level k)) as [_|Q]; [|lra].
      assert (C0' : Carg (a k) = 0). { rewrite KA by (pose proof (proj2 (half_bound N k)); pose proof (Nat.div_mod N 2 ltac:(lia)); lia). unfold RtoC, Carg. cbn [Re Im fst snd]. change (0 < Cmod (X k)) in KP. fold (X k).
        destruct (Rltb_spec 0 (Cmod (X k))); [|lra]. unfold Rdiv. rewrite Rmult_0_l. apply atan_0. }
      rewrite C0'. f_equal. f_equal. rewrite Rmax_right; lra. }
    split; [exact NK|]. assert (AR : argmax radii = k).
    { assert (RK : nth k radii 0 = level k - base). { rewrite RN by lia. rewrite level_is by (lia || (intros Q; apply XK, AZ; [lia|exact Q])). rewrite LV by exact K1. cbn [p_radius]. rewrite Rmax_left; lra. }
      assert (RJ : forall j, (j < B)%nat -> nth j radii 0 = 0 \/ ((1 <= j)%nat /\ X j <> C0 /\ nth j radii 0 = Rmax (level j) base - base)).
      { intros j Hj. rewrite RN by exact Hj. destruct (Ceqb0 (a j)) eqn:Q. { left. apply Ceqb0_spec in Q. rewrite Q. unfold p_level. rewrite (proj2 (Ceqb0_spec C0) eq_refl). reflexivity. }
        right. apply Ceqb0_false in Q. assert (J1 : (1 <= j)%nat) by (destruct j; [exfalso; apply Q, A0|lia]). split; [exact J1|]. split; [intros Z; apply Q, AZ; assumption|]. rewrite level_is by (lia || exact Q). rewrite LV by lia. reflexivity. }
      assert (POS : forall j, X j <> C0 -> 0 < 4 * Cmod (X j) / INR N) by (intros j Z; apply Rdiv_lt_0_compat; [pose proof (Cmod_pos _ Z); lra|exact IN]).
      apply argmax_unique; [lia| |].
      - intros j Hj. rewrite RK. destruct (RJ j ltac:(lia)) as [-> |(J1 & JZ & ->)]; [lra|]. assert (level j <= level k). { apply level_le; [apply POS, JZ|]. unfold Rdiv. apply Rmult_le_compat_r; [left; apply Rinv_0_lt_compat, IN|]. apply Rmult_le_compat_l; [lra|]. rewrite <- !TD. apply K3; [lia|apply half_bound; lia]. }
        unfold Rmax. destruct (Rle_dec (level j) base); lra.
      - intros j Hj. rewrite RK. destruct (RJ j ltac:(lia)) as [-> |(J1 & JZ & ->)]; [lra|]. assert (level j < level k). { apply level_lt; [apply POS, JZ|]. unfold Rdiv. apply Rmult_lt_compat_r; [apply Rinv_0_lt_compat, IN|]. apply Rmult_lt_compat_l; [lra|]. rewrite <- !TD. apply K4; lia. }
        unfold Rmax. destruct (Rle_dec (level j) base); lra. }
    rewrite <- NK. rewrite G. cbn [px_tone px_points]. rewrite AR. reflexivity.
Qed.
Lemma rotated_bin N t k d b : (0 < N)%nat -> length t = N -> (0 < k)%nat -> (0 < b)%nat -> 0 < Cmod (rfft t k) -> harmonic_bin N k b -> aligned_bin (rfft (rotated d t)) k N b = aligned_bin (rfft t) k N b.
Proof.
  intros HN Lt K B0 PK HB. pose proof (align_rotated N t k 1 d b HN Lt ltac:(lia) HB) as AE.
  destruct (harmonic_first N k b HN ltac:(lia) HB) as [h Eh]. rewrite !align_closed in AE by lia. rewrite Eh in AE. unfold aligned_bin. rewrite Eh.
  assert (AP : forall z, 0 < Cmod z -> align_phasor z = Cscale (shrink z) (unit_phasor z)).
  { intros z Hz. unfold align_phasor, unit_phasor, shrink. destruct z as [u v]. pose proof (SpecMetricProofs.eps_pos 20). set (m := Cmod (u, v)) in *. unfold Cconj, Cscale. cbn [fst snd]. f_equal; field; lra. }
  assert (PR : Cmod (rfft (rotated d t) k) = Cmod (rfft t k)) by (rewrite rfft_rotated, Cmod_mult, Cmod_cis; ring).
  rewrite !AP in AE by lra. rewrite !cpow_scale, !rot_scale in AE. replace (shrink (rfft (rotated d t) k)) with (shrink (rfft t k)) in AE by (unfold shrink; rewrite PR; reflexivity).
  set (g := shrink (rfft t k) ^ h) in *. assert (G0 : g <> 0). { apply pow_nonzero. unfold shrink. pose proof (SpecMetricProofs.eps_pos 20). apply Rgt_not_eq. apply Rdiv_lt_0_compat; lra. }
  assert (CM : forall u v, Cmult u (Cscale g v) = Cscale g (Cmult u v)) by (intros [u1 u2] [v1 v2]; unfold Cmult, Cscale; cbn [fst snd]; f_equal; ring). rewrite !CM in AE.
  assert (CI : forall u v, Cscale g u = Cscale g v -> u = v). { intros [u1 u2] [v1 v2]. unfold Cscale. cbn [fst snd]. intros E. injection E as E1 E2. f_equal; apply (Rmult_eq_reg_l g); assumption. }
  apply CI, AE.
Qed.
Lemma phase_harmonic X k n x b : (0 < n)%nat -> (0 < b)%nat -> harmonic_bin n k b -> phase_bin X k n x b = aligned_bin X k n b.
Proof. intros HN B HB. destruct (harmonic_first n k b HN B HB) as [h Eh]. unfold phase_bin, aligned_bin. rewrite Eh. reflexivity. Qed.
Lemma level_scaled N n z : (0 < n)%nat -> p_level N n (Cscale (INR n) z) = p_level N 1 z.
Proof.
  intros Hn. pose proof (INR_pos n Hn) as P. unfold p_level. assert (Q : Ceqb0 (Cscale (INR n) z) = Ceqb0 z).
  { destruct (Ceqb0 z) eqn:E. - apply Ceqb0_spec in E. subst z. apply Ceqb0_spec. unfold Cscale, C0. cbn [fst snd]. f_equal; ring.
    - apply Ceqb0_false. apply Ceqb0_false in E. intros Z. apply E. apply Cmod_eq_0. apply (f_equal Cmod) in Z. rewrite Cmod_scale, Cmod_0, Rabs_pos_eq in Z by lra. apply Rmult_integral in Z. destruct Z; [lra|assumption]. }
  rewrite Q. destruct (Ceqb0 z); [reflexivity|]. f_equal. f_equal. f_equal. f_equal. rewrite Cmod_scale, Rabs_pos_eq by lra. cbn [INR]. destruct (Nat.eq_dec N 0) as [->|NZ].
  - cbn [INR]. unfold Rdiv. replace (0 ^ 2) with 0 by ring. rewrite Rinv_0. ring.
  - assert (INR N <> 0) by (apply not_0_INR, NZ). field. repeat split; lra.
Qed.
Lemma point_scaled n z r : (0 < n)%nat -> p_point (Cscale (INR n) z) r = p_point z r.
Proof.
  intros Hn. pose proof (INR_pos n Hn) as P. unfold p_point. assert (Q : Ceqb0 (Cscale (INR n) z) = Ceqb0 z).
  { destruct (Ceqb0 z) eqn:E. - apply Ceqb0_spec in E. subst z. apply Ceqb0_spec. unfold Cscale, C0. cbn [fst snd]. f_equal; ring.
    - apply Ceqb0_false. apply Ceqb0_false in E. intros Z. apply E. apply Cmod_eq_0. apply (f_equal Cmod) in Z. rewrite Cmod_scale, Cmod_0, Rabs_pos_eq in Z by lra. apply Rmult_integral in Z. destruct Z; [lra|assumption]. }
  rewrite Q. destruct (Ceqb0 z) eqn:E; [reflexivity|]. apply Ceqb0_false, Cmod_pos in E. f_equal. f_equal. f_equal. f_equal. rewrite Cmod_scale, Rabs_pos_eq by lra. destruct z as [x y]. set (m := Cmod (x, y)) in *. unfold Cscale. cbn [fst snd]. f_equal; field; lra.
Qed.
(** Records that differ only in where they start (rectangular window, tone with a number of periods coprime to the record length) give the
    figure of one of them. *)
Lemma c191_delays r k ds H v fs osr cut : let N := length r in let nb := p_band N osr in let t := m_run v (m_window MRect N) r in 1 <= osr -> ~ Forall (fun x => x = 0) r ->
  strongest_bin N nb t k -> rfft t k <> C0 -> Nat.gcd k N = 1%nat -> ds <> [] ->
  m_plotphase_fft (map (fun d => rotated d r) ds) H (Some v) fs osr cut MRect = m_plotphase_fft [r] H (Some v) fs osr cut MRect.
Proof.
  intros N nb t O NZ S XK G DS. assert (HB : (nb <= N / 2)%nat) by (apply band_half, O). pose proof S as (K1 & K2 & _). assert (HN : (0 < N)%nat) by lia. set (w := m_window MRect N) in *. assert (Lw : length w = N) by apply repeat_length. assert (Lt : length t = N) by (unfold t; rewrite run_length; lia).
  assert (PK : 0 < Cmod (rfft t k)) by (apply Cmod_pos, XK). assert (N2 : N <> 1%nat) by (intros E; rewrite E in HB; cbn in HB; lia).
  assert (NZR : forall d, ~ Forall (fun x => x = 0) (rotated d r)).
  { intros d Z. apply XK. pose proof (silent_run v w _ k Z) as C. unfold w in C. rewrite run_rotated in C by (reflexivity || lia). fold w in C. fold t in C. rewrite rfft_rotated in C.
    apply Cmod_eq_0. apply (f_equal Cmod) in C. rewrite Cmod_mult, Cmod_cis, Cmod_0 in C. lra. }
  destruct (phase_is N nb t k Lt ltac:(lia) S PK) as (a & Ea & Qa).
  assert (AR : forall d, exists u, p_aligned N nb (m_run v w (rotated d r)) = Some u /\ forall b, (2 * b <= N)%nat -> u b = a b).
  { intros d. unfold w. rewrite run_rotated by (reflexivity || lia). fold w. fold t. destruct (phase_is N nb (rotated d t) k) as (u & Eu & Qu); [rewrite rotated_length; exact Lt|lia|apply strongest_rotated; assumption|rewrite rfft_rotated, Cmod_mult, Cmod_cis; lra|].
    exists u. split; [exact Eu|]. intros b Hb. rewrite Qu, Qa. destruct (Nat.eqb_spec b 0) as [|B0]; [reflexivity|]. pose proof (coprime_harmonic N k b HN ltac:(lia) G Hb) as HBn.
    rewrite !phase_harmonic by (assumption || lia). apply rotated_bin; assumption || lia. }
  assert (HE : m_heard v w (map (fun d => rotated d r) ds) = map (m_run v w) (map (fun d => rotated d r) ds)).
  { apply (heard_all v w N). split; [destruct ds; [contradiction|discriminate]|]. intros x Hx. apply in_map_iff in Hx. destruct Hx as (d & <- & _). split; [apply rotated_length|apply NZR]. }
  assert (H1 : m_heard v w [r] = [t]) by (apply (heard_all v w N); split; [discriminate|]; intros x [<-|[]]; split; [reflexivity|assumption]).
  assert (NC : ncols (map (fun d => rotated d r) ds) = N) by (destruct ds; [contradiction|]; unfold ncols; cbn [map hd]; apply rotated_length).
  assert (OR : m_orient (map (fun d => rotated d r) ds) = map (fun d => rotated d r) ds) by (unfold m_orient; rewrite NC; destruct (Nat.eqb_spec N 1); [contradiction|reflexivity]).
  unfold m_plotphase_fft. cbv zeta. rewrite orient_single, OR, NC. change (ncols [r]) with N. cbn [p_scale]. fold nb. fold w. rewrite HE, H1. destruct (Reqb v 0); [reflexivity|]. cbn [p_aligned_runs]. rewrite Ea.
  set (al := p_aligned_runs N nb (map (m_run v w) (map (fun d => rotated d r) ds))).
  assert (AL : length al = length ds /\ forall u, In u al -> forall b, (2 * b <= N)%nat -> u b = a b).
  { unfold al. clear al HE DS NC OR. induction ds as [|d T IH]; cbn [map p_aligned_runs]; [split; [reflexivity|intros u []]|]. destruct IH as [I1 I2]. destruct (AR d) as (u & Eu & Qu). rewrite Eu.
    split; [cbn [length]; rewrite I1; reflexivity|]. intros x [<-|Hx] b Hb; [apply Qu, Hb|apply I2; assumption]. }
  destruct AL as [AL AB]. assert (DN : (0 < length al)%nat) by (rewrite AL; destruct ds; [contradiction|cbn; lia]). set (n := length al) in *.
  assert (CP : forall z, Cplus C0 z = z) by (intros [x y]; unfold Cplus, C0; cbn [fst snd]; f_equal; ring).
  assert (SU : p_sum al nb = map (Cscale (INR n)) (p_sum [a] nb)).
  { unfold p_sum. rewrite map_map. apply map_ext_in. intros b Hb. apply in_seq in Hb. rewrite (fold_const al b (a b)) by (intros u Hu; apply AB; [exact Hu|apply half_bound; lia]). cbn [fold_left]. rewrite !CP. reflexivity. }
  assert (CU : p_cut cut fs N (p_sum al nb) = map (Cscale (INR n)) (p_cut cut fs N (p_sum [a] nb))).
  { rewrite SU. unfold p_cut. destruct (Rltb 0 cut); [|reflexivity]. rewrite map_app, skipn_map. f_equal. generalize (Z.to_nat (Zceil (cut / fs * INR N))). intros c. induction c as [|c IH]; [reflexivity|]. cbn [repeat map]. rewrite <- IH. f_equal. unfold Cscale, C0. cbn [fst snd]. f_equal; ring. }
  cbn [length]. rewrite CU. set (sp := p_cut cut fs N (p_sum [a] nb)). assert (LV : map (p_level N n) (map (Cscale (INR n)) sp) = map (p_level N 1) sp) by (rewrite map_map; apply map_ext; intros z; apply level_scaled, DN). rewrite LV. rewrite map_length.
  assert (PP : forall rs, map2 p_point (map (Cscale (INR n)) sp) rs = map2 p_point sp rs). { generalize sp. clear -DN. intros l. induction l as [|z s IH]; intros [|q rs]; cbn [map map2]; try reflexivity. rewrite point_scaled by exact DN. rewrite IH. reflexivity. }
  rewrite PP. destruct (Nat.eqb_spec n 0); [lia|]. reflexivity.
Qed.
Lemma tone_bins N k A c ph v b : (0 < k)%nat -> (2 * k < N)%nat -> 0 < A -> 0 < v -> (2 * b <= N)%nat ->
  Cmod (rfft (m_run v (m_window MRect N) (map (fun n => c + A * cos (2 * PI * INR k * INR n / INR N + ph)) (seq 0 N))) b) = if (b =? k)%nat then INR N * (A / v) / 2 else 0.
Proof.
  intros K K2 PA PV Hb. assert (HN : (0 < N)%nat) by lia. pose proof (INR_pos N HN) as PN. set (r := map _ (seq 0 N)). set (w := m_window MRect N). assert (Lr : length r = N) by (unfold r; rewrite map_length, seq_length; reflexivity). assert (Lw : length w = N) by apply repeat_length.
  assert (RN : forall n, (n < N)%nat -> nth n r 0 = c + A * cos (2 * PI * INR k * INR n / INR N + ph)). { intros n Hn. unfold r. rewrite (nth_map_in _ _ _ 0%nat) by (rewrite seq_length; exact Hn). rewrite seq_nth by exact Hn. reflexivity. }
  assert (ME : lmean (map (fun x => x / v) r) = c / v).
  { rewrite lmean_rsum, map_length, Lr. rewrite (rsum_ext N _ (fun n => c / v + / v * (A * cos (2 * PI * INR k * INR n / INR N + ph)))) by (intros n Hn; rewrite (nth_map_in _ _ _ 0) by lia; rewrite RN by exact Hn; field; lra).
    rewrite rsum_plus, rsum_scale, rsum_const. rewrite (tone_sum N k A ph K K2). field. lra. }
  assert (WQ : sqrt (lmean (map (fun y => y ^ 2) w)) = 1). { replace (lmean (map (fun y => y ^ 2) w)) with 1; [apply sqrt_1|]. rewrite lmean_rsum, map_length, Lw. rewrite (rsum_ext N _ (fun _ => 1)); [rewrite rsum_const; field; lra|]. intros n Hn. rewrite (nth_map_in _ _ _ 1) by lia. unfold w, m_window. rewrite nth_repeat. ring. }
  assert (TN : forall n, (n < N)%nat -> nth n (m_run v w r) 0 = A / v * cos (2 * PI * INR k * INR n / INR N + ph) * cosw [1] N n).
  { intros n Hn. unfold m_run. cbv zeta. rewrite ME, WQ. rewrite map2_at by (rewrite ?map_length; lia). rewrite (nth_map_in _ _ _ 0) by lia. rewrite RN by exact Hn. unfold w, m_window. rewrite (nth_indep _ 0 1), nth_repeat by (rewrite repeat_length; exact Hn). unfold cosw. cbn [length rsum nth INR]. rewrite Rmult_0_l, cos_0. field. lra. }
  unfold rfft. rewrite run_length by lia. rewrite Lw. rewrite (rdft_ext N _ _ b TN). destruct (wtone_rdft [1] N k (A / v) ph b) as [th ->]; [discriminate|cbn; lia|cbn; lia|pose proof (proj1 (half_bound N b) Hb); lia|].
  rewrite Cmod_scale, Cmod_cis, Rmult_1_r. unfold lobe, bin_dist. destruct (Nat.eqb_spec b k) as [->|D].
  - replace (k - k + (k - k))%nat with 0%nat by lia. cbn [Nat.eqb nth]. rewrite Rmult_1_r, Rabs_pos_eq; [reflexivity|]. apply Rmult_le_pos; [|lra]. apply Rmult_le_pos; [lra|]. left. apply Rdiv_lt_0_compat; assumption.
  - destruct (b - k + (k - b))%nat as [|[|q]] eqn:Q; [lia| |]; cbn [Nat.eqb nth]; unfold Rdiv; rewrite !Rmult_0_l, Rmult_0_r; apply Rabs_R0.
Qed.
Lemma one_level L k s m : p_finite (map (fun b => if (b =? k)%nat then Some L else None) (seq s m)) = if ((s <=? k) && (k <? s + m))%nat then [L] else [].
Proof.
  revert s. induction m as [|m IH]; intros s; cbn [seq map].
  - destruct (Nat.leb_spec s k), (Nat.ltb_spec k (s + 0)); try lia; reflexivity.
  - unfold p_finite in *. cbn [flat_map]. rewrite IH. destruct (Nat.eqb_spec s k), (Nat.leb_spec (S s) k), (Nat.ltb_spec k (S s + m)), (Nat.leb_spec s k), (Nat.ltb_spec k (s + S m)); try lia; reflexivity.
Qed.
Lemma alias_nat x N : (0 < N)%nat -> m_alias (IZR (Z.of_nat x)) (INR N) = Ok (IZR (Z.of_nat (Nat.min (x mod N) (N - x mod N)))).
Proof.
  intros HN. pose proof (INR_pos N HN) as PN. pose proof (Nat.div_mod x N ltac:(lia)) as D. pose proof (Nat.mod_upper_bound x N ltac:(lia)) as U. set (q := (x / N)%nat) in *. set (e := (x mod N)%nat) in *. apply alias_bin; [exact HN|].
  destruct (Nat.le_gt_cases (2 * e) N) as [L|L].
  - rewrite Nat.min_l by lia. replace (IZR (Z.of_nat x)) with (IZR (Z.of_nat e) + IZR (Z.of_nat q) * INR N). + apply nmd_shift, nmd_fixed; [exact PN|]. split; [apply IZR_le; lia|]. apply le_INR in L. rewrite mult_INR in L. rewrite <- INR_IZR_INZ. cbn [INR] in L. lra.
    + rewrite <- !INR_IZR_INZ. rewrite D. rewrite plus_INR, mult_INR. ring.
  - rewrite Nat.min_r by lia. replace (IZR (Z.of_nat x)) with (- IZR (Z.of_nat (N - e)) + IZR (Z.of_nat (S q)) * INR N). + apply nmd_shift, nmd_neg, nmd_fixed; [exact PN|]. split; [apply IZR_le; lia|]. assert (L2 : (2 * (N - e) <= N)%nat) by lia. apply le_INR in L2. rewrite mult_INR in L2. rewrite <- INR_IZR_INZ. cbn [INR] in L2. lra.
    + rewrite <- !INR_IZR_INZ. rewrite minus_INR by lia. rewrite S_INR. rewrite D at 1. rewrite plus_INR, mult_INR. ring.
Qed.
Lemma harmonics_nat k H N : (0 < N)%nat -> m_harmonics (Some (INR k)) H N = Ok (map (fun h => Nat.min ((h * k) mod N) (N - (h * k) mod N)) (seq 2 (H - 1))).
Proof.
  intros HN. unfold m_harmonics. destruct (Nat.leb_spec H 1) as [L|L]; [replace (H - 1)%nat with O by lia; reflexivity|]. f_equal. rewrite <- seq_shift, <- (seq_shift _ 0), !map_map. apply map_ext. intros i.
  rewrite <- mult_INR. replace (m_round (INR (k * (i + 2)))) with (Z.of_nat (k * (i + 2))).
  - rewrite alias_nat by exact HN. rewrite Zfloor_IZR, Nat2Z.id. replace (k * (i + 2))%nat with (S (S i) * k)%nat by lia. reflexivity.
  - unfold m_round. destruct (Rleb_spec 0 (INR (k * (i + 2)))) as [G|G]; [|pose proof (pos_INR (k * (i + 2))); lra]. symmetry. rewrite INR_IZR_INZ. apply Zfloor_imp. rewrite plus_IZR. lra.
Qed.
(** A pure tone of k periods in 2M samples, rectangular window: only its own bin is drawn, at angle 0 and at its level, on an axis from
    -100 dB; but as soon as one of the harmonics to be marked falls on bin M (half the sampling rate) the call fails, for that bin is not among the bins
    shown. *)
Lemma c191_tone M k H v fs A c ph : (0 < k)%nat -> (k + 2 <= M)%nat -> 0 < v -> 0 < fs -> 0 < A -> let N := (2 * M)%nat in let level := level_db (2 * A / v) in -100 < level ->
  let run := m_plotphase_fft [map (fun n => c + A * cos (2 * PI * INR k * INR n / INR N + ph)) (seq 0 N)] H (Some v) fs 1 0 MRect in
  ((forall h, (2 <= h <= H)%nat -> ((h * k) mod N <> M)%nat) -> exists g, run = Ok g /\ px_limit g = 100 /\ px_tone g = Some (0, level + 100) /\ length (px_points g) = M /\
     (forall b, (b < M)%nat -> nth b (px_points g) None = if (b =? k)%nat then Some (0, level + 100) else None) /\
     map snd (px_harmonics g) = map (fun h => nth (Nat.min ((h * k) mod N) (N - (h * k) mod N)) (px_points g) None) (seq 2 (H - 1))) /\
  ((exists h, (2 <= h <= H)%nat /\ ((h * k) mod N = M)%nat) -> run = Err RuntimeError).
Proof.
  intros K KM PV PF PA N level LV run. assert (HN : (0 < N)%nat) by (unfold N; lia). pose proof (INR_pos N HN) as PN. assert (N2 : (N / 2 = M)%nat) by (unfold N; rewrite Nat.mul_comm; apply Nat.div_mul; lia).
  assert (NB : p_band N 1 = M). { unfold p_band. replace (INR N / 2 / 1) with (IZR (Z.of_nat M)); [rewrite Zfloor_IZR; apply Nat2Z.id|]. unfold N. rewrite mult_INR, <- INR_IZR_INZ. change (INR 2) with 2. field. }
  set (r := map (fun n => c + A * cos (2 * PI * INR k * INR n / INR N + ph)) (seq 0 N)) in *. assert (Lr : length r = N) by (unfold r; rewrite map_length, seq_length; reflexivity). set (w := m_window MRect N). assert (Lw : length w = N) by apply repeat_length. set (t := m_run v w r). assert (Lt : length t = N) by (unfold t; rewrite run_length; lia).
  assert (TB : forall b, (2 * b <= N)%nat -> Cmod (rfft t b) = if (b =? k)%nat then INR N * (A / v) / 2 else 0) by (intros b Hb; apply tone_bins; assumption || (unfold N; lia)).
  assert (TP : 0 < INR N * (A / v) / 2). { apply Rdiv_lt_0_compat; [|lra]. apply Rmult_lt_0_compat; [exact PN|apply Rdiv_lt_0_compat; assumption]. }
  assert (TK : Cmod (rfft t k) = INR N * (A / v) / 2) by (rewrite TB by (unfold N; lia); rewrite Nat.eqb_refl; reflexivity).
  assert (ST : strongest_bin N M t k).
  { assert (TD : forall j, rdft N (fun i => nth i t 0) j = rfft t j) by (intros j; unfold rfft; rewrite Lt; reflexivity). split; [lia|]. split; [unfold N; lia|]. cbv zeta. split; intros j Hj; [intros J2|]; rewrite !TD, TK, TB by (unfold N in *; lia); destruct (Nat.eqb_spec j k); try lia; lra. }
  destruct (phase_is N M t k Lt ltac:(lia) ST ltac:(lra)) as (a & Ea & _). destruct (phase_turned N M t a Lt ltac:(lia) Ea) as (A0 & AM & k' & ST' & KP' & KA).
  assert (KK : k' = k). { destruct ST' as (Q1 & Q2 & _). rewrite TB in KP' by exact Q2. destruct (Nat.eqb_spec k' k); [assumption|lra]. } subst k'. specialize (KA ltac:(unfold N; lia)). rewrite TK in KA.
  assert (AB : forall b, (b < M)%nat -> a b = if (b =? k)%nat then RtoC (INR N * (A / v) / 2) else C0).
  { intros b Hb. destruct (Nat.eqb_spec b k) as [->|D]; [exact KA|]. destruct b as [|b]; [exact A0|]. apply Cmod_eq_0. rewrite AM by lia. rewrite TB by (unfold N; lia). destruct (Nat.eqb_spec (S b) k); [contradiction|reflexivity]. }
  assert (HE : m_heard v w [r] = [t]). { apply (heard_all v w N). split; [discriminate|]. intros x [<-|[]]. split; [exact Lr|]. intros Z. apply (silent_run v w r k) in Z. fold t in Z. rewrite Z, Cmod_0 in TK. lra. }
  set (z := RtoC (INR N * (A / v) / 2)) in *. assert (ZZ : z <> C0) by (unfold z; intros Q; injection Q as Q; lra).
  assert (LZ : p_level N 1 z = Some level). { rewrite level_is by (lia || exact ZZ). unfold level, z. rewrite Cmod_RtoC, Rabs_pos_eq by lra. do 2 f_equal. cbn [INR]. field. lra. }
  assert (ES : p_cut 0 fs N (p_sum [a] M) = map (fun b => if (b =? k)%nat then z else C0) (seq 0 M)).
  { unfold p_cut. rewrite (proj2 (Rltb_false 0 0)) by lra. unfold p_sum. apply map_ext_in. intros b Hb. apply in_seq in Hb. cbn [fold_left]. rewrite AB by lia. destruct (b =? k)%nat; [destruct z|]; unfold Cplus, C0; cbn [fst snd]; f_equal; ring. }
  set (lv := map (fun b => if (b =? k)%nat then Some level else None) (seq 0 M)). assert (EL : map (p_level N 1) (map (fun b => if (b =? k)%nat then z else C0) (seq 0 M)) = lv).
  { rewrite map_map. apply map_ext. intros b. destruct (b =? k)%nat; [exact LZ|]. unfold p_level. rewrite (proj2 (Ceqb0_spec C0) eq_refl). reflexivity. }
  assert (BA : p_base lv = -100). { assert (LL : length lv = M) by (unfold lv; rewrite map_length, seq_length; reflexivity). apply base_is; [lia|]. rewrite LL. unfold lv. rewrite one_level. destruct (Nat.leb_spec 0 k), (Nat.ltb_spec k (0 + M)); try lia. cbn [andb length]. rewrite minus_INR by lia. assert (2 <= INR M) by (apply (le_INR 2); lia). cbn [INR]. lra. }
  set (rad := map (p_radius (-100)) lv). assert (RN : forall b, (b < M)%nat -> nth b rad 0 = if (b =? k)%nat then level + 100 else 0).
  { intros b Hb. unfold rad, lv. rewrite map_map. rewrite (nth_map_in _ _ _ 0%nat) by (rewrite seq_length; exact Hb). rewrite seq_nth by exact Hb. cbn [Nat.add]. destruct (b =? k)%nat; cbn [p_radius]; [rewrite Rmax_left by lra; ring|reflexivity]. }
  assert (LR : length rad = M) by (unfold rad, lv; rewrite !map_length, seq_length; reflexivity).
  assert (AR : argmax rad = k). { apply argmax_unique; [lia| |]; intros j Hj; rewrite !RN by lia; rewrite Nat.eqb_refl; destruct (Nat.eqb_spec j k); try lia; lra. }
  assert (PK : p_peak rad M = INR k). { unfold p_peak. cbv zeta. rewrite AR. rewrite !RN by lia. rewrite Nat.eqb_refl. destruct (Nat.eqb_spec (Nat.min (k - 1) (M - 1)) k); [lia|]. destruct (Nat.eqb_spec (Nat.min (k + 1) (M - 1)) k); [lia|]. destruct (Reqb_spec (2 * (level + 100) - 0 - 0) 0); [lra|]. unfold Rdiv. ring. }
  assert (RE : run = raise_if (existsb (fun b => (M <=? b)%nat) (map (fun h => Nat.min ((h * k) mod N) (N - (h * k) mod N)) (seq 2 (H - 1)))) RuntimeError
    (Ok (mkPfft (map2 p_point (map (fun b => if (b =? k)%nat then z else C0) (seq 0 M)) rad) (nth k (map2 p_point (map (fun b => if (b =? k)%nat then z else C0) (seq 0 M)) rad) None)
      (combine (seq 2 (length (map (fun h => Nat.min ((h * k) mod N) (N - (h * k) mod N)) (seq 2 (H - 1))))) (map (fun b => nth b (map2 p_point (map (fun b => if (b =? k)%nat then z else C0) (seq 0 M)) rad) None) (map (fun h => Nat.min ((h * k) mod N) (N - (h * k) mod N)) (seq 2 (H - 1)))))
      (rev (map (fun i => (- -100 - 10 * INR i, - 10 * INR i)) (seq 0 (S (Z.to_nat (Zfloor (- -100 / 10))))))) (- -100)))).
  { unfold run, m_plotphase_fft. cbv zeta. unfold p_bad. rewrite (proj2 (Rleb_false v 0)), (proj2 (Rleb_false fs 0)), (proj2 (Rleb_false 1 0)), (proj2 (Rltb_false 0 0)) by lra. cbn [orb raise_if].
    rewrite orient_single. unfold ncols. cbn [hd]. rewrite Lr. cbn [p_scale]. rewrite NB. destruct (Nat.eqb_spec M 0); [lia|]. destruct (Nat.ltb_spec N M); [unfold N in *; lia|]. cbn [orb raise_if]. destruct (Reqb_spec v 0); [lra|]. fold w. rewrite HE. cbn [p_aligned_runs]. rewrite Ea. cbn [length Nat.eqb raise_if].
    rewrite ES, EL, BA. fold rad. rewrite (proj2 (Rleb_false 0 (-100))) by lra. cbn [raise_if]. rewrite PK, harmonics_nat by exact HN. cbn [bind]. rewrite AR, !map_length, !seq_length. reflexivity. }
  rewrite RE. split.
  - intros NH. match goal with |- context [raise_if ?q _ _] => assert (EQ : q = false) end. { apply not_true_iff_false. intros X. apply existsb_exists in X. destruct X as (b & I & L). apply in_map_iff in I. destruct I as (h & <- & I). apply in_seq in I. apply Nat.leb_le in L. specialize (NH h ltac:(lia)). pose proof (Nat.mod_upper_bound (h * k) N ltac:(lia)). unfold N in *. lia. }
    rewrite EQ.
    cbn [raise_if]. eexists. split; [reflexivity|]. cbn [px_limit px_tone px_points px_harmonics].
    assert (PT : forall b, (b < M)%nat -> nth b (map2 p_point (map (fun b => if (b =? k)%nat then z else C0) (seq 0 M)) rad) None = if (b =? k)%nat then Some (0, level + 100) else None).
    { intros b Hb. rewrite (map2_nth_any _ _ _ _ C0 0) by (rewrite ?map_length, ?seq_length, ?LR; exact Hb). rewrite RN by exact Hb. rewrite (nth_map_in _ _ _ 0%nat) by (rewrite seq_length; exact Hb). rewrite seq_nth by exact Hb. cbn [Nat.add]. unfold p_point. destruct (b =? k)%nat.
      - rewrite (proj2 (Ceqb0_false z) ZZ). f_equal. f_equal. rewrite angle_scaled by (lra || exact ZZ). unfold z, RtoC, Carg. cbn [Re Im fst snd]. destruct (Rltb_spec 0 (INR N * (A / v) / 2)); [|lra]. unfold Rdiv at 1. rewrite Rmult_0_l. apply atan_0.
      - rewrite (proj2 (Ceqb0_spec C0) eq_refl). reflexivity. }
    split; [ring|]. split; [rewrite PT by lia; rewrite Nat.eqb_refl; reflexivity|]. split; [rewrite map2_len; rewrite map_length, seq_length; [reflexivity|symmetry; exact LR]|]. split; [exact PT|].
    rewrite map_map. rewrite !map_length, seq_length. generalize (H - 1)%nat. generalize 2%nat. intros s m. revert s. assert (CB : forall (X Y : Type) (x : list X) (y : list Y), length x = length y -> map snd (combine x y) = y) by (clear; induction x as [|p x IH]; intros [|q y] L; cbn in *; try lia; [reflexivity|]; rewrite IH by lia; reflexivity). intros s. apply CB. rewrite map_length. reflexivity.
  - intros (h & HH & E). match goal with |- context [raise_if ?q _ _] => assert (EQ : q = true) end; [|rewrite EQ; reflexivity]. apply existsb_exists. exists M. split; [|apply Nat.leb_refl]. apply in_map_iff. exists h. split; [rewrite E; unfold N; lia|]. apply in_seq. lia.
Qed.
(** A cosine of one period in eight samples, full scale 2: drawn with two harmonics marked, not with four. *)
Definition tone8 : list R := map (fun n => 0 + 1 * cos (2 * PI * INR 1 * INR n / INR (2 * 4) + 0)) (seq 0 (2 * 4)).
Lemma level_one : level_db (2 * 1 / 2) = 0.
Proof. unfold level_db. replace (2 * 1 / 2) with 1 by field. rewrite ln_1. unfold Rdiv. ring. Qed.
Example c191_tone_ex : exists g, m_plotphase_fft [tone8] 3 (Some 2) 1 1 0 MRect = Ok g /\ px_limit g = 100 /\ px_tone g = Some (0, 100) /\ px_points g = [None; Some (0, 100); None; None] /\ px_harmonics g = [(2%nat, None); (3%nat, None)].
Proof.
  destruct (c191_tone 4 1 3 2 1 1 0 0 ltac:(lia) ltac:(lia) ltac:(lra) ltac:(lra) ltac:(lra)) as [T _]; [rewrite level_one; lra|]. destruct T as (g & E & L & TO & LP & PT & HS). { intros h Hh. destruct h as [|[|[|[|h]]]]; try lia; cbv; discriminate. }
  rewrite level_one in *. exists g. split; [exact E|]. split; [exact L|]. split; [rewrite TO; do 2 f_equal; ring|].
  assert (EP : px_points g = [None; Some (0, 100); None; None]).
  { pose proof (PT 0%nat ltac:(lia)) as P0. pose proof (PT 1%nat ltac:(lia)) as P1. pose proof (PT 2%nat ltac:(lia)) as P2. pose proof (PT 3%nat ltac:(lia)) as P3. destruct (px_points g) as [|p0 [|p1 [|p2 [|p3 [|p4 l]]]]]; try discriminate LP. cbn [nth Nat.eqb] in *. rewrite P0, P1, P2, P3. rewrite Rplus_0_l. reflexivity. }
  split; [exact EP|]. pose proof (c191_reading _ _ _ _ _ _ _ _ E) as RD. cbv zeta in RD. destruct RD as (_ & _ & _ & _ & MF & _). rewrite EP in HS. change (seq 2 (3 - 1)) with [2; 3]%nat in *. cbn [map] in HS.
  change (Nat.min ((2 * 1) mod (2 * 4)) (2 * 4 - (2 * 1) mod (2 * 4))) with 2%nat in HS. change (Nat.min ((3 * 1) mod (2 * 4)) (2 * 4 - (3 * 1) mod (2 * 4))) with 3%nat in HS. cbn [nth] in HS.
  destruct (px_harmonics g) as [|[a p] [|[b q] [|x l]]]; try discriminate MF. cbn [map fst snd] in *. injection MF as -> ->. injection HS as -> ->. reflexivity.
Qed.
(** One would like a clean tone to be drawn whatever the number of harmonics to be marked; with the default of five this one is an error. *)
Lemma c191_tone_refuted : m_plotphase_fft [tone8] 5 (Some 2) 1 1 0 MRect = Err RuntimeError.
Proof.
  destruct (c191_tone 4 1 5 2 1 1 0 0 ltac:(lia) ltac:(lia) ltac:(lra) ltac:(lra) ltac:(lra)) as [_ T]; [rewrite level_one; lra|]. apply T. exists 4%nat. split; [lia|reflexivity].
Qed.
Example c191_reading_ex : exists g, m_plotphase_fft [tone8] 3 (Some 2) 1 1 0 MRect = Ok g /\ In (100, 0) (px_ticks g) /\ In (90, -10) (px_ticks g) /\ In (0, -100) (px_ticks g) /\ ~ In (95, -5) (px_ticks g).
Proof.
  destruct c191_tone_ex as (g & E & L & _). exists g. split; [exact E|]. pose proof (c191_reading _ _ _ _ _ _ _ _ E) as RD. cbv zeta in RD. destruct RD as (_ & _ & _ & TK & _). rewrite L in TK. split; [apply TK; exists 0%nat; cbn [INR]; lra|]. split; [apply TK; exists 1%nat; cbn [INR]; lra|]. split; [apply TK; exists 10%nat; cbn [INR]; lra|].
  intros I. apply TK in I. destruct I as (i & Q & _). rewrite INR_IZR_INZ in Q. assert (10 * IZR (Z.of_nat i) = 5) by lra. rewrite <- mult_IZR in H. apply eq_IZR in H. lia.
Qed.
Example c191_hundred_ex : exists g, m_plotphase_fft [tone8] 3 (Some 2) 1 1 0 MRect = Ok g /\ length (px_points g) = 4%nat /\ px_limit g = 100.
Proof. destruct c191_tone_ex as (g & E & _ & _ & P & _). exists g. split; [exact E|]. assert (L : length (px_points g) = 4%nat) by (rewrite P; reflexivity). split; [exact L|]. apply (c191_hundred _ _ _ _ _ _ _ E). lia. Qed.
Example c191_centre_ex : p_base [None; Some (-3); Some (-50)] = -100 /\ p_base [Some (-3); Some (-50); Some (-20)] = -50 /\ below (-50) [Some (-3); Some (-50); Some (-20)] = 0%nat.
Proof.
  split; [|split].
  - apply (proj1 (base_is [None; Some (-3); Some (-50)] ltac:(cbn; lia))). cbn. lra.
  - unfold p_base. cbv zeta. cbn [p_finite flat_map app length INR]. replace (Zceil ((1 + 1 + 1) * 0.01)) with 1%Z by (symmetry; apply Zceil_imp; rewrite minus_IZR; lra). cbn [Nat.sub Z.to_nat Pos.to_nat Pos.iter_op Nat.ltb Nat.leb].
    assert (SO : sortR [-3; -50; -20] = [-50; -20; -3]). { etransitivity; [apply (sortR_permutation _ [-50; -20; -3])|]. - apply perm_trans with [-50; -3; -20]; [apply perm_swap|]. apply perm_skip, perm_swap. - apply sorted_unique; [apply sortR_sorted|repeat constructor; lra|apply sortR_perm]. }
    rewrite SO. reflexivity.
  - unfold below. cbn [filter]. destruct (Rlt_dec (-3) (-50)); [lra|]. destruct (Rlt_dec (-50) (-50)); [lra|]. destruct (Rlt_dec (-20) (-50)); [lra|]. reflexivity.
Qed.
Example c191_single_ex : exists g, m_plotphase_fft [tone8] 3 (Some 2) 1 1 0 MRect = Ok g /\ nth 0 (px_points g) None = None /\ px_tone g = Some (0, 100).
Proof. destruct c191_tone_ex as (g & E & _ & T & _). exists g. split; [exact E|]. split; [|exact T]. destruct (c191_single _ _ _ _ _ _ _ E ltac:(lra) ltac:(apply repeat_length)) as (_ & Q & _). exact Q. Qed.
Lemma tone8_facts : let t := m_run 2 (m_window MRect 8) tone8 in strongest_bin 8 4 t 1 /\ rfft t 1 <> C0 /\ ~ Forall (fun x => x = 0) tone8.
Proof.
  intros t. assert (TB : forall b, (b <= 4)%nat -> Cmod (rfft t b) = if (b =? 1)%nat then INR 8 * (1 / 2) / 2 else 0) by (intros b Hb; apply (tone_bins 8 1 1 0 0 2 b); lia || lra).
  assert (TP : INR 8 * (1 / 2) / 2 = 2) by (cbn [INR]; lra). assert (Lt : length t = 8%nat) by (unfold t; rewrite run_length; reflexivity).
  assert (TD : forall j, rdft 8 (fun i => nth i t 0) j = rfft t j) by (intros j; unfold rfft; rewrite Lt; reflexivity). assert (T1 : Cmod (rfft t 1) = 2) by (rewrite TB by lia; exact TP). split; [|split].
  - split; [lia|]. split; [lia|]. cbv zeta. split; intros j Hj; [intros J2|lia]. rewrite !TD, T1, TB by lia. destruct (Nat.eqb_spec j 1); rewrite ?TP; lra.
  - intros Z. rewrite Z, Cmod_0 in T1. lra.
  - intros Z. apply (silent_run 2 (m_window MRect 8) tone8 1) in Z. fold t in Z. rewrite Z, Cmod_0 in T1. lra.
Qed.
Lemma tone8_band : p_band (length tone8) 1 = 4%nat.
Proof. unfold p_band. change (length tone8) with 8%nat. replace (INR 8 / 2 / 1) with (IZR 4) by (cbn [INR]; lra). rewrite Zfloor_IZR. reflexivity. Qed.
Example c191_delays_ex : exists g, m_plotphase_fft [rotated 0 tone8; rotated 3 tone8] 3 (Some 2) 1 1 0 MRect = Ok g /\ px_points g = [None; Some (0, 100); None; None].
Proof.
  destruct c191_tone_ex as (g & E & _ & _ & P & _). exists g. split; [|exact P]. rewrite <- E. destruct tone8_facts as (S & Z & NZ). apply (c191_delays tone8 1 [0; 3]%nat 3 2 1 1 0); try (lra || exact NZ || exact Z || reflexivity || discriminate). rewrite tone8_band. exact S.
Qed.

(** Between bins the tone is placed at the top of the parabola through the logarithms of its bin and both neighbours; with an empty neighbour
    it stays on its bin. *)
Lemma c191_position X nb k a b c : let mag j := Cmod (X j) in (0 < mag (k - 1)%nat)  -> (0 < mag (Nat.min (k + 1) (nb - 1))) -> a <> 0 ->
  (forall s v, In (s, v) [(-1, mag (k - 1)%nat); (0, mag k); (1, mag (Nat.min (k + 1) (nb - 1)))] -> a * s ^ 2 + b * s + c = ln v / ln 10) ->
  exists s, p_position X nb k = INR k + s /\ 2 * a * s + b = 0.
Proof.
  intros mag L R A H. pose proof (H (-1) _ (or_introl eq_refl)) as H1. pose proof (H 0 _ (or_intror (or_introl eq_refl))) as H2. pose proof (H 1 _ (or_intror (or_intror (or_introl eq_refl)))) as H3. unfold p_position. cbv zeta. fold (mag k). fold (mag (k - 1)%nat). fold (mag (Nat.min (k + 1) (nb - 1))). rewrite <- H1, <- H2, <- H3.
  destruct (Rltb_spec 0 (mag (k - 1)%nat)); [| lra]. destruct (Rltb_spec 0 (mag (Nat.min (k + 1) (nb - 1)))); [| lra]. cbn [andb]. match goal with |- context [Reqb ?d 0] => replace d with (- 2 * a) by ring; destruct (Reqb_spec (- 2 * a) 0) as [Z | Z]; [lra |] end. cbn [negb]. exists (- b / (2 * a)). split; [f_equal; field; exact A | field; exact A].
Qed.
Lemma c191_position_edge X nb k : Cmod (X (k - 1)%nat) = 0 \/ Cmod (X (Nat.min (k + 1) (nb - 1))) = 0 -> p_position X nb k = INR k.
Proof. intros H. unfold p_position. cbv zeta. destruct (Rltb_spec 0 (Cmod (X (k - 1)%nat))); destruct (Rltb_spec 0 (Cmod (X (Nat.min (k + 1) (nb - 1))))); cbn [andb]; try reflexivity. destruct H; lra. Qed.
(** The least-squares mode fits the frequency from scratch, to 10^-12 in at most 100 steps, and then reads the plot at that frequency. *)
Lemma c190_frequency lin sig nh ms fs osr cut w g : m_plotphase_lms lin sig nh ms fs osr cut w = Ok g ->
  exists r, m_sinfit lin [p_record (p_scale ms sig) (m_orient sig)] 0 (1 / 10 ^ 12) (1 / 2) false 100 = Ok (Some r) /\ p_lms_at lin (p_record (p_scale ms sig) (m_orient sig)) (mf_freq r) nh osr w = Ok g.
Proof.
  unfold m_plotphase_lms. destruct (p_bad ms fs osr cut); cbn [raise_if]; [discriminate |]. cbv zeta. destruct (Reqb _ 0); cbn [raise_if]; [discriminate |]. destruct (m_sinfit _ _ _ _ _ _ _) as [[r |] | e]; cbn [bind]; try discriminate. intros E. exists r. split; [reflexivity | exact E].
Qed.
(** With oversampling and no window the noise is what the ideal filter keeps between 0 and fs / (2 osr); without oversampling all of it. *)
Lemma c190_inband osr res : (1 < osr -> res <> [] -> p_inband osr MRect res = bind (m_ifilter (map (fun x => [x]) res) [[0; 1 / (2 * osr)]]) (fun c => Ok (map (fun r => nth 0 r 0) c))) /\ (osr <= 1 -> forall w, p_inband osr w res = Ok res).
Proof.
  unfold p_inband. split.
  - intros O NE. destruct (Rltb_spec 1 osr); [| lra]. cbv zeta. replace (0.5 / osr) with (1 / (2 * osr)) by (replace 0.5 with (1 / 2) by lra; field; lra). change (m_window MRect (length res)) with (repeat 1 (length res)). set (n := length res). assert (PN : 0 < INR n) by (apply lt_0_INR; destruct res; [contradiction | unfold n; cbn; lia]).
    assert (M : lmean (map (fun y => y ^ 2) (repeat 1 n)) = 1). { unfold lmean. rewrite map_length, repeat_length. assert (S : forall m, lsum (map (fun y => y ^ 2) (repeat 1 m)) = INR m). { intros m. induction m as [| m IH]; [reflexivity |]. cbn [repeat map]. change (lsum (1 ^ 2 :: map (fun y => y ^ 2) (repeat 1 m))) with (1 ^ 2 + lsum (map (fun y => y ^ 2) (repeat 1 m))). rewrite IH, S_INR. ring. } rewrite S. field. lra. }
    rewrite M, sqrt_1. assert (Q : map2 (fun x v => x * (v / 1)) res (repeat 1 n) = res); [| rewrite Q; reflexivity]. subst n. clear. induction res as [| x t IH]; [reflexivity |]. cbn [length repeat map2]. rewrite IH. f_equal. field.
  - intros O w. destruct (Rltb_spec 1 osr); [lra | reflexivity].
Qed.
(** Magnitudes 1, 100, 10: the top is a sixth of a bin towards the larger neighbour. *)
Example c191_position_ex : let X := fun j => match j with O => C1 | S O => (100, 0) | _ => (10, 0) end in p_position X 3 1 = 1 + 1 / 6.
Proof.
  intros X. assert (P : 0 < ln 10) by (rewrite <- ln_1; apply ln_increasing; lra). assert (M : forall v, 0 <= v -> Cmod (v, 0) = v) by (intros v V; unfold Cmod, Cmod2; cbn [fst snd]; replace (v * v + 0 * 0) with (v * v) by ring; apply sqrt_square, V).
  assert (E : ln 100 = 2 * ln 10) by (replace 100 with (10 * 10) by ring; rewrite ln_mult by lra; ring).
  destruct (c191_position X 3 1 (- 3 / 2) (1 / 2) 2) as (s & -> & S).
  - change (0 < Cmod (1, 0)). rewrite M; lra.
  - change (0 < Cmod (10, 0)). rewrite M; lra.
  - lra.
  - intros s v [H | [H | [H | []]]]; injection H as <- <-; match goal with |- context [Cmod ?z] => first [change (Cmod z) with (Cmod (1, 0)) | change (Cmod z) with (Cmod (100, 0)) | change (Cmod z) with (Cmod (10, 0))] end; rewrite M by lra; rewrite ?E, ?ln_1; field; lra.
  - cbn [INR]. lra.
Qed.
