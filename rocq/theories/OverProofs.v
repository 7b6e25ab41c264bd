(** * Oversampling tools: the final lemmas are named c124_ to c127_. *)
From Verif Require Import Base BaseLemmas Cplx UnitsModel UnitsSpec UnitsProofs TiModel TiProofs SpecModel SpecSpec SpecLemmas SpecProofs CalModel CalSpec FitModel FitSpec FitProofs OsrModel OsrSpec OsrProofs EplaneProofs CalExLemmas CalExProofs OverModel OverSpec.
From Coq Require Import Psatz Permutation Sorted.
Local Open Scope R_scope.

(** ntf_points is a unary number that must not be computed. *)
Opaque ntf_points.
(** ** Polynomials on the unit circle *)
Lemma peval_app p c z : peval (p ++ [c]) z = Cplus (Cmult (peval p z) z) (RtoC c).
Proof. unfold peval. rewrite fold_left_app. reflexivity. Qed.
Lemma csum_last n f : csum (S n) f = Cplus (csum n f) (f n). Proof. reflexivity. Qed.
Lemma peval_circle p w : peval p (cis w) = on_circle p w.
Proof.
  induction p as [|c p IH] using rev_ind; [reflexivity|]. rewrite peval_app, IH. unfold on_circle. rewrite app_length. cbn [length].
  replace (length p + 1)%nat with (S (length p)) by lia. rewrite csum_last. f_equal.
  - rewrite <- csum_mult_r. apply csum_ext. intros i Hi. rewrite app_nth1 by exact Hi. rewrite Cscale_mult, <- cis_plus. f_equal. f_equal.
    replace (S (length p) - 1 - i)%nat with (S (length p - 1 - i)) by lia. rewrite S_INR. ring.
  - rewrite app_nth2 by lia. rewrite Nat.sub_diag. cbn [nth]. replace (S (length p) - 1 - length p)%nat with 0%nat by lia. cbn [INR]. rewrite Rmult_0_l, cis_0.
    unfold Cscale, RtoC, C1. cbn. f_equal; ring.
Qed.
Lemma grid_point k : ntf_grid k = frequency_point k. Proof. unfold ntf_grid, frequency_point. lra. Qed.
Lemma Cmod2_zero z : Cmod2 z = 0 <-> z = C0.
Proof. split; [|intros ->; unfold Cmod2, C0; cbn; ring]. intros H. apply Cmod_eq_0. unfold Cmod. rewrite H. apply sqrt_0. Qed.
Lemma mag2_response num den f : on_circle den (2 * PI * f) <> C0 -> mag2 num den f = Fin (response num den f).
Proof.
  intros H. unfold mag2, response. cbv zeta. replace (f * 2 * PI) with (2 * PI * f) by ring. rewrite !peval_circle.
  destruct (Reqb_spec (Cmod2 (on_circle den (2 * PI * f))) 0) as [Z|Z]; [apply Cmod2_zero in Z; contradiction|reflexivity].
Qed.
Lemma xsum_filter (P : nat -> bool) g h l : (forall k, In k l -> P k = true -> g k = Fin (h k)) ->
  xsum (map g (filter P l)) = Fin (lsum (map (fun k => if P k then h k else 0) l)).
Proof.
  induction l as [|k l IH]; intros H; [reflexivity|]. cbn [filter map lsum]. destruct (P k) eqn:E.
  - cbn [map xsum fold_right]. change (fold_right xadd (Fin 0) (map g (filter P l))) with (xsum (map g (filter P l))).
    rewrite IH by (intros; apply H; [right|]; assumption). rewrite (H k (or_introl eq_refl) E). reflexivity.
  - rewrite IH by (intros; apply H; [right|]; assumption). f_equal. ring.
Qed.
Lemma in_band_spec lo hi f : in_band lo hi f = if Rlt_dec lo f then if Rlt_dec f hi then true else false else false.
Proof. unfold in_band, Rltb. destruct (Rlt_dec lo f), (Rlt_dec f hi); reflexivity. Qed.
Lemma ntf_points_INR : INR ntf_points = 65536.
Proof. with_strategy transparent [ntf_points] unfold ntf_points. rewrite INR_IZR_INZ, Z2Nat.id by lia. reflexivity. Qed.
Lemma ntf_points_pos : (0 < ntf_points)%nat. Proof. apply INR_lt. rewrite ntf_points_INR. simpl. lra. Qed.
Lemma lsum_map_seq n f : lsum (map f (seq 0 n)) = rsum n f.
Proof. induction n as [|n IH]; [reflexivity|]. rewrite seq_S, map_app, lsum_app, IH. cbn. ring. Qed.
Lemma band_noise_eq num den lo hi : no_pole ntf_points den lo hi -> band_noise num den lo hi = Fin (noise_in_band ntf_points num den lo hi).
Proof.
  intros H. unfold band_noise. rewrite (xsum_filter _ _ (fun k => response num den (frequency_point k))).
  - rewrite lsum_map_seq. unfold noise_in_band. rewrite ntf_points_INR. f_equal. f_equal. apply rsum_ext. intros k Hk. rewrite in_band_spec, grid_point.
    destruct (Rlt_dec lo (frequency_point k)); [destruct (Rlt_dec (frequency_point k) hi)|]; reflexivity.
  - intros k Hk B. apply in_seq in Hk. rewrite in_band_spec, grid_point in B. rewrite grid_point. apply mag2_response. apply H; [lia|].
    destruct (Rlt_dec lo (frequency_point k)); [|discriminate]. destruct (Rlt_dec (frequency_point k) hi); [|discriminate]. split; assumption.
Qed.
Lemma response_nonneg num den f : 0 <= response num den f.
Proof.
  unfold response. pose proof (Cmod2_nonneg (on_circle num (2 * PI * f))). pose proof (Cmod2_nonneg (on_circle den (2 * PI * f))).
  destruct (Req_dec (Cmod2 (on_circle den (2 * PI * f))) 0) as [->|N]; [unfold Rdiv; rewrite Rinv_0; lra|]. apply Rmult_le_pos; [assumption|]. left. apply Rinv_0_lt_compat. lra.
Qed.
Lemma noise_nonneg n num den lo hi : 0 <= noise_in_band n num den lo hi.
Proof.
  unfold noise_in_band. destruct (Nat.eq_dec n 0) as [->|N]; [cbn; unfold Rdiv; rewrite Rinv_0; lra|]. apply Rdiv_le_0_compat; [|apply lt_0_INR; lia].
  apply rsum_nonneg. intros k _. pose proof (response_nonneg num den (frequency_point k)). destruct (Rlt_dec _ _); [destruct (Rlt_dec _ _)|]; lra.
Qed.
(** The result is -10 log10 of the response summed over the points strictly inside the band and divided by 65536
    (infinite when that is zero), provided no point of the band is a pole. *)
Lemma c124_formula num den lo hi : num <> [] -> Exists (fun c => c <> 0) den -> no_pole ntf_points den lo hi ->
  exists v, ntf_analyzer num den lo hi = Ok v /\
    (0 < noise_in_band ntf_points num den lo hi -> v = Fin (- 10 * lg (noise_in_band ntf_points num den lo hi))) /\
    (noise_in_band ntf_points num den lo hi = 0 -> v = PInf).
Proof.
  intros HN HD HP. unfold ntf_analyzer, raise_if. destruct (Nat.eqb_spec (length num) 0) as [Z|_]; [apply length_zero_iff_nil in Z; contradiction|].
  assert (F : forallb (fun c => Reqb c 0) den = false).
  { apply not_true_iff_false. intros F. rewrite forallb_forall in F. apply Exists_exists in HD. destruct HD as (c & Hc & Nz). specialize (F c Hc). destruct (Reqb_spec c 0); [contradiction|discriminate]. }
  rewrite F. cbn [orb]. eexists. split; [reflexivity|]. rewrite band_noise_eq by exact HP. set (v := noise_in_band _ _ _ _ _). split.
  - intros P. rewrite xlog10_pos by exact P. cbn [xaxpy]. f_equal. ring.
  - intros ->. unfold xlog10. destruct (Rltb_spec 0 0); [lra|]. destruct (Reqb_spec 0 0); [|contradiction]. cbn [xaxpy]. destruct (Rltb_spec 0 (-10)); [lra|reflexivity].
Qed.
Lemma c124_errors num den lo hi : (exists v, ntf_analyzer num den lo hi = Ok v) \/
  (ntf_analyzer num den lo hi = Err ValueError /\ (num = [] \/ Forall (fun c => c = 0) den)).
Proof.
  unfold ntf_analyzer, raise_if. destruct (Nat.eqb_spec (length num) 0) as [Z|_]; [right; split; [reflexivity|]; left; apply length_zero_iff_nil; exact Z|].
  destruct (forallb (fun c => Reqb c 0) den) eqn:F; cbn [orb]; [right; split; [reflexivity|]; right|left; eexists; reflexivity].
  apply Forall_forall. intros c Hc. rewrite forallb_forall in F. specialize (F c Hc). destruct (Reqb_spec c 0); [assumption|discriminate].
Qed.
(** ** Counting *)
Lemma count_below n b : 0 <= b <= INR n -> rsum n (fun k => if Rlt_dec (INR k) b then 1 else 0) = IZR (Zceil b).
Proof.
  revert b. induction n as [|n IH]; intros b B.
  - cbn [rsum]. cbn [INR] in B. replace b with 0 by lra. rewrite Zceil_IZR. reflexivity.
  - cbn [rsum]. rewrite S_INR in B. destruct (Rlt_dec (INR n) b) as [L|L].
    + rewrite (rsum_ext n _ (fun _ => 1)).
      * rewrite rsum_const. replace (Zceil b) with (Z.of_nat (S n)).
        -- rewrite <- INR_IZR_INZ, S_INR. ring.
        -- symmetry. apply Zceil_imp. rewrite minus_IZR, <- INR_IZR_INZ, S_INR. lra.
      * intros k Hk. destruct (Rlt_dec (INR k) b) as [|N]; [reflexivity|]. exfalso. apply N. apply Rlt_trans with (INR n); [apply lt_INR; exact Hk|exact L].
    + rewrite IH by lra. ring.
Qed.
Lemma count_upto n a : 0 <= a < INR n -> rsum n (fun k => if Rlt_dec a (INR k) then 0 else 1) = IZR (Zfloor a) + 1.
Proof.
  revert a. induction n as [|n IH]; intros a A; [cbn [INR] in A; lra|]. cbn [rsum]. rewrite S_INR in A. destruct (Rlt_dec a (INR n)) as [L|L].
  - rewrite IH by lra. ring.
  - rewrite (rsum_ext n _ (fun _ => 1)).
    + rewrite rsum_const. replace (Zfloor a) with (Z.of_nat n); [rewrite <- INR_IZR_INZ; ring|]. symmetry. apply Zfloor_imp. rewrite plus_IZR, <- INR_IZR_INZ. lra.
    + intros k Hk. destruct (Rlt_dec a (INR k)) as [N|]; [|reflexivity]. exfalso. apply L. apply Rlt_trans with (INR k); [exact N|apply lt_INR; exact Hk].
Qed.
Lemma count_exact n lo hi : 0 <= lo -> lo < hi -> hi * 131070 <= INR n ->
  count_inside n lo hi = IZR (Zceil (131070 * hi) - Zfloor (131070 * lo) - 1).
Proof.
  intros L0 LH HN. rewrite !minus_IZR. rewrite <- (count_below n (131070 * hi)) by lra.
  replace (rsum n (fun k => if Rlt_dec (INR k) (131070 * hi) then 1 else 0) - IZR (Zfloor (131070 * lo)) - 1)
    with (rsum n (fun k => if Rlt_dec (INR k) (131070 * hi) then 1 else 0) - rsum n (fun k => if Rlt_dec (131070 * lo) (INR k) then 0 else 1)) by (rewrite count_upto by lra; ring).
  rewrite <- rsum_minus. unfold count_inside. apply rsum_ext. intros k _. unfold frequency_point.
  destruct (Rlt_dec lo (INR k / 131070)), (Rlt_dec (INR k / 131070) hi), (Rlt_dec (INR k) (131070 * hi)), (Rlt_dec (131070 * lo) (INR k)); lra.
Qed.
Lemma has_coefficient den lo hi k : no_pole ntf_points den lo hi -> (k < ntf_points)%nat -> inside lo hi (frequency_point k) -> Exists (fun c => c <> 0) den.
Proof.
  intros HP Hk Hi. specialize (HP k Hk Hi). destruct (Exists_dec (fun c => c <> 0) den) as [E|E]; [intros x; destruct (Req_EM_T x 0); [right; intros N; contradiction|left; assumption]|exact E|].
  exfalso. apply HP. unfold on_circle. apply csum_zero. intros i Hi'. replace (nth i den 0) with 0; [apply Cscale_0|].
  destruct (Req_dec (nth i den 0) 0) as [|N]; [congruence|]. exfalso. apply E. apply Exists_exists. exists (nth i den 0). split; [apply nth_In; exact Hi'|exact N].
Qed.
Lemma noise_flat c den lo hi : no_pole ntf_points den lo hi ->
  noise_in_band ntf_points (map (fun x => c * x) den) den lo hi = c ^ 2 * (count_inside ntf_points lo hi / 65536).
Proof.
  intros HP. unfold noise_in_band, count_inside. rewrite ntf_points_INR.
  transitivity (rsum ntf_points (fun k => c ^ 2 * (if Rlt_dec lo (frequency_point k) then if Rlt_dec (frequency_point k) hi then 1 else 0 else 0)) / 65536); [|rewrite rsum_scale; apply Rmult_assoc].
  f_equal. apply rsum_ext. intros k Hk. destruct (Rlt_dec lo (frequency_point k)) as [A|A]; [|ring]. destruct (Rlt_dec (frequency_point k) hi) as [B|B]; [|ring].
  specialize (HP k Hk (conj A B)). unfold response. set (w := 2 * PI * frequency_point k) in *.
  assert (E : on_circle (map (fun x => c * x) den) w = Cscale c (on_circle den w)).
  { unfold on_circle. rewrite map_length, <- csum_scale. apply csum_ext. intros i Hi. rewrite (nth_map_in _ _ _ 0) by exact Hi. rewrite Cscale_scale. reflexivity. }
  rewrite E. assert (N : Cmod2 (on_circle den w) <> 0) by (intros Z; apply HP, Cmod2_zero, Z). unfold Cscale, Cmod2 at 1. cbn [fst snd]. unfold Cmod2 in *. field. exact N.
Qed.
Lemma noise_gain g num den lo hi : noise_in_band ntf_points (map (fun x => g * x) num) den lo hi = g ^ 2 * noise_in_band ntf_points num den lo hi.
Proof.
  unfold noise_in_band, Rdiv. rewrite <- Rmult_assoc, <- rsum_scale. f_equal. apply rsum_ext. intros k Hk.
  destruct (Rlt_dec lo (frequency_point k)) as [A|A]; [|ring]. destruct (Rlt_dec (frequency_point k) hi) as [B|B]; [|ring]. unfold response. set (w := 2 * PI * frequency_point k).
  assert (E : on_circle (map (fun x => g * x) num) w = Cscale g (on_circle num w)).
  { unfold on_circle. rewrite map_length, <- csum_scale. apply csum_ext. intros i Hi. rewrite (nth_map_in _ _ _ 0) by exact Hi. rewrite Cscale_scale. reflexivity. }
  rewrite E. unfold Cscale, Cmod2 at 1. cbn [fst snd]. unfold Cmod2, Rdiv. ring.
Qed.
(** The number of analysis points strictly inside the band. *)
Lemma c124_points lo hi : 0 <= lo -> lo < hi -> hi <= 1 / 2 ->
  count_inside ntf_points lo hi = IZR (Zceil (131070 * hi) - Zfloor (131070 * lo) - 1) /\
  131070 * (hi - lo) - 1 <= count_inside ntf_points lo hi <= 131070 * (hi - lo) + 1.
Proof.
  intros L0 LH H2. assert (E : count_inside ntf_points lo hi = IZR (Zceil (131070 * hi) - Zfloor (131070 * lo) - 1)) by (apply count_exact; [assumption|assumption|rewrite ntf_points_INR; lra]).
  split; [exact E|]. rewrite E, !minus_IZR. pose proof (Zfloor_lb (131070 * lo)). pose proof (Zfloor_ub (131070 * lo)). pose proof (Zceil_ub (131070 * hi)). pose proof (Zceil_lb (131070 * hi)). lra.
Qed.
Lemma inside_exists lo hi : 0 < count_inside ntf_points lo hi -> exists k, (k < ntf_points)%nat /\ inside lo hi (frequency_point k).
Proof.
  intros P. unfold count_inside in P. generalize dependent ntf_points. intros n. induction n as [|n IH]; cbn [rsum]; [lra|]. intros P.
  destruct (Rlt_dec lo (frequency_point n)) as [A|A]; [destruct (Rlt_dec (frequency_point n) hi) as [B|B]|].
  - exists n. split; [lia|split; assumption].
  - destruct IH as (k & Hk & Hi); [lra|]. exists k. split; [lia|exact Hi].
  - destruct IH as (k & Hk & Hi); [lra|]. exists k. split; [lia|exact Hi].
Qed.
(** A constant transfer function c (any denominator without poles in the band) gives -20 log10 |c| plus the ratio of
    all points to the points in the band. *)
Lemma c124_flat c den lo hi : c <> 0 -> no_pole ntf_points den lo hi -> 0 < count_inside ntf_points lo hi ->
  ntf_analyzer (map (fun x => c * x) den) den lo hi = Ok (Fin (- 20 * lg (Rabs c) - 10 * lg (count_inside ntf_points lo hi / 65536))).
Proof.
  intros C0' HP P. destruct (inside_exists lo hi P) as (k & Hk & Hi). pose proof (has_coefficient den lo hi k HP Hk Hi) as HD.
  destruct (c124_formula (map (fun x => c * x) den) den lo hi) as (v & E & V & _); [destruct den; [inversion HD|discriminate]|exact HD|exact HP|].
  rewrite E. f_equal. rewrite noise_flat in V by exact HP. assert (0 < Rabs c) by (apply Rabs_pos_lt; exact C0'). assert (0 < c ^ 2) by (rewrite <- pow2_abs; apply pow_lt; assumption).
  assert (0 < count_inside ntf_points lo hi / 65536) by lra. rewrite V by (apply Rmult_lt_0_compat; assumption). f_equal. rewrite lg_mult by assumption. rewrite <- pow2_abs, lg_sqr by assumption. ring.
Qed.
(** Scaling the transfer function by g lowers the result by 20 log10 |g|. *)
Lemma c124_gain g num den lo hi v : g <> 0 -> no_pole ntf_points den lo hi -> ntf_analyzer num den lo hi = Ok v ->
  ntf_analyzer (map (fun x => g * x) num) den lo hi = Ok (xaxpy (- 20 * lg (Rabs g)) 1 v).
Proof.
  intros G HP E. assert (0 < Rabs g) by (apply Rabs_pos_lt; exact G). assert (0 < g ^ 2) by (rewrite <- pow2_abs; apply pow_lt; assumption).
  unfold ntf_analyzer, raise_if in *. rewrite map_length. destruct (_ || _); [discriminate|]. rewrite band_noise_eq in * by exact HP. rewrite noise_gain. apply Ok_inj in E. subst v. apply (f_equal Ok). cbv iota beta.
  pose proof (noise_nonneg ntf_points num den lo hi) as [P|P].
  - rewrite xlog10_pos by (apply Rmult_lt_0_compat; assumption). rewrite xlog10_pos by exact P. cbn [xaxpy]. apply (f_equal Fin). rewrite lg_mult by assumption. rewrite <- pow2_abs, lg_sqr by assumption. ring.
  - rewrite <- P, Rmult_0_r. unfold xlog10. destruct (Rltb_spec 0 0); [lra|]. destruct (Reqb_spec 0 0); [|contradiction]. cbn [xaxpy]. destruct (Rltb_spec 0 (-10)); [lra|]. cbn [xaxpy]. destruct (Rltb_spec 0 1); [reflexivity|lra].
Qed.
Lemma suppression_order num den lo hi num' den' lo' hi' v v' : no_pole ntf_points den lo hi -> no_pole ntf_points den' lo' hi' ->
  noise_in_band ntf_points num den lo hi <= noise_in_band ntf_points num' den' lo' hi' ->
  ntf_analyzer num den lo hi = Ok v -> ntf_analyzer num' den' lo' hi' = Ok v' -> at_least v' v.
Proof.
  intros HP HP' LE E E'. unfold ntf_analyzer, raise_if in *. destruct (_ || _); [discriminate|]. destruct (_ || _); [discriminate|]. rewrite band_noise_eq in E by exact HP. rewrite band_noise_eq in E' by exact HP'.
  apply Ok_inj in E. apply Ok_inj in E'. subst v v'. pose proof (noise_nonneg ntf_points num den lo hi) as [P|P].
  - right. exists (- 10 * lg (noise_in_band ntf_points num' den' lo' hi')), (- 10 * lg (noise_in_band ntf_points num den lo hi)). rewrite (xlog10_pos (noise_in_band ntf_points num den lo hi)), (xlog10_pos (noise_in_band ntf_points num' den' lo' hi')) by lra. cbn [xaxpy].
    split; [f_equal; ring|]. split; [f_equal; ring|]. destruct LE as [L|L]; [|rewrite L; lra]. pose proof (lg_lt _ _ P L). lra.
  - left. rewrite <- P. unfold xlog10. destruct (Rltb_spec 0 0); [lra|]. destruct (Reqb_spec 0 0); [|contradiction]. cbn [xaxpy]. destruct (Rltb_spec 0 (-10)); [lra|reflexivity].
Qed.
Lemma div_points x y : x <= y -> x / INR ntf_points <= y / INR ntf_points.
Proof. intros. rewrite ntf_points_INR. lra. Qed.
(** A narrower band never suppresses less. *)
Lemma c124_narrower num den lo hi lo' hi' v v' : lo' <= lo -> hi <= hi' -> no_pole ntf_points den lo' hi' ->
  ntf_analyzer num den lo hi = Ok v -> ntf_analyzer num den lo' hi' = Ok v' -> at_least v' v.
Proof.
  intros L H HP E E'. apply (suppression_order num den lo hi num den lo' hi'); [|exact HP| |exact E|exact E'].
  - intros k Hk [A B]. apply HP; [exact Hk|split; lra].
  - apply div_points. apply rsum_le. intros k Hk. pose proof (response_nonneg num den (frequency_point k)).
    destruct (Rlt_dec lo (frequency_point k)), (Rlt_dec (frequency_point k) hi), (Rlt_dec lo' (frequency_point k)), (Rlt_dec (frequency_point k) hi'); lra.
Qed.
(** A transfer function that is nowhere larger in the band never suppresses less. *)
Lemma c124_better num den num' den' lo hi v v' : no_pole ntf_points den lo hi -> no_pole ntf_points den' lo hi ->
  (forall k, (k < ntf_points)%nat -> inside lo hi (frequency_point k) -> response num den (frequency_point k) <= response num' den' (frequency_point k)) ->
  ntf_analyzer num den lo hi = Ok v -> ntf_analyzer num' den' lo hi = Ok v' -> at_least v' v.
Proof.
  intros HP HP' H E E'. apply (suppression_order num den lo hi num' den' lo hi); [exact HP|exact HP'| |exact E|exact E'].
  apply div_points. apply rsum_le. intros k Hk. destruct (Rlt_dec lo (frequency_point k)) as [A|]; [|lra]. destruct (Rlt_dec (frequency_point k) hi) as [B|]; [|lra]. apply H; [exact Hk|split; assumption].
Qed.
(** ** First-order noise shaping *)
Lemma circle_1 a w : on_circle [a] w = RtoC a.
Proof. unfold on_circle. cbn [length csum nth Nat.sub INR]. rewrite Rmult_0_l, cis_0. unfold Cscale, Cplus, C0, C1, RtoC. cbn. f_equal; ring. Qed.
Lemma circle_2 a b w : on_circle [a; b] w = (a * cos w + b, a * sin w).
Proof. unfold on_circle. cbn [length csum nth Nat.sub INR]. rewrite Rmult_0_l, Rmult_1_l, cis_0. unfold Cscale, Cplus, C0, C1, cis. cbn. f_equal; ring. Qed.
Lemma no_pole_delay lo hi : no_pole ntf_points [1; 0] lo hi.
Proof. intros k _ _ E. rewrite circle_2 in E. injection E as A B. pose proof (sin2_cos2 (2 * PI * frequency_point k)) as S. unfold Rsqr in S. nra. Qed.
(** (z - 1)/z has the squared magnitude 4 sin^2(pi f). *)
Lemma c124_differencer f : response [1; -1] [1; 0] f = 4 * sin (PI * f) ^ 2.
Proof.
  unfold response. rewrite !circle_2. unfold Cmod2. cbn [fst snd]. replace (2 * PI * f) with (2 * (PI * f)) by ring. rewrite sin_2a, cos_2a. pose proof (sin2_cos2 (PI * f)) as S. unfold Rsqr in S.
  set (s := sin (PI * f)) in *. set (c := cos (PI * f)) in *. replace (c * c - s * s) with (1 - 2 * (s * s)) by lra.
  replace ((1 * (1 - 2 * (s * s)) + 0) * (1 * (1 - 2 * (s * s)) + 0) + 1 * (2 * s * c) * (1 * (2 * s * c))) with (1 + 4 * (s * s) * ((s * s + c * c) - 1)) by ring.
  replace ((1 * (1 - 2 * (s * s)) + -1) * (1 * (1 - 2 * (s * s)) + -1) + 1 * (2 * s * c) * (1 * (2 * s * c))) with (4 * (s * s) * (s * s + c * c)) by ring.
  rewrite S. field.
Qed.
Lemma sin2_pairs n : (0 < n)%nat -> rsum (S n) (fun k => 4 * sin (PI * (INR k / (2 * INR n))) ^ 2) = 2 * (INR n + 1).
Proof.
  intros N0. assert (0 < INR n) by (apply lt_0_INR; exact N0). set (g := fun k => 4 * sin (PI * (INR k / (2 * INR n))) ^ 2).
  assert (E : rsum (S n) g = rsum (S n) (fun k => 4 - g k)).
  { rewrite (rsum_reverse (S n) g). apply rsum_ext. intros k Hk. unfold g. replace (S n - 1 - k)%nat with (n - k)%nat by lia. rewrite minus_INR by lia.
    replace (PI * ((INR n - INR k) / (2 * INR n))) with (PI / 2 - PI * (INR k / (2 * INR n))) by (field; lra). rewrite sin_shift.
    pose proof (sin2_cos2 (PI * (INR k / (2 * INR n)))) as S. unfold Rsqr in S. lra. }
  rewrite rsum_minus, rsum_const, S_INR in E. lra.
Qed.
Lemma points_pred : exists n, ntf_points = S n /\ INR n = 65535 /\ (0 < n)%nat.
Proof.
  exists (ntf_points - 1)%nat. pose proof ntf_points_pos. pose proof ntf_points_INR as E. split; [lia|]. rewrite minus_INR by lia. rewrite E. split; [simpl; lra|].
  apply INR_lt. rewrite minus_INR by lia. rewrite E. simpl. lra.
Qed.
(** Over the whole band up to half the sampling rate the first-order differencer roughly doubles the noise. *)
Lemma c124_first_order : ntf_analyzer [1; -1] [1; 0] 0 (1 / 2) = Ok (Fin (- 10 * lg (131068 / 65536))).
Proof.
  destruct (c124_formula [1; -1] [1; 0] 0 (1 / 2)) as (v & E & V & _); [discriminate|left; lra|apply no_pole_delay|]. rewrite E. f_equal.
  assert (N : noise_in_band ntf_points [1; -1] [1; 0] 0 (1 / 2) = 131068 / 65536); [|rewrite N in V; apply V; lra].
  unfold noise_in_band. rewrite ntf_points_INR. f_equal. destruct points_pred as (n & En & Ei & N0). rewrite En. pose proof (sin2_pairs n N0) as SP. rewrite Ei in SP.
  transitivity (rsum (S n) (fun k => 4 * sin (PI * (INR k / (2 * 65535))) ^ 2 - (if (k =? n)%nat then 4 else 0))).
  - apply rsum_ext. intros k Hk. rewrite c124_differencer. unfold frequency_point. replace (INR k / 131070) with (INR k / (2 * 65535)) by lra.
    assert (0 <= INR k <= 65535) by (split; [apply pos_INR|rewrite <- Ei; apply le_INR; lia]).
    destruct (Nat.eqb_spec k n) as [->|Kn].
    + rewrite Ei. destruct (Rlt_dec 0 (65535 / (2 * 65535))); [|lra]. destruct (Rlt_dec (65535 / (2 * 65535)) (1 / 2)); [lra|]. replace (PI * (65535 / (2 * 65535))) with (PI / 2) by field. rewrite sin_PI2. ring.
    + destruct (Rlt_dec 0 (INR k / (2 * 65535))) as [A|A].
      * destruct (Rlt_dec (INR k / (2 * 65535)) (1 / 2)) as [B|B]; [ring|]. exfalso. assert (INR k < 65535) by (rewrite <- Ei; apply lt_INR; lia). lra.
      * replace (INR k) with 0 by lra. replace (PI * (0 / (2 * 65535))) with 0 by (field; lra). rewrite sin_0. ring.
  - rewrite rsum_minus, SP. rewrite (rsum_single (S n) n (fun k => if (k =? n)%nat then 4 else 0)).
    + rewrite Nat.eqb_refl. lra.
    + lia.
    + intros k _ Kn. destruct (Nat.eqb_spec k n); [contradiction|reflexivity].
Qed.
Lemma rsum_term_le n f k : (k < n)%nat -> (forall i, (i < n)%nat -> 0 <= f i) -> f k <= rsum n f.
Proof.
  induction n as [|n IH]; intros Hk H; [lia|]. cbn [rsum]. pose proof (H n (Nat.lt_succ_diag_r n)). assert (0 <= rsum n f) by (apply rsum_nonneg; intros; apply H; lia).
  destruct (Nat.eq_dec k n) as [->|]; [lra|]. assert (f k <= rsum n f) by (apply IH; [lia|intros; apply H; lia]). lra.
Qed.
(** ** C125: the documented reference is NTF = 1 in the same band *)
Lemma no_pole_1 lo hi : no_pole ntf_points [1] lo hi.
Proof. intros k _ _ E. rewrite circle_1 in E. injection E as A. lra. Qed.
(** The result is the true improvement over NTF = 1 plus 10 log10 (65536 / number of points in the band), which does
    not depend on the transfer function. *)
Lemma c125_offset num den lo hi : num <> [] -> no_pole ntf_points den lo hi -> 0 < noise_in_band ntf_points num den lo hi ->
  0 < mean_response ntf_points num den lo hi /\
  ntf_analyzer num den lo hi = Ok (Fin (- 10 * lg (mean_response ntf_points num den lo hi) + 10 * lg (65536 / count_inside ntf_points lo hi))) /\
  ntf_analyzer [1] [1] lo hi = Ok (Fin (10 * lg (65536 / count_inside ntf_points lo hi))).
Proof.
  intros HN HP P.
  assert (C : 0 < count_inside ntf_points lo hi).
  { destruct (Rle_or_lt (count_inside ntf_points lo hi) 0) as [Z|]; [|assumption]. exfalso. unfold noise_in_band in P.
    assert (Q : rsum ntf_points (fun k => if Rlt_dec lo (frequency_point k) then if Rlt_dec (frequency_point k) hi then response num den (frequency_point k) else 0 else 0) = 0); [|rewrite Q in P; lra].
    unfold count_inside in Z. apply rsum_zero. intros k Hk. destruct (Rlt_dec lo (frequency_point k)) as [A|]; [|reflexivity]. destruct (Rlt_dec (frequency_point k) hi) as [B|]; [|reflexivity]. exfalso.
    assert (1 <= rsum ntf_points (fun k => if Rlt_dec lo (frequency_point k) then if Rlt_dec (frequency_point k) hi then 1 else 0 else 0)); [|lra].
    refine (Rle_trans _ _ _ _ (rsum_term_le ntf_points _ k Hk _)).
    - cbv beta. destruct (Rlt_dec lo (frequency_point k)); [|contradiction]. destruct (Rlt_dec (frequency_point k) hi); [lra|contradiction].
    - intros i _. cbv beta. destruct (Rlt_dec lo (frequency_point i)); [destruct (Rlt_dec (frequency_point i) hi)|]; lra. }
  destruct (inside_exists lo hi C) as (k & Hk & Hi). pose proof (has_coefficient den lo hi k HP Hk Hi) as HD.
  assert (M : 0 < mean_response ntf_points num den lo hi) by (unfold mean_response; rewrite ntf_points_INR; apply Rdiv_lt_0_compat; lra).
  split; [exact M|]. split.
  - destruct (c124_formula num den lo hi HN HD HP) as (v & E & V & _). rewrite E, (V P). f_equal. f_equal. unfold mean_response in *. rewrite ntf_points_INR in *.
    rewrite !lg_div, lg_mult by lra. ring.
  - pose proof (c124_flat 1 [1] lo hi ltac:(lra) (no_pole_1 lo hi) C) as F. cbn [map] in F. rewrite Rmult_1_l in F. rewrite F. f_equal. f_equal. rewrite Rabs_R1, lg_1, !lg_div by lra. ring.
Qed.
Lemma lg_2_bound : 3 / 10 < lg 2.
Proof.
  assert (E : lg (2 ^ 10) = 10 * lg 2).
  { replace (2 ^ 10) with ((2 ^ 2 * 2) ^ 2 * (2 ^ 2) ^ 2) by ring. rewrite lg_mult, lg_sqr, lg_mult, !lg_sqr by lra. ring. }
  assert (3 < lg (2 ^ 10)); [|lra]. replace 3 with (lg (10 ^ 2 * 10)) by (rewrite lg_mult, lg_sqr, lg_10 by lra; ring). apply lg_lt; lra.
Qed.
(** For NTF = 1 itself the result should be 0; in the band up to a quarter of the sampling rate it exceeds 3 dB. *)
Lemma c125_flat_refuted : exists lo hi v, 0 <= lo /\ lo < hi /\ hi <= 1 / 2 /\ mean_response ntf_points [1] [1] lo hi = 1 /\ ntf_analyzer [1] [1] lo hi = Ok (Fin v) /\ 3 < v.
Proof.
  exists 0, (1 / 4), (10 * lg (65536 / count_inside ntf_points 0 (1 / 4))). split; [lra|]. split; [lra|]. split; [lra|].
  destruct (c124_points 0 (1 / 4)) as (E & _); [lra|lra|lra|].
  assert (Z1 : Zceil (131070 * (1 / 4)) = 32768%Z) by (apply Zceil_imp; split; simpl; lra). assert (Z2 : Zfloor (131070 * 0) = 0%Z) by (rewrite Rmult_0_r; apply Zfloor_IZR).
  rewrite Z1, Z2 in E. change (32768 - 0 - 1)%Z with 32767%Z in E.
  pose proof (noise_flat 1 [1] 0 (1 / 4) (no_pole_1 _ _)) as F. cbn [map] in F. rewrite Rmult_1_l, E in F.
  split; [unfold mean_response; rewrite F, E, ntf_points_INR; field|].
  destruct (c125_offset [1] [1] 0 (1 / 4)) as (_ & _ & V); [discriminate|apply no_pole_1|rewrite F; lra|]. split; [exact V|]. rewrite E.
  pose proof lg_2_bound. assert (lg 2 < lg (65536 / 32767)) by (apply lg_lt; lra). lra.
Qed.
(** Examples: the whole band of the differencer is worse than NTF = 1, halving the transfer function gains
    20 log10 2. *)
Lemma c124_gain_ex : ntf_analyzer [1 / 2; - (1 / 2)] [1; 0] 0 (1 / 2) = Ok (Fin (- 20 * lg (Rabs (1 / 2)) + 1 * (- 10 * lg (131068 / 65536)))).
Proof.
  pose proof (c124_gain (1 / 2) [1; -1] [1; 0] 0 (1 / 2) _ ltac:(lra) (no_pole_delay _ _) c124_first_order) as H. cbn [map xaxpy] in H.
  replace [1 / 2; - (1 / 2)] with [1 / 2 * 1; 1 / 2 * -1] by (apply (f_equal2 cons); [lra|apply (f_equal2 cons); [lra|reflexivity]]). exact H.
Qed.
Lemma c124_points_ex : count_inside ntf_points 0 (1 / 4) = 32767.
Proof.
  destruct (c124_points 0 (1 / 4)) as (E & _); [lra|lra|lra|]. rewrite E. assert (Z1 : Zceil (131070 * (1 / 4)) = 32768%Z) by (apply Zceil_imp; split; simpl; lra).
  rewrite Z1, Rmult_0_r, Zfloor_IZR. reflexivity.
Qed.
Lemma c124_errors_ex : ntf_analyzer [1] [0; 0] 0 (1 / 2) = Err ValueError.
Proof. unfold ntf_analyzer, raise_if. cbn. destruct (Reqb_spec 0 0); [reflexivity|contradiction]. Qed.
(** ** C126: the complete OSR sweep *)
Lemma sweep_loop_error E n sig osr idx : forall prev noi spur out, (0 < n)%nat ->
  (exists r, sweep_loop E n sig osr idx prev noi spur out = Ok r) /\ (forall i, In i idx -> 0 < nth i osr 0) \/
  sweep_loop E n sig osr idx prev noi spur out = Err ValueError /\ exists i, In i idx /\ nth i osr 0 <= 0.
Proof.
  induction idx as [|i idx IH]; intros prev noi spur out N0; cbn [sweep_loop]; [left; split; [eexists; reflexivity|intros i []]|].
  destruct (Rle_or_lt (nth i osr 0) 0) as [L|L].
  - right. split; [|exists i; split; [left; reflexivity|exact L]]. unfold inband_count, raise_if. destruct (Z.leb_spec (Z.of_nat n) 0); [lia|]. destruct (Rleb_spec (nth i osr 0) 0); [reflexivity|lra].
  - rewrite inband_eq by (lia || exact L). cbn [bind]. match goal with |- context [let '(a, b) := ?X in _] => destruct X as [noi' spur'] end.
    match goal with |- context [sweep_loop E n sig osr idx ?p ?a ?b ?o] => destruct (IH p a b o N0) as [((r & Er) & P)|(Er & j & Hj & Lj)] end.
    + left. split; [exists r; exact Er|]. intros j [<-|Hj]; [exact L|apply P, Hj].
    + right. split; [exact Er|]. exists j. split; [right; exact Hj|exact Lj].
Qed.
Lemma residual_length lstsq y f mi tol r : fit_core lstsq y f mi tol = Ok r -> length (map2 Rminus y (f_fitted r)) = length y.
Proof. intros E. pose proof (c52_parameters _ _ _ _ _ _ E) as (L & _). rewrite map2_length by congruence. reflexivity. Qed.
(** The sweep raises ValueError exactly for fewer than two samples or an OSR that is not positive. *)
Lemma c126_errors lstsq argsort data osr : (forall l, Permutation (argsort l) (seq 0 (length l))) ->
  if (length data <? 2)%nat || match osr with Some o => existsb (fun x => Rleb x 0) o | None => false end
  then sweep_performance lstsq argsort data osr = Err ValueError
  else exists r, sweep_performance lstsq argsort data osr = Ok r.
Proof.
  intros AS. unfold sweep_performance. destruct (Nat.ltb_spec (length data) 2) as [S2|S2]; cbn [orb].
  - assert (F : fit_core lstsq data None 1 (1 / 10 ^ 9) = Err ValueError) by (apply fit_short; lia).
    destruct osr as [o|]; cbn [bind]; [rewrite F; reflexivity|]. destruct data as [|x [|y d]]; [|cbn [bind]|cbn in S2; lia].
    + reflexivity.
    + cbn [length] in *. unfold default_osr. rewrite c23_full_band by (lia || lra). cbn [bind]. rewrite F. reflexivity.
  - destruct (c52_failure lstsq data None 1 (1 / 10 ^ 9)) as [(fit & F)|(_ & _ & C)]; [|lia]. pose proof (residual_length _ _ _ _ _ _ F) as RL.
    assert (K : forall o, match sweep_loop (err_spec (map2 Rminus data (f_fitted fit))) (length (map2 Rminus data (f_fitted fit))) (f_amplitude fit ^ 2 / 2) o (rev (argsort o)) 0 0 0 (repeat (Fin 0, Fin 0, Fin 0) (length o)) with Ok _ => True | Err e => e = ValueError end /\
       ((exists r, osr_sweep (map2 Rminus data (f_fitted fit)) (f_amplitude fit) o (argsort o) = Ok r) <-> forall x, In x o -> 0 < x)).
    { intros o. unfold osr_sweep. destruct (sweep_loop_error (err_spec (map2 Rminus data (f_fitted fit))) (length (map2 Rminus data (f_fitted fit))) (f_amplitude fit ^ 2 / 2) o (rev (argsort o)) 0%nat 0 0 (repeat (Fin 0, Fin 0, Fin 0) (length o)) ltac:(lia)) as [((r & Er) & P)|(Er & j & Hj & Lj)]; rewrite Er; (split; [exact I || reflexivity|]).
      - split; [|intros _; exists r; reflexivity]. intros _ x Hx. apply (In_nth _ _ 0) in Hx. destruct Hx as (i & Hi & <-). apply P. apply in_rev. rewrite rev_involutive. apply (Permutation_in _ (Permutation_sym (AS o))). apply in_seq. lia.
      - split; [intros (r & C); discriminate|]. intros P. exfalso. apply in_rev in Hj. apply (Permutation_in _ (AS o)) in Hj. apply in_seq in Hj. specialize (P (nth j o 0) ltac:(apply nth_In; lia)). lra. }
    destruct osr as [o|]; cbn [bind].
    + rewrite F. cbn [bind]. destruct (K o) as (K1 & K2). destruct (existsb (fun x => Rleb x 0) o) eqn:X.
      * apply existsb_exists in X. destruct X as (x & Hx & Lx). destruct (Rleb_spec x 0) as [Lx'|]; [|discriminate]. unfold osr_sweep in *.
        destruct (sweep_loop _ _ _ _ _ _ _ _ _) as [r|e]; [exfalso|cbn [bind]; subst e; reflexivity]. specialize (proj1 K2 (ex_intro _ r eq_refl) x Hx). lra.
      * destruct (proj2 K2) as (r & Er); [|rewrite Er; cbn [bind]; eexists; reflexivity]. intros x Hx. destruct (Rle_or_lt x 0) as [L|L]; [|exact L].
        exfalso. rewrite <- not_true_iff_false in X. apply X. apply existsb_exists. exists x. split; [exact Hx|]. destruct (Rleb_spec x 0); [reflexivity|lra].
    + destruct (c30_default_osr (length data) S2) as (o & Eo & Lo & Co). rewrite Eo. cbn [bind]. rewrite F. cbn [bind]. destruct (K o) as (_ & K2). destruct (proj2 K2) as (r & Er); [|rewrite Er; cbn [bind]; eexists; reflexivity].
      intros x Hx. apply (In_nth _ _ 0) in Hx. destruct Hx as (i & Hi & <-). specialize (Co (length data / 2 - i)%nat ltac:(lia)). replace (length data / 2 - (length data / 2 - i))%nat with i in Co by lia.
      unfold inband_count, raise_if in Co. destruct (_ <=? 0)%Z; [discriminate|]. destruct (Rleb_spec (nth i o 0) 0); [discriminate|assumption].
Qed.
Lemma sweep_inv lstsq argsort data osr o l : sweep_performance lstsq argsort data osr = Ok (o, l) ->
  (osr = Some o \/ osr = None /\ default_osr (length data) = Ok o) /\
  exists fit, fit_core lstsq data None 1 (1 / 10 ^ 9) = Ok fit /\ osr_sweep (map2 Rminus data (f_fitted fit)) (f_amplitude fit) o (argsort o) = Ok l.
Proof.
  unfold sweep_performance. destruct osr as [o'|].
  - cbn [bind]. destruct (fit_core _ _ _ _ _) as [fit|]; [|discriminate]. cbn [bind]. destruct (osr_sweep _ _ _ _) as [l'|] eqn:S; [|discriminate]. cbn [bind]. intros E. apply Ok_inj in E. injection E as <- <-. split; [left; reflexivity|]. exists fit. split; [reflexivity|exact S].
  - destruct (default_osr (length data)) as [o'|]; [|discriminate]. cbn [bind]. destruct (fit_core _ _ _ _ _) as [fit|]; [|discriminate]. cbn [bind]. destruct (osr_sweep _ _ _ _) as [l'|] eqn:S; [|discriminate]. cbn [bind]. intros E. apply Ok_inj in E. injection E as <- <-. split; [right; split; reflexivity|]. exists fit. split; [reflexivity|exact S].
Qed.
(** Every entry is the signal power of the fitted sine over the error power inside its own band: the record minus the
    fitted sine, Hann-windowed. *)
Lemma c126_entries lstsq argsort data osr o l : (forall l, sorts l (argsort l)) -> sweep_performance lstsq argsort data osr = Ok (o, l) -> (forall x, In x o -> 0 < x) ->
  exists fit, fit_core lstsq data None 1 (1 / 10 ^ 9) = Ok fit /\ length l = length o /\ forall j, (j < length o)%nat -> exists c m,
    inband_count (Z.of_nat (length data)) (nth j o 0) = Ok (Z.of_nat c) /\ band_peak c (err_spec (f_residuals fit)) m /\
    nth j l (NaN, NaN, NaN) = (let s := db_quot (f_amplitude fit ^ 2 / 2) (band_total c (err_spec (f_residuals fit))) in (s, db_quot (f_amplitude fit ^ 2 / 2) m, enob_of s)).
Proof.
  intros AS E P. destruct (sweep_inv _ _ _ _ _ _ E) as (_ & fit & F & S). exists fit. split; [exact F|]. pose proof (residual_length _ _ _ _ _ _ F) as RL.
  assert (N0 : (0 < length data)%nat).
  { destruct (Nat.le_gt_cases (length data) 1) as [Z|]; [|lia]. rewrite fit_short in F by lia. discriminate. }
  assert (Rr : map2 Rminus data (f_fitted fit) = f_residuals fit).
  { pose proof (c52_parameters _ _ _ _ _ _ F) as (L1 & L2 & V & _). apply nth_ext with 0 0; [lia|]. intros t T. rewrite RL in T. rewrite (map2_nth Rminus _ _ t 0 0 0) by lia. symmetry. apply V. exact T. }
  rewrite Rr in *. destruct (c30_sweep_is_direct (f_residuals fit) (f_amplitude fit) o (argsort o) ltac:(lia) P (AS o)) as (r & Er & Lr & A). rewrite S in Er. apply Ok_inj in Er. subst r. rewrite RL in A. split; [exact Lr|exact A].
Qed.
Lemma zero_spectrum err k : (forall t, (t < length err)%nat -> nth t err 0 = 0) -> nth k (err_spec err) 0 = 0.
Proof.
  intros Z. destruct (Nat.lt_ge_cases k (length err / 2 + 1)) as [H|H]; [|apply nth_overflow; rewrite err_spec_length; exact H].
  unfold err_spec. rewrite map_seq_nth by exact H. replace (rfft (err_windowed err) k) with C0; [rewrite Cmod_0; unfold Rdiv; ring|]. unfold rfft, rdft, dft. symmetry. apply csum_zero. intros n Hn.
  unfold err_windowed in *. rewrite map_length, seq_length in Hn. rewrite map_seq_nth by exact Hn. rewrite Z by exact Hn. unfold Rdiv. rewrite !Rmult_0_l. unfold Cmult, RtoC, C0. cbn. f_equal; ring.
Qed.
(** A pure coherent sine leaves no error: every figure is infinite. *)
Lemma c126_pure_sine lstsq argsort data k A ph off o : least_squares lstsq -> (forall l, sorts l (argsort l)) -> (0 < k)%nat -> (k < length data / 2)%nat -> (5 <= length data)%nat -> INR (length data) <= 10 ^ 10 -> 0 < A ->
  is_record data (sine A (INR k / INR (length data)) ph off) -> (forall x, In x o -> 0 < x) ->
  sweep_performance lstsq argsort data (Some o) = Ok (o, repeat (PInf, PInf, PInf) (length o)).
Proof.
  intros LS AS K0 K1 N5 NB PA R P. assert (T : 0 < 1 / 10 ^ 9) by (apply Rdiv_lt_0_compat; [lra|apply pow_lt; lra]).
  destruct (c84_auto_fit lstsq data k A ph off 1 (1 / 10 ^ 9) LS K0 K1 N5 NB PA ltac:(lia) T R) as (fit & F & _ & Am & _ & _ & Rz).
  assert (X : exists r, sweep_performance lstsq argsort data (Some o) = Ok r).
  { pose proof (c126_errors lstsq argsort data (Some o) (fun l => proj1 (AS l))) as C. destruct (Nat.ltb_spec (length data) 2); [lia|]. cbn [orb] in C.
    destruct (existsb _ o) eqn:X; [|exact C]. apply existsb_exists in X. destruct X as (x & Hx & Lx). specialize (P x Hx). destruct (Rleb_spec x 0); [lra|discriminate]. }
  destruct X as ([o' l] & E). rewrite E. destruct (sweep_inv _ _ _ _ _ _ E) as ([So|(So & _)] & _); [|discriminate]. injection So as <-.
  destruct (c126_entries lstsq argsort data (Some o) o l AS E P) as (fit' & F' & L & V). rewrite F in F'. apply Ok_inj in F'. subst fit'.
  f_equal. f_equal. apply nth_ext with (NaN, NaN, NaN) (NaN, NaN, NaN); [rewrite repeat_length; exact L|]. intros j Hj. rewrite L in Hj. destruct (V j Hj) as (c & m & _ & (( i & Hi & Em) & _) & ->).
  pose proof (c52_parameters _ _ _ _ _ _ F) as (_ & L2 & _). assert (Z : forall i, nth i (err_spec (f_residuals fit)) 0 = 0) by (intros; apply zero_spectrum; rewrite L2; exact Rz).
  rewrite Z in Em. subst m. unfold band_total. rewrite rsum_zero by (intros; apply Z). rewrite Am.
  assert (D : db_quot (A ^ 2 / 2) 0 = PInf). { unfold db_quot. destruct (Reqb_spec 0 0); [|contradiction]. destruct (Reqb_spec (A ^ 2 / 2) 0); [nra|reflexivity]. }
  rewrite D. rewrite (nth_indep _ _ (PInf, PInf, PInf)) by (rewrite repeat_length; exact Hj). rewrite nth_repeat. unfold enob_of, xaxpy. destruct (Rltb_spec 0 (/ 6.02)); [reflexivity|]. lra.
Qed.
(** ** C127: perfosr and the slope of the SNDR curve *)
(** perfosr adds its own checks and otherwise returns the sweep column by column. *)
Lemma c127_checks lstsq argsort sig osr harmonic smooth : (forall l, Permutation (argsort l) (seq 0 (length l))) ->
  (exists (m : nat), harmonic = INR m /\ (1 <= m)%nat) /\ match smooth with Some s => 1 <= s | None => True end /\
  match osr with Some o => forall x, In x o -> 0 < x | None => True end /\ (2 <= length sig)%nat <->
  exists o l, perfosr lstsq argsort sig osr harmonic smooth = Ok (o, map (fun r => fst (fst r)) l, map (fun r => snd (fst r)) l, map snd l) /\ sweep_performance lstsq argsort sig osr = Ok (o, l).
Proof.
  intros AS. unfold perfosr, raise_if. pose proof (c126_errors lstsq argsort sig osr AS) as C. split.
  - intros ((m & Hm & M1) & HS & HO & N2). destruct (Rltb_spec harmonic 1) as [H|_]; [apply le_INR in M1; rewrite Hm in H; simpl in M1; lra|]. rewrite Hm, INR_IZR_INZ, Zfloor_IZR. destruct (Reqb_spec (IZR (Z.of_nat m)) (IZR (Z.of_nat m))) as [_|]; [|contradiction].
    cbn [negb orb]. replace (match smooth with Some s => Rltb s 1 | None => false end) with false by (destruct smooth as [s|]; [destruct (Rltb_spec s 1); [lra|reflexivity]|reflexivity]).
    assert (X : match osr with Some o => existsb (fun x => Rleb x 0) o | None => false end = false).
    { destruct osr as [o|]; [|reflexivity]. apply not_true_iff_false. intros X. apply existsb_exists in X. destruct X as (x & Hx & Lx). specialize (HO x Hx). destruct (Rleb_spec x 0); [lra|discriminate]. }
    rewrite X in *. destruct (Nat.ltb_spec (length sig) 2); [lia|]. cbn [orb] in C. destruct C as ([o l] & E). exists o, l. rewrite E. split; reflexivity.
  - intros (o & l & E & S). destruct (Rltb_spec harmonic 1) as [H|H]; [discriminate|]. destruct (Reqb_spec (IZR (Zfloor harmonic)) harmonic) as [HI|]; [|discriminate]. cbn [negb orb] in E.
    split. { exists (Z.to_nat (Zfloor harmonic)). assert (0 <= Zfloor harmonic)%Z by (apply le_IZR; rewrite HI; simpl; lra). rewrite INR_IZR_INZ, Z2Nat.id by assumption. split; [congruence|]. assert (1 <= Zfloor harmonic)%Z by (apply le_IZR; rewrite HI; exact H). lia. }
    split. { destruct smooth as [s|]; [|exact I]. destruct (Rltb_spec s 1); [discriminate|assumption]. }
    destruct (match smooth with Some s => Rltb s 1 | None => false end); [discriminate|].
    split.
    { destruct osr as [o'|]; [|trivial]. intros x Hx. destruct (Rle_or_lt x 0) as [L|]; [|assumption]. exfalso. assert (X : existsb (fun x => Rleb x 0) o' = true) by (apply existsb_exists; exists x; split; [exact Hx|destruct (Rleb_spec x 0); [reflexivity|lra]]). rewrite X in E. discriminate. }
    destruct (Nat.ltb_spec (length sig) 2) as [L2|]; [|assumption]. cbn [orb] in C. congruence.
Qed.
(** When the SNDR is a + b log10(OSR) on distinguishable OSRs, the reported slope is b everywhere, whatever the smoothing. *)
Lemma c127_slope osr sndr smooth a b : (3 <= length osr)%nat -> length sndr = length osr -> match smooth with Some s => (1 <= s)%Z | None => True end ->
  (forall i, (i < length osr)%nat -> nth i sndr 0 = a + b * lg (nth i osr 0)) ->
  (forall i j, (i < j)%nat -> (j < length osr)%nat -> 1 / 10 ^ 15 < Rabs (lg (nth j osr 0) - lg (nth i osr 0))) ->
  local_slope osr sndr smooth = repeat b (length osr).
Proof.
  intros N3 LS HS HL HD. unfold local_slope. cbv zeta. set (n := length osr) in *. set (w := smooth_width n smooth).
  assert (W : (1 <= w)%Z).
  { unfold w, smooth_width. assert (1 <= (Z.of_nat n - 1) / 2)%Z by (apply Z.div_le_lower_bound; lia). destruct smooth as [s|]; lia. }
  apply nth_ext with 0 0; [rewrite map_length, seq_length, repeat_length; reflexivity|]. intros i Hi. rewrite map_length, seq_length in Hi. rewrite map_seq_nth by exact Hi.
  set (lo := Z.to_nat (Z.max 0 (Z.of_nat i - w))). set (hi := Z.to_nat (Z.min (Z.of_nat n - 1) (Z.of_nat i + w))). assert (LH : (lo < hi)%nat) by lia. assert (HN : (hi < n)%nat) by lia.
  change (ln (nth hi osr 0) / ln 10) with (lg (nth hi osr 0)). change (ln (nth lo osr 0) / ln 10) with (lg (nth lo osr 0)). specialize (HD lo hi LH HN).
  destruct (Rltb_spec (1 / 10 ^ 15) (Rabs (lg (nth hi osr 0) - lg (nth lo osr 0)))) as [_|G]; [|lra].
  rewrite (nth_indep (repeat b n) 0 b) by (rewrite repeat_length; exact Hi). rewrite nth_repeat. rewrite !HL by lia. assert (0 < 1 / 10 ^ 15) by (apply Rdiv_lt_0_compat; [lra|apply pow_lt; lra]). field.
  intros Z. rewrite Z, Rabs_R0 in HD. lra.
Qed.

(** The slope at a point looks exactly [reach] points to each side (fewer at the ends): it is the chord between those
    two points, so it is unaffected by the rest of the curve. *)
Lemma round_he_reach n : let s := Z.max 5 (round_he (INR n / 10)) in (5 <= s)%Z /\ (Rabs (INR n / 10 - IZR s) <= 1 / 2 \/ s = 5%Z /\ INR n / 10 <= 11 / 2).
Proof.
  cbv zeta. split; [lia|]. pose proof (FreqProofs.round_he_half (INR n / 10)) as B. rewrite Rabs_minus_sym in B. destruct (Z.max_spec 5 (round_he (INR n / 10))) as [(L & ->)|(L & ->)]; [left; lra|right].
  split; [reflexivity|]. apply IZR_le in L. apply Rabs_le_inv in B. lra.
Qed.
Lemma c127_reach osr sndr smooth i : (i < length osr)%nat -> match smooth with Some s => (1 <= s)%Z | None => True end ->
  exists h, reach (length osr) smooth h /\
    let lo := Z.to_nat (Z.max 0 (Z.of_nat i - h)) in let hi := Z.to_nat (Z.min (Z.of_nat (length osr) - 1) (Z.of_nat i + h)) in
    (1 / 10 ^ 15 < Rabs (lg (nth hi osr 0) - lg (nth lo osr 0)) -> nth i (local_slope osr sndr smooth) 0 = (nth hi sndr 0 - nth lo sndr 0) / (lg (nth hi osr 0) - lg (nth lo osr 0))) /\
    (Rabs (lg (nth hi osr 0) - lg (nth lo osr 0)) <= 1 / 10 ^ 15 -> nth i (local_slope osr sndr smooth) 0 = 0).
Proof.
  intros Hi HS. exists (smooth_width (length osr) smooth). split.
  - unfold reach, smooth_width. pose proof (Z.div_mod (Z.of_nat (length osr) - 1) 2 ltac:(lia)) as DM. pose proof (Z.mod_pos_bound (Z.of_nat (length osr) - 1) 2 ltac:(lia)) as MB. set (q := ((Z.of_nat (length osr) - 1) / 2)%Z) in *.
    destruct smooth as [s|]; [exists s; split; [reflexivity|lia]|]. exists (Z.max 5 (round_he (INR (length osr) / 10))). split; [apply round_he_reach|]. clear HS. lia.
  - cbv zeta. unfold local_slope. cbv zeta. rewrite map_seq_nth by exact Hi. set (lo := Z.to_nat (Z.max 0 _)). set (hi := Z.to_nat (Z.min _ _)).
    change (ln (nth hi osr 0) / ln 10) with (lg (nth hi osr 0)). change (ln (nth lo osr 0) / ln 10) with (lg (nth lo osr 0)).
    destruct (Rltb_spec (1 / 10 ^ 15) (Rabs (lg (nth hi osr 0) - lg (nth lo osr 0)))); split; intros G; try reflexivity; exfalso; lra.
Qed.

(** An insertion sort, so that the examples have an argsort. *)
Fixpoint insert_at (l : list R) (i : nat) (o : list nat) : list nat :=
  match o with [] => [i] | j :: o' => if Rleb (nth i l 0) (nth j l 0) then i :: o else j :: insert_at l i o' end.
Definition ins_argsort (l : list R) : list nat := fold_right (insert_at l) [] (seq 0 (length l)).
Lemma insert_at_perm l i o : Permutation (insert_at l i o) (i :: o).
Proof. induction o as [|j o IH]; cbn; [apply Permutation_refl|]. destruct (Rleb _ _); [apply Permutation_refl|]. eapply Permutation_trans; [apply perm_skip, IH|apply perm_swap]. Qed.
Lemma insert_at_sorted l i o : StronglySorted (fun i j => nth i l 0 <= nth j l 0) o -> StronglySorted (fun i j => nth i l 0 <= nth j l 0) (insert_at l i o).
Proof.
  induction o as [|j o IH]; intros H; cbn; [repeat constructor|]. inversion_clear H as [|? ? H1 H2]. destruct (Rleb_spec (nth i l 0) (nth j l 0)) as [L|L].
  - constructor; [constructor; assumption|]. constructor; [exact L|]. eapply Forall_impl; [|exact H2]. cbv beta. intros a Ha. lra.
  - constructor; [apply IH, H1|]. apply Forall_forall. intros x Hx. apply (Permutation_in _ (insert_at_perm l i o)) in Hx. destruct Hx as [<-|Hx]; [lra|]. revert x Hx. apply Forall_forall. exact H2.
Qed.
Lemma ins_argsort_sorts l : sorts l (ins_argsort l).
Proof.
  unfold sorts, ins_argsort. split; induction (seq 0 (length l)) as [|i o IH]; cbn.
  - constructor.
  - eapply Permutation_trans; [apply insert_at_perm|apply perm_skip, IH].
  - constructor.
  - apply insert_at_sorted, IH.
Qed.
(** A sine of amplitude 2 on bin 2 of 8 samples, at two OSRs. *)
Lemma c126_pure_sine_ex : sweep_performance gs_lstsq ins_argsort quarter_record (Some [1; 2]) = Ok ([1; 2], [(PInf, PInf, PInf); (PInf, PInf, PInf)]).
Proof.
  apply (c126_pure_sine gs_lstsq ins_argsort quarter_record 2 2 0 1 [1; 2] gs_least_squares ins_argsort_sorts).
  - lia. - cbn; lia. - cbn; lia. - change (length quarter_record) with 8%nat. apply (Rle_trans _ (10 ^ 1)); [cbn; lra | apply Rle_pow; [lra | lia]]. - lra.
  - exact quarter_record_is. - intros x [<-|[<-|[]]]; lra.
Qed.
(** An OSR of zero is refused. *)
Lemma c126_errors_ex : sweep_performance gs_lstsq ins_argsort quarter_record (Some [1; 0]) = Err ValueError.
Proof.
  pose proof (c126_errors gs_lstsq ins_argsort quarter_record (Some [1; 0]) (fun l => proj1 (ins_argsort_sorts l))) as C.
  change (length quarter_record <? 2)%nat with false in C. cbn [orb existsb] in C. destruct (Rleb_spec 1 0); [lra|]. destruct (Rleb_spec 0 0); [exact C|lra].
Qed.
(** harmonic = 2.5 is refused, harmonic = 3 accepted. *)
Lemma c127_checks_ex : perfosr gs_lstsq ins_argsort quarter_record (Some [1; 2]) 2.5 None = Err ValueError /\
  perfosr gs_lstsq ins_argsort quarter_record (Some [1; 2]) 3 None = Ok ([1; 2], [PInf; PInf], [PInf; PInf], [PInf; PInf]).
Proof.
  split.
  - unfold perfosr, raise_if. rewrite (Zfloor_imp 2) by (simpl; lra). destruct (Reqb_spec 2 2.5); [lra|]. rewrite orb_true_r. reflexivity.
  - destruct (proj1 (c127_checks gs_lstsq ins_argsort quarter_record (Some [1; 2]) 3 None (fun l => proj1 (ins_argsort_sorts l)))) as (o & l & E & Es).
    + split; [exists 3%nat; split; [simpl; lra|lia]|]. split; [exact I|]. split; [intros x [<-|[<-|[]]]; lra|cbn; lia].
    + rewrite c126_pure_sine_ex in Es. apply Ok_inj in Es. injection Es as <- <-. exact E.
Qed.
(** First-order shaping, 30 dB per decade, at OSRs 1, 10, 100. *)
Lemma c127_slope_ex : local_slope [1; 10; 100] [20; 50; 80] None = [30; 30; 30].
Proof.
  assert (L1 : lg 1 = 0) by apply lg_1. assert (L10 : lg 10 = 1) by apply lg_10. assert (L100 : lg 100 = 2) by (replace 100 with (10 * 10) by ring; rewrite lg_mult by lra; lra).
  assert (G : 1 / 10 ^ 15 < 1) by (apply Rmult_lt_reg_r with (10 ^ 15); [apply pow_lt; lra|]; unfold Rdiv; rewrite Rmult_assoc, Rinv_l by (apply pow_nonzero; lra); rewrite !Rmult_1_l; apply Rlt_pow_R1; [lra|lia]).
  change [30; 30; 30] with (repeat 30 (length [1; 10; 100])). apply (c127_slope _ _ _ 20 30); [cbn; lia|reflexivity|exact I| |].
  - intros [|[|[|i]]] Hi; cbn [nth]; cbn [length] in Hi; [lra|lra|lra|lia].
  - intros [|[|i]] [|[|[|j]]] Hij Hj; cbn [length] in Hj; try lia; cbn [nth]; rewrite ?L1, ?L10, ?L100; rewrite Rabs_right; lra.
Qed.
(** A jump at the last of five points is seen by the last three slopes only (reach 2, although 100 is requested). *)
Lemma c127_reach_ex : exists h, reach 5 (Some 100%Z) h /\ h = 2%Z.
Proof. exists 2%Z. split; [|reflexivity]. exists 100%Z. split; [reflexivity|]. split; lia. Qed.
