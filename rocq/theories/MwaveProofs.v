(** * The scripts that write sine waves and errsin_hp.m: final lemmas c204_ - c207_. *)
From Coq Require Import Psatz.
From Verif Require Import Base BaseLemmas Cplx TiModel CalModel CalSpec CalExLemmas FitModel FitSpec FitProofs SiggenModel RearModel RearSpec MatModel MatProofs MsinModel MsinProofs MerrModel MerrProofs MwaveModel.
Local Open Scope R_scope.

Lemma map2_seq {A} (f : A -> R -> R) (g : nat -> A) N d : length d = N -> map2 f (map g (seq 0 N)) d = map (fun k => f (g k) (nth k d 0)) (seq 0 N).
Proof.
  intros <-. revert g. induction d as [| x d IH]; intros g; [reflexivity |]. cbn [length seq map map2 nth]. f_equal. rewrite <- seq_shift, !map_map. exact (IH (fun k => g (S k))).
Qed.
Lemma map2_self {A} (f : A -> nat -> R) (g : nat -> A) : forall N s, map2 f (map g (seq s N)) (seq s N) = map (fun k => f (g k) k) (seq s N).
Proof. induction N as [| N IH]; intros s; [reflexivity |]. cbn [seq map map2]. f_equal. apply IH. Qed.
Lemma phase_is g k : clean_at g (INR k / g_Fs g) = g_A g * sin (w_phase (g_Fin g) (g_Fs g) k) + g_DC g.
Proof. unfold clean_at, w_phase. do 3 f_equal. unfold Rdiv. ring. Qed.
(** ** C204: the scripts and the Python signal generator *)
(** The scripts for noise, jitter, amplitude noise, an amplitude tone and glitches are chains of the Python appliers, given the same draws. *)
Lemma c204_noise g rms d : length d = g_N g -> w_noise (g_N g) (g_A g) (g_DC g) (g_Fin g) (g_Fs g) rms d = apply_thermal_noise g None rms d.
Proof.
  intros L. unfold w_noise, apply_thermal_noise. cbn [resolve_signal]. unfold clean_signal. rewrite map2_seq by exact L. apply map_ext. intros k. rewrite phase_is. reflexivity.
Qed.
Lemma c204_jitter g Tj rms d1 d2 : length d1 = g_N g -> length d2 = g_N g ->
  w_jitter (g_N g) (g_A g) (g_DC g) (g_Fin g) (g_Fs g) Tj rms d1 d2 = apply_thermal_noise g (Some (jitter_clean g Tj d1)) rms d2.
Proof.
  intros L1 L2. unfold w_jitter, apply_thermal_noise, jitter_clean. cbn [resolve_signal]. replace (map2 (fun i d => clean_at g (INR i / g_Fs g + d * Tj)) (seq 0 (g_N g)) d1) with (map (fun k => clean_at g (INR k / g_Fs g + nth k d1 0 * Tj)) (seq 0 (g_N g))).
  - rewrite map2_seq by exact L2. apply map_ext. intros k. unfold clean_at, w_phase. do 4 f_equal. unfold Rdiv. ring.
  - rewrite <- (map2_seq (fun i d => clean_at g (INR i / g_Fs g + d * Tj)) (fun k => k)) by exact L1. rewrite map_id. reflexivity.
Qed.
Lemma c204_am_noise g s rms d1 d2 : length d1 = g_N g -> length d2 = g_N g ->
  w_am_noise (g_N g) (g_A g) (g_DC g) (g_Fin g) (g_Fs g) s rms d1 d2 = apply_thermal_noise g (Some (apply_am_noise g None s d1)) rms d2.
Proof.
  intros L1 L2. unfold w_am_noise, apply_thermal_noise, apply_am_noise. cbn [resolve_signal]. unfold clean_signal. rewrite !map2_seq by assumption. apply map_ext. intros k. rewrite phase_is. ring.
Qed.
Lemma c204_am_tone g m f rms d : length d = g_N g ->
  w_am_tone (g_N g) (g_A g) (g_DC g) (g_Fin g) (g_Fs g) m f rms d = apply_thermal_noise g (Some (apply_am_tone g None f m)) rms d.
Proof.
  intros L. unfold w_am_tone, apply_thermal_noise, apply_am_tone. cbn [resolve_signal]. unfold clean_signal. rewrite map2_self, map2_seq by exact L. apply map_ext. intros k. rewrite phase_is. ring.
Qed.
Lemma c204_glitch g p rms d u : length d = g_N g -> length u = g_N g ->
  w_glitch (g_N g) (g_A g) (g_DC g) (g_Fin g) (g_Fs g) p rms d u = apply_glitch g (Some (apply_thermal_noise g None rms d)) p 0.1 u.
Proof.
  intros L U. unfold w_glitch, apply_glitch, apply_thermal_noise. cbn [resolve_signal]. unfold clean_signal. rewrite !map2_seq by assumption. apply map_ext. intros k. rewrite phase_is. reflexivity.
Qed.
(** Noise of a given voltage on the amplitude is the relative noise of the Python generator, on the phase it is jitter. *)
Lemma c204_am_pm g rms d : g_A g <> 0 -> g_Fin g <> 0 -> length d = g_N g ->
  w_am_abs (g_N g) (g_A g) (g_DC g) (g_Fin g) (g_Fs g) rms d = apply_am_noise g None (rms / g_A g) d /\ w_pm_abs (g_N g) (g_A g) (g_DC g) (g_Fin g) (g_Fs g) rms d = jitter_clean g (rms / g_A g / (2 * PI * g_Fin g)) d.
Proof.
  intros A F L. pose proof PI_RGT_0 as PP. split.
  - unfold w_am_abs, apply_am_noise. cbn [resolve_signal]. unfold clean_signal. rewrite map2_seq by exact L. apply map_ext. intros k. rewrite phase_is. field. exact A.
  - unfold w_pm_abs, jitter_clean. rewrite <- (map_id (seq 0 (g_N g))) at 2. rewrite (map2_seq (fun i d0 => clean_at g (INR i / g_Fs g + d0 * (rms / g_A g / (2 * PI * g_Fin g)))) (fun k => k)) by exact L. apply map_ext. intros k. unfold clean_at, w_phase. do 3 f_equal. unfold Rdiv. rewrite Rmult_plus_distr_l. f_equal; [ring |]. field. repeat split; lra.
Qed.
Lemma nonlin_sum dc k2 k3 k4 k5 x : nonlin dc k2 k3 k4 k5 x = w_static 1 k2 k3 k4 k5 (x - dc) + dc.
Proof.
  unfold nonlin, w_static. cbv zeta. destruct (Reqb_spec k2 0), (Reqb_spec k3 0), (Reqb_spec k4 0), (Reqb_spec k5 0); subst; ring.
Qed.
(** The two distortion scripts are the Python appliers at an offset of one half. *)
Lemma c204_static g k2 k3 k4 k5 d : g_DC g = 1 / 2 -> length d = g_N g ->
  w_nonlin_static (g_N g) (g_A g) (g_Fin g) (g_Fs g) 1 k2 k3 k4 k5 d = apply_thermal_noise g (Some (apply_static_nonlinearity g None k2 k3 k4 k5)) (1 / 10 ^ 4) d.
Proof.
  intros D L. unfold w_nonlin_static, apply_thermal_noise, apply_static_nonlinearity. cbn [resolve_signal]. unfold clean_signal. rewrite map_map, map2_seq by exact L. apply map_ext. intros k. rewrite phase_is, nonlin_sum, D. replace (g_A g * sin (w_phase (g_Fin g) (g_Fs g) k) + 1 / 2 - 1 / 2) with (g_A g * sin (w_phase (g_Fin g) (g_Fs g) k)) by ring. lra.
Qed.
Lemma c204_hd g a b rms d : g_A g <> 0 -> g_DC g = 1 / 2 -> length d = g_N g ->
  w_nonlin_hd (g_N g) (g_A g) (g_Fin g) (g_Fs g) a b rms d = apply_thermal_noise g (Some (apply_static_nonlinearity_hd g None (Some a) (Some b) None None)) rms d.
Proof.
  intros A D L. unfold w_nonlin_hd, apply_thermal_noise, apply_static_nonlinearity_hd, apply_static_nonlinearity. cbn [resolve_signal]. unfold clean_signal. rewrite map_map, map2_seq by exact L. apply map_ext. intros k. rewrite phase_is, nonlin_sum, D. replace (g_A g * sin (w_phase (g_Fin g) (g_Fs g) k) + 1 / 2 - 1 / 2) with (g_A g * sin (w_phase (g_Fin g) (g_Fs g) k)) by ring. set (x := g_A g * sin _).
  replace (w_static 1 (db_to_k (g_A g) (Some a) 2) (db_to_k (g_A g) (Some b) 3) (db_to_k (g_A g) None 4) (db_to_k (g_A g) None 5) x) with (w_hd (g_A g) a b x); [lra |]. unfold w_static, w_hd, db_to_k. cbn [Nat.sub]. cbv zeta. field. exact A.
Qed.
Lemma settle_same T tau k x : forall v, w_settle T tau k v x = settle T tau k v x.
Proof. induction x as [| y x IH]; intros v; [reflexivity |]. cbn [w_settle settle]. cbv zeta. apply f_equal2; [reflexivity | apply IH]. Qed.
Lemma settle_length T tau k x : forall v, length (settle T tau k v x) = length x.
Proof. induction x as [| y x IH]; intros v; [reflexivity |]. cbn [settle length]. cbv zeta. f_equal. apply IH. Qed.
Lemma map_nth_seq (l : list R) : map (fun k => nth k l 0) (seq 0 (length l)) = l.
Proof. induction l as [| x l IH]; [reflexivity |]. cbn [length seq map nth]. f_equal. rewrite <- seq_shift, map_map. exact IH. Qed.
(** So is the script for incomplete settling, with the tracking time of one fifth of the period both take. *)
Lemma c204_settling g target tau c rms d : length d = g_N g -> exists v,
  apply_incomplete_sampling g None None tau c = Ok v /\ snd (w_nonlin_dynamic (g_N g) (g_A g) (g_DC g) (g_Fin g) (g_Fs g) target tau c rms d) = apply_thermal_noise g (Some v) rms d.
Proof.
  intros L. unfold apply_incomplete_sampling. cbn [resolve_signal]. cbv zeta. assert (LC : length (clean_signal g) = g_N g) by (unfold clean_signal; rewrite map_length, seq_length; reflexivity). rewrite LC, Nat.ltb_irrefl. eexists. split; [reflexivity |]. rewrite <- LC at 2. rewrite firstn_all.
  assert (E : map (fun v => v - g_DC g) (clean_signal g) = map (fun k => g_A g * sin (w_phase (g_Fin g) (g_Fs g) k)) (seq 0 (g_N g))) by (unfold clean_signal; rewrite map_map; apply map_ext; intros k; rewrite phase_is; ring). rewrite E. unfold w_nonlin_dynamic, apply_thermal_noise. cbv zeta. cbn [snd resolve_signal]. rewrite settle_same. set (v := settle _ _ _ _ _).
  assert (LV : length v = g_N g) by (unfold v; rewrite settle_length, map_length, seq_length; reflexivity). replace (map (fun v => v + g_DC g) v) with (map (fun v => v + g_DC g) (map (fun k => nth k v 0) (seq 0 (length v)))) by (rewrite map_nth_seq; reflexivity). rewrite LV, map_map, map2_seq by exact L. reflexivity.
Qed.
(** Fixed thresholds instead of percentiles: clipping holds the values between them, leaves the others and is done after one pass. *)
Lemma c204_clip th x : th <= 1 / 2 -> th <= w_clip th x <= 1 - th /\ (th <= x <= 1 - th -> w_clip th x = x) /\ w_clip th (w_clip th x) = w_clip th x.
Proof.
  intros T. unfold w_clip, Rmin, Rmax. repeat split; intros; repeat destruct (Rle_dec _ _); lra.
Qed.
(** The drift starts at 0, rises and stays below its amplitude. *)
Lemma c204_drift N amp k : 0 < amp -> (0 < N)%nat -> w_drift N amp 0 = 0 /\ w_drift N amp k < w_drift N amp (S k) < amp.
Proof.
  intros P HN. assert (I : 0 < INR N) by (apply lt_0_INR; exact HN). unfold w_drift. split; [replace (- INR 0 / INR N * 10) with 0 by (cbn; field; lra); rewrite exp_0; ring |].
  assert (E : exp (- INR (S k) / INR N * 10) < exp (- INR k / INR N * 10)). { apply exp_increasing. rewrite S_INR. apply Rmult_lt_compat_r; [lra |]. apply Rmult_lt_compat_r; [apply Rinv_0_lt_compat; exact I | lra]. } pose proof (exp_pos (- INR (S k) / INR N * 10)). split; nra.
Qed.
Example c204_clip_ex : w_clip (1 / 100) 1 = 99 / 100 /\ w_clip (1 / 100) (1 / 2) = 1 / 2 /\ w_drift 10 2 0 = 0.
Proof. unfold w_clip, w_drift, Rmin, Rmax. repeat split; repeat destruct (Rle_dec _ _); try lra. replace (- INR 0 / INR 10 * 10) with 0 by (cbn; field). rewrite exp_0. ring. Qed.
(** ** C205: the distortion levels *)
(** The distorted sine has the harmonics asked for relative to A, an offset, and a larger fundamental. *)
Lemma c205_harmonics A db2 db3 ph : A <> 0 -> let h2 := Rpower 10 (db2 / 20) in let h3 := Rpower 10 (db3 / 20) in
  w_hd A db2 db3 (A * sin ph) = A * h2 + A * (1 + 3 * h3) * sin ph - A * h2 * cos (2 * ph) - A * h3 * sin (3 * ph).
Proof.
  intros N h2 h3. unfold w_hd. cbv zeta. fold h2 h3. replace (3 * ph) with (2 * ph + ph) by ring. rewrite sin_plus, sin_2a, cos_2a_sin. assert (C : cos ph * cos ph = 1 - sin ph * sin ph) by (pose proof (sin2_cos2 ph) as Q; unfold Rsqr in Q; lra). set (s := sin ph) in *. set (c := cos ph) in *. replace (2 * s * c * c + (1 - 2 * s * s) * s) with (2 * s * (c * c) + (1 - 2 * s * s) * s) by ring. rewrite C. field. exact N.
Qed.
(** Relative to the fundamental the third harmonic is therefore below the level asked for, always. *)
Lemma c205_level_refuted A db2 db3 : 0 < A -> exists a1 a3, (forall ph, w_hd A db2 db3 (A * sin ph) = A * Rpower 10 (db2 / 20) + a1 * sin ph - A * Rpower 10 (db2 / 20) * cos (2 * ph) - a3 * sin (3 * ph)) /\ 0 < a3 /\ a3 / a1 < Rpower 10 (db3 / 20).
Proof.
  intros P. set (h3 := Rpower 10 (db3 / 20)). assert (H : 0 < h3) by (unfold h3, Rpower; apply exp_pos). exists (A * (1 + 3 * h3)), (A * h3). split; [intros ph; apply c205_harmonics; lra |]. split; [apply Rmult_lt_0_compat; assumption |]. replace (A * h3 / (A * (1 + 3 * h3))) with (h3 / (1 + 3 * h3)) by (field; lra). apply (Rmult_lt_reg_r (1 + 3 * h3)); [lra |]. unfold Rdiv. rewrite Rmult_assoc, Rinv_l by lra. nra.
Qed.
Example c205_harmonics_ex : w_hd 1 (-20) (-20) 1 = 1 + 2 / 10 + 4 / 10.
Proof.
  assert (R10 : Rpower 10 (-20 / 20) = 1 / 10). { replace (-20 / 20) with (Ropp 1) by lra. rewrite Rpower_Ropp, Rpower_1 by lra. lra. } unfold w_hd. cbv zeta. rewrite R10. lra.
Qed.
(** ** C206: the names of the files *)
(** The two "zones" of the script both lie in zone 1: its second file replaces the first. *)
Lemma floor_at x z : IZR z <= x < IZR z + 1 -> Zfloor x = z.
Proof. intros H. apply Zfloor_imp. rewrite plus_IZR. exact H. Qed.
Lemma zone_first N fs target J : (0 < N)%nat -> 0 < fs -> Zfloor (target / fs * IZR (Z.of_nat N)) = J -> Z.gcd J (Z.of_nat N) = 1%Z -> (0 < 2 * J <= Z.of_nat N)%Z -> w_zone N fs target = Ok (Some 1%Z).
Proof.
  intros HN F E G B. unfold w_zone, m_findbin, Rleb. destruct (Rle_dec fs 0); [lra |]. destruct (Z.leb_spec (Z.of_nat N) 0); [lia |]. cbn [raise_if bind]. destruct N as [| N']; [lia |]. set (N := S N') in *. unfold N at 1. cbn [m_search]. fold N. rewrite E, Z.add_0_r, G. cbn [Z.eqb Pos.eqb]. do 2 f_equal. assert (I : 0 < INR N) by (apply lt_0_INR; lia).
  replace (IZR J / INR N * fs / (fs / 2)) with (IZR (2 * J) / INR N) by (rewrite mult_IZR; field; lra). apply Zceil_imp. rewrite INR_IZR_INZ in *. pose proof (IZR_lt _ _ (proj1 B)). pose proof (IZR_le _ _ (proj2 B)). split.
  - change (IZR (1 - 1)) with 0. unfold Rdiv. apply Rmult_lt_0_compat; [lra | apply Rinv_0_lt_compat; exact I].
  - apply (Rmult_le_reg_r (IZR (Z.of_nat N))); [exact I |]. unfold Rdiv. rewrite Rmult_assoc, Rinv_l by lra. lra.
Qed.
Lemma zone_next N fs target J : (1 < N)%nat -> 0 < fs -> Zfloor (target / fs * IZR (Z.of_nat N)) = J -> Z.gcd J (Z.of_nat N) <> 1%Z -> Z.gcd (J + 1) (Z.of_nat N) = 1%Z -> (0 < 2 * (J + 1) <= Z.of_nat N)%Z -> w_zone N fs target = Ok (Some 1%Z).
Proof.
  intros HN F E G0 G B. unfold w_zone, m_findbin, Rleb. destruct (Rle_dec fs 0); [lra |]. destruct (Z.leb_spec (Z.of_nat N) 0); [lia |]. cbn [raise_if bind]. destruct N as [| [| N']]; [lia | lia |]. set (N := S (S N')) in *. unfold N at 1. cbn [m_search]. fold N. rewrite E, Z.add_0_r, Z.sub_0_r. destruct (Z.eqb_spec (Z.gcd J (Z.of_nat N)) 1) as [Q | _]; [contradiction |]. rewrite andb_false_r. change (0 + 1)%Z with 1%Z. rewrite G. cbn [Z.eqb Pos.eqb]. do 2 f_equal. assert (I : 0 < INR N) by (apply lt_0_INR; lia).
  replace (IZR (J + 1) / INR N * fs / (fs / 2)) with (IZR (2 * (J + 1)) / INR N) by (rewrite mult_IZR; field; lra). apply Zceil_imp. rewrite INR_IZR_INZ in *. pose proof (IZR_lt _ _ (proj1 B)). pose proof (IZR_le _ _ (proj2 B)). split.
  - change (IZR (1 - 1)) with 0. unfold Rdiv. apply Rmult_lt_0_compat; [lra | apply Rinv_0_lt_compat; exact I].
  - apply (Rmult_le_reg_r (IZR (Z.of_nat N))); [exact I |]. unfold Rdiv. rewrite Rmult_assoc, Rinv_l by lra. lra.
Qed.
Lemma c206_zones_refuted : exists a b, 500000000 < a < 625000000 /\ 1000000000 < b < 1250000000 /\ w_zone (2 ^ 13) 2500000000 a = Ok (Some 1%Z) /\ w_zone (2 ^ 13) 2500000000 b = Ok (Some 1%Z).
Proof.
  exists 501000000, 1001000000. split; [lra |]. split; [lra |]. assert (N : Z.of_nat (2 ^ 13) = 8192%Z) by (rewrite Nat2Z.inj_pow; reflexivity). assert (P : (1 < 2 ^ 13)%nat) by (apply Nat2Z.inj_lt; rewrite N; lia).
  split; [apply (zone_first _ _ _ 1641) | apply (zone_next _ _ _ 3280)]; try exact P; try lra; try (rewrite N; apply floor_at; lra); try (rewrite N; reflexivity); try (rewrite N; discriminate); try (rewrite N; lia). lia.
Qed.
(** The zone in the name, whenever a bin is found: the signal lies in it. *)
Lemma c206_zone N fs target z : (0 < N)%nat -> 0 < fs -> w_zone N fs target = Ok (Some z) -> exists J, m_findbin N fs target (Z.of_nat N) = Ok (Some J) /\ IZR (z - 1) * (fs / 2) < IZR J / INR N * fs <= IZR z * (fs / 2).
Proof.
  intros HN F E. unfold w_zone in E. destruct (m_findbin N fs target (Z.of_nat N)) as [[J |] | e]; cbn [bind] in E; try discriminate E. exists J. split; [reflexivity |]. assert (EZ : Zceil (IZR J / INR N * fs / (fs / 2)) = z) by congruence. rewrite <- EZ. set (x := IZR J / INR N * fs). assert (X : x = x / (fs / 2) * (fs / 2)) by (field; lra). pose proof (Zceil_ub (x / (fs / 2))). assert (L : IZR (Zceil (x / (fs / 2)) - 1) < x / (fs / 2)). { rewrite minus_IZR. pose proof (Zceil_lb (x / (fs / 2))). lra. } rewrite X at 2 3. split; nra.
Qed.
(** The data of the script for incomplete settling do not depend on the frequency in the name of the file. *)
Lemma c206_dynamic N A DC fin fs target target' tau c rms d : snd (w_nonlin_dynamic N A DC fin fs target tau c rms d) = snd (w_nonlin_dynamic N A DC fin fs target' tau c rms d).
Proof. reflexivity. Qed.
(** With the numbers of the script: the name says 450 MHz, the signal has 1 GHz. *)
Lemma c206_name_refuted A DC tau c rms d : exists fin, 999000000 < fin < 1001000000 /\ (exists J, m_findbin (2 ^ 13) 2500000000 1000000000 (2 ^ 13) = Ok (Some J) /\ fin = IZR J / 8192 * 2500000000) /\
  450000000 < fst (w_nonlin_dynamic (2 ^ 13) A DC fin 2500000000 450000000 tau c rms d) < 451000000.
Proof.
  exists (3277 / 8192 * 2500000000). split; [lra |]. split.
  - exists 3277%Z. split; [| reflexivity]. unfold m_findbin, Rleb. destruct (Rle_dec _ _); [lra |]. change (2 ^ 13 <=? 0)%Z with false. cbn [raise_if]. replace (Zfloor (1000000000 / 2500000000 * IZR (2 ^ 13))) with 3276%Z by (symmetry; apply floor_at; change (IZR (2 ^ 13)) with 8192; lra). reflexivity.
  - assert (N : INR (2 ^ 13) = 8192) by (rewrite pow_INR; cbn; lra). unfold w_nonlin_dynamic. cbv zeta. cbn [fst]. rewrite N. assert (E : m_round (450000000 / 2500000000 * 8192) = 1475%Z). { unfold m_round, Rleb. destruct (Rle_dec _ _) as [_ | H]; [apply floor_at; lra | exfalso; apply H; lra]. } rewrite E. change (1475 mod 2 =? 0)%Z with false. cbv iota. lra.
Qed.
(** The frequency in the name belongs to an odd bin within three halves of the one asked for. *)
Lemma c206_name N A DC fin fs target tau c rms d : (0 < N)%nat -> 0 <= target / fs * INR N -> exists J, Z.odd J = true /\ fst (w_nonlin_dynamic N A DC fin fs target tau c rms d) = IZR J * fs / INR N /\ target / fs * INR N - 1 / 2 < IZR J <= target / fs * INR N + 3 / 2.
Proof.
  intros HN P. unfold w_nonlin_dynamic. cbv zeta. cbn [fst]. set (x := target / fs * INR N) in *. assert (E : m_round x = Zfloor (x + 1 / 2)) by (unfold m_round, Rleb; destruct (Rle_dec 0 x); [reflexivity | contradiction]). rewrite E. set (J0 := Zfloor (x + 1 / 2)). pose proof (Zfloor_lb (x + 1 / 2)) as L. pose proof (Zfloor_ub (x + 1 / 2)) as U. fold J0 in L, U. assert (O : Z.odd J0 = negb (J0 mod 2 =? 0)%Z) by (rewrite Zmod_odd; destruct (Z.odd J0); reflexivity). eexists. split; [| split; [reflexivity |]].
  - destruct (J0 mod 2 =? 0)%Z eqn:Q; [| rewrite O; reflexivity]. rewrite Z.odd_add, O. reflexivity.
  - destruct (J0 mod 2 =? 0)%Z; rewrite ?plus_IZR; lra.
Qed.
Example c206_zone_ex : w_zone 16 8 (11 / 2) = Ok (Some 2%Z).
Proof.
  unfold w_zone, m_findbin, Rleb. destruct (Rle_dec 8 0); [lra |]. change (Z.of_nat 16) with 16%Z. change (16 <=? 0)%Z with false. cbn [raise_if]. replace (Zfloor (11 / 2 / 8 * 16)) with 11%Z by (symmetry; apply floor_at; lra). cbn [m_search]. change (Z.gcd (11 + 0) 16 =? 1)%Z with true. cbv iota. cbn [bind]. do 2 f_equal. apply Zceil_imp. replace (INR 16) with 16 by (cbn; lra). change (11 + 0)%Z with 11%Z. cbn. lra.
Qed.
(** ** C207: errsin_hp *)
Lemma mod_period x : cos (m_mod x (2 * PI)) = cos x /\ sin (m_mod x (2 * PI)) = sin x.
Proof.
  set (k := Zfloor (x / (2 * PI))). assert (E : x = m_mod x (2 * PI) + 2 * PI * IZR k) by (unfold m_mod, k; ring). assert (C := cis_period (m_mod x (2 * PI)) k). rewrite <- E in C. split; [exact (eq_sym (f_equal Re C)) | exact (eq_sym (f_equal Im C))].
Qed.
Lemma nonneg_zero n f : (forall i, (i < n)%nat -> 0 <= f i) -> rsum n f = 0 -> forall i, (i < n)%nat -> f i = 0.
Proof.
  induction n as [| n IH]; intros H E i Hi; [lia |]. cbn [rsum] in E. assert (0 <= rsum n f) by (apply rsum_nonneg; intros; apply H; lia). pose proof (H n ltac:(lia)). destruct (Nat.eq_dec i n) as [-> | N]; [lra |]. apply IH; [intros; apply H; lia | lra | lia].
Qed.
Lemma two_points u v c1 c2 : c1 <> c2 -> u * c1 + v * (1 - c1) = 0 -> u * c2 + v * (1 - c2) = 0 -> u = 0 /\ v = 0.
Proof. intros N A B. assert (E : (u - v) * (c1 - c2) = 0) by lra. apply Rmult_integral in E. destruct E as [E | E]; [| lra]. assert (u = v) by lra. subst v. lra. Qed.
Lemma sin_sq x : sin x ^ 2 = 1 - cos x ^ 2.
Proof. pose proof (sin2_cos2 x) as Q. unfold Rsqr in Q. lra. Qed.
(** Errors with amplitude noise a at the peaks and p at the crossings are told apart exactly, from two phases on. *)
Lemma c207_exact ls bin er mag phi fin err a p t1 t2 : least_squares ls -> 0 <= a -> 0 <= p ->
  (forall t, (t < length err)%nat -> nth t err 0 ^ 2 = a * cos (2 * PI * fin * INR t + phi) ^ 2 + p * sin (2 * PI * fin * INR t + phi) ^ 2) ->
  (t1 < length err)%nat -> (t2 < length err)%nat -> cos (2 * PI * fin * INR t1 + phi) ^ 2 <> cos (2 * PI * fin * INR t2 + phi) ^ 2 ->
  hp_noi (hp_by_phase ls bin er mag phi fin err) = Some (sqrt a, sqrt p / mag).
Proof.
  intros L A P H T1 T2 D. set (co := hp_coeffs ls phi fin err).
  assert (Z : rsum (length err) (fun i => (co 0%nat * cos (2 * PI * fin * INR i + phi) ^ 2 + co 1%nat * sin (2 * PI * fin * INR i + phi) ^ 2 - nth i err 0 ^ 2) ^ 2) = 0).
  { apply Rle_antisym; [| apply rsum_nonneg; intros; apply pow2_ge_0]. set (y := fun j : nat => match j with O => a | _ => p end). pose proof (L (of_cols (length err) [fun t => cos (hp_rad phi fin t) ^ 2; fun t => sin (hp_rad phi fin t) ^ 2]) (fun t => nth t err 0 ^ 2) y) as Q. cbn [m_n m_m m_at of_cols length nth rsum] in Q. change (ls _ _) with co in Q.
    eapply Rle_trans; [apply Req_le | eapply Rle_trans; [exact Q | apply Req_le]].
    - apply rsum_ext. intros i I. unfold hp_rad. rewrite (proj1 (mod_period _)), (proj2 (mod_period _)). ring.
    - apply rsum_zero. intros i I. unfold hp_rad. rewrite (proj1 (mod_period _)), (proj2 (mod_period _)), (H i I). unfold y. ring. }
  assert (E : forall t, (t < length err)%nat -> (co 0%nat - a) * cos (2 * PI * fin * INR t + phi) ^ 2 + (co 1%nat - p) * (1 - cos (2 * PI * fin * INR t + phi) ^ 2) = 0).
  { intros t T. assert (Q := nonneg_zero _ _ (fun i _ => pow2_ge_0 _) Z t T). cbv beta in Q. rewrite H in Q by exact T. rewrite sin_sq in Q. nra. }
  destruct (two_points _ _ _ _ D (E t1 T1) (E t2 T2)) as [C0 C1]. unfold hp_by_phase. cbv zeta. fold co. destruct (m_erange _ _ _) as [xs es]. cbn [hp_noi]. unfold hp_noise. replace (co 0%nat) with a by lra. replace (co 1%nat) with p by lra. rewrite !Rmax_right by assumption. reflexivity.
Qed.
Lemma lsum_sq {A} (f : A -> R) l : 0 <= lsum (map (fun v => f v ^ 2) l).
Proof. induction l as [| x l IH]; [cbn; lra |]. change (0 <= f x ^ 2 + lsum (map (fun v => f v ^ 2) l)). pose proof (pow2_ge_0 (f x)). lra. Qed.
Lemma lsum_sq2 {A B} (f : A -> B -> R) a : forall b, 0 <= lsum (map2 (fun x y => f x y ^ 2) a b).
Proof. induction a as [| x a IH]; intros [| y b]; try (cbn; lra). change (0 <= f x y ^ 2 + lsum (map2 (fun x y => f x y ^ 2) a b)). pose proof (pow2_ge_0 (f x y)). specialize (IH b). lra. Qed.
(** R2 is never above 1. *)
Lemma c207_r2_le ls bin er mag phi fin err : exists r, hp_R2 (hp_by_phase ls bin er mag phi fin err) = Some r /\ r <= 1.
Proof.
  unfold hp_by_phase. cbv zeta. destruct (m_erange _ _ _) as [xs es]. cbn [hp_R2]. eexists. split; [reflexivity |]. unfold hp_r2. cbv zeta. destruct (filter _ _) as [| b v] eqn:E; [lra |]. rewrite <- E. set (y := map _ _). match goal with |- context [Rltb (lsum ?l) _] => set (tot := lsum l) end. destruct (Rltb_spec tot (1 / 10 ^ 20)) as [_ | T]; [lra |]. assert (0 < tot) by (assert (0 < 1 / 10 ^ 20) by (apply Rdiv_lt_0_compat; [lra | apply pow_lt; lra]); lra).
  match goal with |- 1 - ?r / tot <= 1 => assert (0 <= r) by apply lsum_sq2; assert (0 <= r / tot) by (apply Rmult_le_pos; [assumption | left; apply Rinv_0_lt_compat; assumption]); lra end.
Qed.
Lemma sum_none idx b : ~ In b idx -> forall v, bin_sum idx v b = 0.
Proof.
  unfold bin_sum. induction idx as [| x r IH]; intros N [| y v]; try reflexivity. cbn [map2]. change ((if (x =? b)%nat then y else 0) + lsum (map2 (fun i x0 => if (i =? b)%nat then x0 else 0) r v) = 0). destruct (Nat.eqb_spec x b) as [-> | _]; [exfalso; apply N; left; reflexivity |]. rewrite IH; [ring |]. intros I. apply N. right. exact I.
Qed.
Lemma sum_alone idx : NoDup idx -> forall v i, length v = length idx -> (i < length idx)%nat -> bin_sum idx v (nth i idx 0%nat) = nth i v 0.
Proof.
  induction idx as [| x r IH]; intros D [| y v] i L I; cbn [length] in *; try lia. inversion D as [| ? ? N D']; subst. change (bin_sum (x :: r) (y :: v)) with (fun b => (if (x =? b)%nat then y else 0) + bin_sum r v b). cbv beta. destruct i as [| i]; cbn [nth].
  - rewrite Nat.eqb_refl, sum_none by exact N. ring.
  - rewrite IH by (try exact D'; lia). destruct (Nat.eqb_spec x (nth i r 0%nat)) as [E | _]; [| ring]. exfalso. apply N. rewrite E. apply nth_In. lia.
Qed.
Lemma count_alone idx : NoDup idx -> forall i, (i < length idx)%nat -> bin_count idx (nth i idx 0%nat) = 1%nat.
Proof.
  assert (Z : forall l b, ~ In b l -> bin_count l b = 0%nat) by (unfold bin_count; induction l as [| x l IH]; intros b N; [reflexivity |]; cbn [filter]; destruct (Nat.eqb_spec x b) as [-> | _]; [exfalso; apply N; left; reflexivity | apply IH; intros I; apply N; right; exact I]).
  induction idx as [| x r IH]; intros D i I; cbn [length] in *; [lia |]. inversion D as [| ? ? N D']; subst. unfold bin_count. cbn [filter]. destruct i as [| i]; cbn [nth].
  - rewrite Nat.eqb_refl. cbn [length]. f_equal. apply Z. exact N.
  - destruct (Nat.eqb_spec x (nth i r 0%nat)) as [E | _]; [exfalso; apply N; rewrite E; apply nth_In; lia |]. apply IH; [exact D' | lia].
Qed.
Lemma sum_zero_nth idx : forall v b, length v = length idx -> (forall i, (i < length idx)%nat -> nth i idx 0%nat = b -> nth i v 0 = 0) -> bin_sum idx v b = 0.
Proof.
  induction idx as [| x r IH]; intros [| y v] b L H; cbn [length] in *; try lia; [reflexivity |]. change (bin_sum (x :: r) (y :: v) b) with ((if (x =? b)%nat then y else 0) + bin_sum r v b). rewrite IH; [| lia |].
  - destruct (Nat.eqb_spec x b) as [E | _]; [assert (Y := H 0%nat ltac:(lia) E); cbn [nth] in Y; rewrite Y; ring | ring].
  - intros i I E. apply (H (S i)); [lia | exact E].
Qed.
Lemma dev_alone idx err b : NoDup idx -> length err = length idx -> hp_dev idx err b = 0.
Proof.
  intros D L. unfold hp_dev, hp_per at 1. rewrite sum_zero_nth; [unfold Rdiv; ring | rewrite map2_length; congruence |]. intros i I E. rewrite (map2_nth _ _ _ i 0%nat 0) by (try exact I; congruence). unfold hp_per. rewrite sum_alone, count_alone by (try exact D; try exact I; exact L). change (INR 1) with 1. rewrite Rmax_left by lra. field.
Qed.
Lemma hp_bin_lt bin p : (0 < bin)%Z -> (hp_bin bin p < Z.to_nat bin)%nat.
Proof. intros B. unfold hp_bin. lia. Qed.
(** With at most one sample in a bin every deviation is 0 and R2 is 1, whatever the errors and the fit. *)
Lemma c207_alone ls bin er mag phi fin err : (0 < bin)%Z -> err <> [] ->
  (forall i j, (i < length err)%nat -> (j < length err)%nat -> hp_bin bin (hp_deg phi fin i) = hp_bin bin (hp_deg phi fin j) -> i = j) ->
  hp_R2 (hp_by_phase ls bin er mag phi fin err) = Some 1 /\ hp_rms (hp_by_phase ls bin er mag phi fin err) = repeat 0 (Z.to_nat bin).
Proof.
  intros B N H. unfold hp_by_phase. cbv zeta. destruct (m_erange _ _ _) as [xs es]. cbn [hp_R2 hp_rms]. rewrite map_map. set (idx := map (fun x => hp_bin bin (hp_deg phi fin x)) (seq 0 (length err))). assert (LI : length idx = length err) by (unfold idx; rewrite map_length, seq_length; reflexivity).
  assert (NI : forall i, (i < length err)%nat -> nth i idx 0%nat = hp_bin bin (hp_deg phi fin i)) by (intros i I; unfold idx; rewrite (nth_map_in _ _ i 0%nat) by (rewrite seq_length; exact I); rewrite seq_nth by exact I; reflexivity).
  assert (D : NoDup idx) by (apply (NoDup_nth idx 0%nat); rewrite LI; intros i j I J E; rewrite !NI in E by assumption; exact (H i j I J E)). assert (Z : forall b, hp_dev idx err b = 0) by (intros b; apply dev_alone; congruence). split.
  - f_equal. unfold hp_r2. cbv zeta. set (valid := filter _ _). assert (I0 : In (nth 0 idx 0%nat) valid). { assert (L0 : (0 < length err)%nat) by (destruct err; [contradiction | cbn; lia]). unfold valid. apply filter_In. split; [apply in_seq; rewrite NI by exact L0; pose proof (hp_bin_lt bin (hp_deg phi fin 0) B); lia |]. rewrite count_alone by (try exact D; lia). reflexivity. }
    destruct valid as [| b v]; [destruct I0 |]. set (y := map (hp_dev idx err) (b :: v)). assert (Y : y = repeat 0 (length (b :: v))) by (unfold y; generalize (b :: v); intros l; induction l as [| x l IH]; [reflexivity |]; cbn [map length repeat]; rewrite IH, Z; reflexivity).
    assert (T : lsum (map (fun v0 => (v0 - lmean y) ^ 2) y) = 0). { rewrite Y. assert (M : forall n, lsum (repeat 0 n) = 0) by (induction n as [| n IH]; [reflexivity |]; change (0 + lsum (repeat 0 n) = 0); rewrite IH; ring). assert (LM : lmean (repeat 0 (length (b :: v))) = 0) by (unfold lmean; rewrite M; unfold Rdiv; ring). rewrite LM. generalize (length (b :: v)). intros n. induction n as [| n IH]; [reflexivity |]. change ((0 - 0) ^ 2 + lsum (map (fun v0 => (v0 - 0) ^ 2) (repeat 0 n)) = 0). rewrite IH. ring. }
    rewrite T. destruct (Rltb_spec 0 (1 / 10 ^ 20)) as [_ | Q]; [reflexivity |]. exfalso. apply (Rle_not_lt _ _ Q). apply Rdiv_lt_0_compat; [lra | apply pow_lt; lra].
  - assert (Q : forall n s, map (fun b => sqrt (hp_dev idx err b)) (seq s n) = repeat 0 n) by (induction n as [| n IH]; intros s; [reflexivity |]; cbn [seq map repeat]; rewrite Z, sqrt_0, IH; reflexivity). apply Q.
Qed.
(** The documented range of R2 is not kept: with two bins it falls to -9, for every exact solver. *)
Lemma c207_r2_range_refuted : exists phi fin err, forall ls mag, least_squares ls -> hp_R2 (hp_by_phase ls 2 None mag phi fin err) = Some (-9).
Proof.
  exists 0, (1 / 4), [2; 0; 0; 0]. intros ls mag L. pose proof PI_RGT_0 as PP. unfold hp_by_phase. cbv zeta. cbn [m_erange hp_R2]. f_equal.
  assert (DG : forall t q, (t < 4)%nat -> INR t = q -> hp_deg 0 (1 / 4) t = 90 * q). { intros t q T E. unfold hp_deg, m_mod. rewrite E. replace ((2 * PI * (1 / 4) * q + 0) * 180 / PI) with (90 * q) by (field; lra). assert (B : 0 <= q < 4) by (rewrite <- E; split; [apply pos_INR | replace 4 with (INR 4) by (cbn; lra); apply lt_INR; exact T]). rewrite (floor_at (90 * q / 360) 0) by lra. ring. }
  assert (I : map (hp_bin 2) (map (hp_deg 0 (1 / 4)) (seq 0 (length [2; 0; 0; 0]))) = [0; 0; 1; 1]%nat).
  { cbn [length seq map]. rewrite (DG 0%nat 0), (DG 1%nat 1), (DG 2%nat 2), (DG 3%nat 3) by (try lia; cbn; lra). unfold hp_bin. rewrite (floor_at (90 * 0 / 360 * 2) 0), (floor_at (90 * 1 / 360 * 2) 0), (floor_at (90 * 2 / 360 * 2) 1), (floor_at (90 * 3 / 360 * 2) 1) by lra. reflexivity. }
  rewrite I. clear I. set (co := hp_coeffs ls 0 (1 / 4) [2; 0; 0; 0]).
  assert (C : co 0%nat = 2).
  { pose proof (normal_equations _ _ _ 0%nat (ls_minimises ls (of_cols 4 [fun t => cos (hp_rad 0 (1 / 4) t) ^ 2; fun t => sin (hp_rad 0 (1 / 4) t) ^ 2]) (fun t => nth t [2; 0; 0; 0] 0 ^ 2) L) ltac:(cbn; lia)) as Q. cbn [m_n m_m m_at of_cols length nth rsum] in Q. change (ls _ _) with co in Q. unfold hp_rad in Q. rewrite !(proj1 (mod_period _)), !(proj2 (mod_period _)) in Q.
    replace (2 * PI * (1 / 4) * INR 0 + 0) with 0 in Q by (cbn; ring). replace (2 * PI * (1 / 4) * INR 1 + 0) with (PI / 2) in Q by (cbn; field). replace (2 * PI * (1 / 4) * INR 2 + 0) with PI in Q by (cbn; field). replace (2 * PI * (1 / 4) * INR 3 + 0) with (3 * (PI / 2)) in Q by (cbn; field). rewrite cos_0, sin_0, cos_PI2, sin_PI2, cos_PI, sin_PI, cos_3PI2, sin_3PI2 in Q. lra. }
  unfold hp_r2. cbv zeta. change (Z.to_nat 2) with 2%nat. cbn [seq filter bin_count Nat.eqb length Nat.ltb Nat.leb]. assert (D0 : hp_dev [0; 0; 1; 1]%nat [2; 0; 0; 0] 0 = 1). { unfold hp_dev, hp_per, bin_sum, bin_count. cbn. rewrite !Rmax_right by lra. field. } assert (D1 : hp_dev [0; 0; 1; 1]%nat [2; 0; 0; 0] 1 = 0). { unfold hp_dev, hp_per, bin_sum, bin_count. cbn. rewrite !Rmax_right by lra. field. }
  cbn [map map2]. rewrite D0, D1, C. replace (lmean [1; 0]) with (1 / 2) by (unfold lmean; cbn; lra). unfold hp_xx. replace (INR 0 / 2 * 360 / 180 * PI) with 0 by (cbn; field). replace (INR 1 / 2 * 360 / 180 * PI) with PI by (cbn; field). rewrite cos_0, sin_0, cos_PI, sin_PI. cbn [lsum fold_right]. match goal with |- (if Rltb ?t ?e then _ else _) = _ => replace t with (1 / 2) by (cbn; lra); destruct (Rltb_spec (1 / 2) e) as [Q | _] end.
  - exfalso. revert Q. apply Rle_not_lt. unfold Rdiv at 1. rewrite Rmult_1_l. apply Rlt_le. apply (Rlt_le_trans _ (/ 10)); [| lra]. apply Rinv_lt_contravar; [apply Rmult_lt_0_compat; [lra | apply pow_lt; lra] |]. rewrite <- (pow_1 10) at 1. apply Rlt_pow; [lra | lia].
  - cbn. field.
Qed.
(** The bins start at the positions given, which are not their centres. *)
Lemma c207_bins bin p : (0 < bin)%Z -> 0 <= p < 360 -> (hp_bin bin p < Z.to_nat bin)%nat /\ hp_xx bin (hp_bin bin p) <= p < hp_xx bin (hp_bin bin p) + 360 / IZR bin.
Proof.
  intros B P. assert (IB : 0 < IZR bin) by (apply IZR_lt; exact B). split; [apply hp_bin_lt; exact B |]. set (x := p / 360 * IZR bin). assert (X : 0 <= x < IZR bin) by (unfold x; split; [apply Rmult_le_pos; lra | rewrite <- (Rmult_1_l (IZR bin)) at 2; apply Rmult_lt_compat_r; lra]). assert (F : (0 <= Zfloor x < bin)%Z) by (split; [apply Zfloor_lub; cbn; lra | apply lt_IZR; eapply Rle_lt_trans; [apply Zfloor_lb | lra]]).
  unfold hp_bin. fold x. rewrite Z.min_l by lia. unfold hp_xx. rewrite INR_IZR_INZ, Z2Nat.id by lia. pose proof (Zfloor_lb x). pose proof (Zfloor_ub x). assert (PE : p = x / IZR bin * 360) by (unfold x; field; lra). clearbody x. rewrite PE. unfold Rdiv. assert (0 < / IZR bin) by (apply Rinv_0_lt_compat; exact IB). split; nra.
Qed.
Example c207_bins_ex : hp_bin 4 100 = 1%nat /\ hp_xx 4 1 = 90.
Proof. unfold hp_bin, hp_xx. rewrite (floor_at (100 / 360 * 4) 1) by lra. split; [reflexivity | cbn; lra]. Qed.
Example c207_exact_ex : exists ls, least_squares ls /\ hp_noi (hp_by_phase ls 2 None 2 0 (1 / 4) [3; 4; -3; -4]) = Some (3, 2).
Proof.
  exists gs_lstsq. split; [exact gs_least_squares |]. rewrite (c207_exact gs_lstsq 2 None 2 0 (1 / 4) [3; 4; -3; -4] 9 16 0%nat 1%nat gs_least_squares); try lra; try (cbn; lia).
  - replace 9 with (3 * 3) by ring. replace 16 with (4 * 4) by ring. rewrite !sqrt_square by lra. do 2 f_equal. field.
  - intros t T. cbn in T. destruct t as [| [| [| [| t]]]]; [| | | | lia]; cbn [nth].
    + replace (2 * PI * (1 / 4) * INR 0 + 0) with 0 by (cbn; ring). rewrite cos_0, sin_0. ring.
    + replace (2 * PI * (1 / 4) * INR 1 + 0) with (PI / 2) by (cbn; field). rewrite cos_PI2, sin_PI2. ring.
    + replace (2 * PI * (1 / 4) * INR 2 + 0) with PI by (cbn; field). rewrite cos_PI, sin_PI. ring.
    + replace (2 * PI * (1 / 4) * INR 3 + 0) with (3 * (PI / 2)) by (cbn; field). rewrite cos_3PI2, sin_3PI2. ring.
  - replace (2 * PI * (1 / 4) * INR 0 + 0) with 0 by (cbn; ring). replace (2 * PI * (1 / 4) * INR 1 + 0) with (PI / 2) by (cbn; field). rewrite cos_0, cos_PI2. lra.
Qed.
Lemma value_bin_same bin lo hi x : (0 < bin)%Z -> lo < hi -> lo <= x -> hp_value_bin bin lo hi x = m_value_bin bin lo hi x.
Proof.
  intros B L X. unfold hp_value_bin, m_value_bin. cbv zeta. assert (W : 0 < (hi - lo) / IZR bin) by (apply Rdiv_lt_0_compat; [lra | apply IZR_lt; exact B]). destruct (Reqb_spec ((hi - lo) / IZR bin) 0) as [E | _]; [lra |]. assert (F : (0 <= Zfloor ((x - lo) / ((hi - lo) / IZR bin)))%Z) by (apply Zfloor_lub; cbn; apply Rmult_le_pos; [lra | left; apply Rinv_0_lt_compat; exact W]). rewrite Z.max_l by lia. reflexivity.
Qed.
Lemma count_pos_in idx b : (0 < bin_count idx b)%nat -> 1 <= INR (bin_count idx b).
Proof. intros C. change 1 with (INR 1). apply le_INR. lia. Qed.
Lemma dev_same idx : forall err b m, bin_sum idx (map2 (fun i e => (e - m i) ^ 2) idx err) b = bin_sum idx (map (fun e => (e - m b) ^ 2) err) b.
Proof.
  induction idx as [| x r IH]; intros [| y err] b m; try reflexivity. cbn [map2 map]. change ((if (x =? b)%nat then (y - m x) ^ 2 else 0) + bin_sum r (map2 (fun i e => (e - m i) ^ 2) r err) b = (if (x =? b)%nat then (y - m b) ^ 2 else 0) + bin_sum r (map (fun e => (e - m b) ^ 2) err) b). rewrite IH. destruct (Nat.eqb_spec x b) as [-> | _]; reflexivity.
Qed.
(** Value mode is that of errsin without oversampling, except that an empty bin gives 0 instead of NaN. *)
Lemma c207_value bin sig err phase b : (0 < bin)%Z -> lmin1 (hd 0 sig) sig < lmax1 (hd 0 sig) sig -> (b < Z.to_nat bin)%nat ->
  let e := m_by_value bin None sig err phase in let h := hp_by_value bin sig err in
  hp_x h = me_xx e /\ (nth b (me_mean e) NaN = Fin (nth b (hp_mean h) 0) /\ nth b (me_rms e) NaN = Fin (nth b (hp_rms h) 0) \/ nth b (me_mean e) NaN = NaN /\ nth b (me_rms e) NaN = NaN /\ nth b (hp_mean h) 0 = 0 /\ nth b (hp_rms h) 0 = 0).
Proof.
  intros B L HB. cbv zeta. assert (M : forall x, In x sig -> lmin1 (hd 0 sig) sig <= x) by (intros x I; apply lmin1_le; exact I). unfold m_by_value, hp_by_value. cbv zeta. cbn [m_erange me_xx me_mean me_rms hp_x hp_mean hp_rms]. set (lo := lmin1 _ _) in *. set (hi := lmax1 _ _) in *. assert (E : map (hp_value_bin bin lo hi) sig = map (m_value_bin bin lo hi) sig) by (apply map_ext_in; intros x I; apply value_bin_same; [exact B | exact L | apply M; exact I]). rewrite E. set (idx := map (m_value_bin bin lo hi) sig). split; [reflexivity |].
  rewrite !(nth_map_in _ _ b 0%nat) by (rewrite seq_length; exact HB). rewrite !seq_nth by exact HB. rewrite Nat.add_0_l. unfold m_bin_dev, bin_mean, hp_dev. destruct (Nat.ltb_spec 0 (bin_count idx b)) as [C | C].
  - left. assert (C1 := count_pos_in idx b C). unfold hp_per at 1 2. rewrite Rmax_right by exact C1. split; [reflexivity |]. do 3 f_equal. rewrite (dev_same idx err b (hp_per idx err)). unfold hp_per. rewrite Rmax_right by exact C1. reflexivity.
  - right. split; [reflexivity |]. split; [reflexivity |]. assert (NI : ~ In b idx). { intros I. assert (In b (filter (fun i => (i =? b)%nat) idx)) by (apply filter_In; split; [exact I | apply Nat.eqb_refl]). unfold bin_count in C. destruct (filter _ idx); [contradiction | cbn in C; lia]. } unfold hp_per at 1 2. rewrite !sum_none by exact NI. unfold Rdiv. rewrite !Rmult_0_l, sqrt_0. split; reflexivity.
Qed.
(** Errors of the arguments, and what is analysed otherwise: fit minus signal. *)
Lemma c207_run ls sig bin fin value er : ((bin <= 0)%Z \/ (exists f, fin = Some f /\ (f <= 0 \/ 1 <= f)) -> errsin_hp ls sig bin fin value er = Err RuntimeError) /\
  (forall o, errsin_hp ls sig bin fin value er = Ok o -> exists r, m_sinfit ls (map (fun x => [x]) sig) (match fin with Some f => f | None => 0 end) (1 / 10 ^ 12) (1 / 2) false 100 = Ok (Some r) /\
     (value = true -> hp_err o = map2 Rminus (mf_fitout r) sig /\ hp_errxx o = sig /\ hp_noi o = None /\ hp_R2 o = None) /\
     (value = false -> o = hp_by_phase ls bin er (mf_mag r) (mf_phi r) (match fin with Some f => f | None => mf_freq r end) (map2 Rminus (mf_fitout r) sig))).
Proof.
  unfold errsin_hp. split.
  - intros [B | (f & -> & H)]; [destruct (Z.leb_spec bin 0); [reflexivity | lia] |]. unfold Rleb. destruct (Rle_dec f 0), (Rle_dec 1 f); try (rewrite !orb_true_r; reflexivity); try (cbn [orb]; rewrite ?orb_true_r; reflexivity). lra.
  - intros o H. destruct (_ || _)%bool; cbn [raise_if] in H; [discriminate H |]. destruct (m_sinfit _ _ _ _ _ _ _) as [[r |] | e]; cbn [bind] in H; try discriminate H. exists r. split; [reflexivity |]. cbv zeta in H. destruct value; split; intros V; try discriminate V.
    + unfold hp_by_value in H. cbv zeta in H. assert (K : forall A (a b : A), Ok a = Ok b -> a = b) by (intros A a b Q; congruence). apply K in H. subst o. cbn. repeat split; reflexivity.
    + assert (K : forall A (a b : A), Ok a = Ok b -> a = b) by (intros A a b Q; congruence). apply K in H. symmetry. exact H.
Qed.
(** The phases are those of the fitted cosine, in degrees from 0 to 360. *)
Lemma c207_phase ls bin mag phi fin err t : (t < length err)%nat -> let o := hp_by_phase ls bin None mag phi fin err in
  length (hp_errxx o) = length err /\ 0 <= nth t (hp_errxx o) 0 < 360 /\ (exists k, nth t (hp_errxx o) 0 = (2 * PI * fin * INR t + phi) / PI * 180 - 360 * IZR k) /\ hp_err o = err.
Proof.
  intros T. cbv zeta. unfold hp_by_phase. cbv zeta. cbn [m_erange hp_errxx hp_err]. split; [rewrite map_length, seq_length; reflexivity |]. rewrite (nth_map_in _ _ t 0%nat) by (rewrite seq_length; exact T). rewrite seq_nth by exact T. rewrite Nat.add_0_l. unfold hp_deg. split; [apply mod_range; lra |]. split; [| reflexivity]. exists (Zfloor ((2 * PI * fin * INR t + phi) * 180 / PI / 360)). unfold m_mod. pose proof PI_RGT_0. field. lra.
Qed.
Lemma bin_iff bin p b : (0 < bin)%Z -> 0 <= p < 360 -> (b < Z.to_nat bin)%nat -> (hp_bin bin p =? b)%nat = (Rleb (hp_xx bin b) p && Rltb p (hp_xx bin b + 360 / IZR bin))%bool.
Proof.
  intros B P HB. destruct (c207_bins bin p B P) as [L [U V]]. assert (IB : 0 < IZR bin) by (apply IZR_lt; exact B). assert (I : 0 < / IZR bin) by (apply Rinv_0_lt_compat; exact IB). unfold hp_xx in *. destruct (Nat.eqb_spec (hp_bin bin p) b) as [E | N].
  - rewrite E in U, V. unfold Rleb. destruct (Rle_dec (INR b / IZR bin * 360) p); [| contradiction]. destruct (Rltb_spec p (INR b / IZR bin * 360 + 360 / IZR bin)) as [_ | Q]; [reflexivity | lra].
  - assert (D : (S (hp_bin bin p) <= b \/ S b <= hp_bin bin p)%nat) by lia. unfold Rleb. destruct (Rle_dec (INR b / IZR bin * 360) p) as [Q | _]; [| reflexivity]. destruct (Rltb_spec p (INR b / IZR bin * 360 + 360 / IZR bin)) as [W | _]; [| reflexivity]. exfalso. unfold Rdiv in *. destruct D as [D | D]; apply le_INR in D; rewrite S_INR in D; nra.
Qed.
(** Mean and deviation of a bin are those of the samples whose phase lies from its position to the next. *)
Lemma c207_mean ls bin er mag phi fin err b : (0 < bin)%Z -> (b < Z.to_nat bin)%nat -> let o := hp_by_phase ls bin er mag phi fin err in
  let member t := (Rleb (hp_xx bin b) (hp_deg phi fin t) && Rltb (hp_deg phi fin t) (hp_xx bin b + 360 / IZR bin))%bool in
  let number := rsum (length err) (fun t => if member t then 1 else 0) in
  nth b (hp_x o) 0 = INR b / IZR bin * 360 /\
  nth b (hp_mean o) 0 * Rmax 1 number = rsum (length err) (fun t => if member t then nth t err 0 else 0) /\
  nth b (hp_rms o) 0 ^ 2 * Rmax 1 number = rsum (length err) (fun t => if member t then (nth t err 0 - nth b (hp_mean o) 0) ^ 2 else 0).
Proof.
  intros B HB o member number. subst o. unfold hp_by_phase. cbv zeta. destruct (m_erange _ _ _) as [xs es]. cbn [hp_x hp_mean hp_rms]. rewrite map_map. set (idx := map (fun x => hp_bin bin (hp_deg phi fin x)) (seq 0 (length err))). assert (LI : length idx = length err) by (unfold idx; rewrite map_length, seq_length; reflexivity).
  rewrite !(nth_map_in _ _ b 0%nat) by (rewrite seq_length; exact HB). rewrite seq_nth by exact HB. rewrite Nat.add_0_l.
  assert (M : forall t, (t < length err)%nat -> (nth t idx 0 =? b)%nat = member t). { intros t T. unfold idx. rewrite (nth_map_in _ _ t 0%nat) by (rewrite seq_length; exact T). rewrite seq_nth by exact T. apply bin_iff; [exact B | unfold hp_deg; apply mod_range; lra | exact HB]. }
  assert (S : forall w, length w = length err -> bin_sum idx w b = rsum (length err) (fun t => if member t then nth t w 0 else 0)). { intros w LW. rewrite bin_sum_total by congruence. unfold total_in. rewrite LI. apply rsum_ext. intros t T. rewrite M by exact T. reflexivity. }
  assert (C : INR (bin_count idx b) = rsum (length err) (fun t => if member t then 1 else 0)). { rewrite bin_count_total. unfold total_in. rewrite LI. apply rsum_ext. intros t T. rewrite M by exact T. reflexivity. }
  fold number in C. set (K := Rmax 1 number). assert (HP : hp_per idx err b = bin_sum idx err b / K) by (unfold hp_per; rewrite C; reflexivity). assert (KP : 1 <= K) by apply Rmax_l. split; [reflexivity |]. split; [rewrite HP, S by reflexivity; field; lra |]. rewrite HP. unfold hp_dev. unfold hp_per at 1. rewrite (dev_same idx err b (hp_per idx err)). rewrite S by (rewrite map_length; reflexivity). rewrite C. fold K. rewrite <- Rsqr_pow2, Rsqr_sqrt.
  - unfold Rdiv. rewrite Rmult_assoc, Rinv_l, Rmult_1_r by lra. apply rsum_ext. intros t T. destruct (member t); [| reflexivity]. rewrite (nth_map_in _ _ t 0) by exact T. unfold hp_per. rewrite C. reflexivity.
  - apply Rmult_le_pos; [| left; apply Rinv_0_lt_compat; lra]. apply rsum_nonneg. intros t T. destruct (member t); [| lra]. rewrite (nth_map_in _ _ t 0) by exact T. apply pow2_ge_0.
Qed.
