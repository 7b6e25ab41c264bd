(** * Harmonic decomposition: the final lemmas are named c36_, c93_ - c96_. *)
From Verif Require Import Base BaseLemmas Cplx SpecModel SpecLemmas DoutProofs FreqProofs UnitsModel CalModel CalSpec CalProofs CalExLemmas CalExProofs TiModel TiToneProofs SpecToneProofs FitModel FitSpec FitProofs AcfModel AcfProofs RearProofs HarmModel HarmSpec.
From Coq Require Import Psatz.
Local Open Scope R_scope.

Lemma basis_at n f H t : m_at (harm_basis n f H) t 0 = 1 /\ forall h, m_at (harm_basis n f H) t (2 * h + 1) = cos (INR (S h) * (2 * PI * f * INR t)) /\ m_at (harm_basis n f H) t (2 * h + 2) = sin (INR (S h) * (2 * PI * f * INR t)).
Proof.
  split; [reflexivity |]. intros h. unfold harm_basis. cbn [m_at]. split.
  - destruct (Nat.eqb_spec (2 * h + 1) 0); [lia |]. replace ((2 * h + 1 + 1) / 2)%nat with (S h); [| replace (2 * h + 1 + 1)%nat with (S h * 2)%nat by lia; symmetry; apply Nat.div_mul; lia].
    replace (Nat.odd (2 * h + 1)) with true; [reflexivity |]. symmetry. apply Nat.odd_spec. exists h. lia.
  - destruct (Nat.eqb_spec (2 * h + 2) 0); [lia |]. replace ((2 * h + 2 + 1) / 2)%nat with (S h); [| replace (2 * h + 2 + 1)%nat with (1 + S h * 2)%nat by lia; rewrite Nat.div_add by lia; reflexivity].
    replace (Nat.odd (2 * h + 2)) with false; [reflexivity |]. symmetry. rewrite <- Nat.negb_even. apply Bool.negb_false_iff. apply Nat.even_spec. exists (S h). lia.
Qed.
Lemma basis_mv n f H (W : vec) t : mv (harm_basis n f H) W t = W 0%nat + rsum H (fun h => W (2 * h + 1)%nat * cos (INR (S h) * (2 * PI * f * INR t)) + W (2 * h + 2)%nat * sin (INR (S h) * (2 * PI * f * INR t))).
Proof.
  unfold mv. change (m_m (harm_basis n f H)) with (2 * H + 1)%nat.
  assert (G : forall K, rsum (2 * K + 1) (fun j => m_at (harm_basis n f H) t j * W j) = W 0%nat + rsum K (fun h => W (2 * h + 1)%nat * cos (INR (S h) * (2 * PI * f * INR t)) + W (2 * h + 2)%nat * sin (INR (S h) * (2 * PI * f * INR t)))).
  { induction K as [| K IH].
    - cbn [Nat.mul Nat.add rsum]. rewrite (proj1 (basis_at n f H t)). ring.
    - replace (2 * S K + 1)%nat with (S (S (2 * K + 1))) by lia. cbn [rsum]. cbn [rsum] in IH. rewrite IH. replace (S (2 * K + 1)) with (2 * K + 2)%nat by lia.
      destruct (proj2 (basis_at n f H t) K) as (-> & ->). ring. }
  apply G.
Qed.
Lemma average_nth rows t : rows <> [] -> (t < length (hd [] rows))%nat -> nth t (harm_average rows) 0 = run_mean rows t.
Proof.
  intros NE T. unfold harm_average. rewrite (nth_map_in _ _ _ 0%nat) by (rewrite seq_length; exact T). rewrite seq_nth by exact T. cbn [Nat.add]. unfold lmean, run_mean. rewrite (lsum_map_rsum _ _ []), map_length. reflexivity.
Qed.
Lemma wrap_phase_range x : - PI <= wrap_phase x < PI.
Proof.
  unfold wrap_phase. set (y := x + PI). pose proof (wrap2pi_range y) as W. unfold RearModel.wrap2pi in W. lra.
Qed.
Lemma wrap_phase_turns x : exists k : Z, wrap_phase x = x + 2 * PI * IZR k.
Proof. unfold wrap_phase. exists (- Zfloor ((x + PI) / (2 * PI)))%Z. rewrite opp_IZR. ring. Qed.
Lemma wrap_phase_0 : wrap_phase 0 = 0.
Proof. unfold wrap_phase. pose proof PI_RGT_0. replace ((0 + PI) / (2 * PI)) with (IZR 0 + 1 / 2) by (field; lra). rewrite floor_quarters by lra. ring. Qed.
Definition dec_avg (rows : list (list R)) : list R := harm_average (harm_rows rows).
(** The fields of a successful result, in terms of the coefficients. *)
Lemma harm_inv lstsq rows nh f mi tol r : decompose_harmonic_error lstsq rows nh f mi tol = Ok r ->
  exists fit, let avg := dec_avg rows in let zm := map (fun x => x - lmean avg) avg in let n := length avg in let H := Z.to_nat nh in
  let basis := harm_basis n (f_frequency fit) H in let W := lstsq basis (fun i => nth i zm 0) in
  fit_core lstsq zm f mi tol = Ok fit /\ (0 < nh)%Z /\ (0 < n)%nat /\ h_freq r = f_frequency fit /\
  length (h_noise r) = n /\ length (h_reconstructed r) = n /\ length (h_fundamental r) = n /\ length (h_harmonic r) = n /\
  (forall t, (t < n)%nat -> nth t (h_reconstructed r) 0 = mv basis W t + lmean avg /\ nth t (h_noise r) 0 = nth t avg 0 - lmean avg - mv basis W t /\
     nth t (h_fundamental r) 0 = W 0%nat + W 1%nat * cos (2 * PI * f_frequency fit * INR t) + W 2%nat * sin (2 * PI * f_frequency fit * INR t) + lmean avg /\
     nth t (h_harmonic r) 0 = mv basis W t - (W 0%nat + W 1%nat * cos (2 * PI * f_frequency fit * INR t) + W 2%nat * sin (2 * PI * f_frequency fit * INR t))) /\
  h_magnitudes r = map (fun h => Cmod (W (2 * h + 1)%nat, W (2 * h + 2)%nat) * 2) (seq 0 H) /\
  h_phases r = map (fun h => wrap_phase (Carg (W (2 * h + 1)%nat, W (2 * h + 2)%nat) - Carg (W 1%nat, W 2%nat) * INR (h + 1))) (seq 0 H) /\
  h_residual_rms r = rms_of (h_noise r) * 2 * sqrt 2 /\
  h_magnitudes_db r = map (fun m => db_ratio m (lmax1 (hd 0 avg) avg - lmin1 (hd 0 avg) avg) (1 / 10 ^ 20)) (h_magnitudes r) /\
  h_noise_db r = db_ratio (h_residual_rms r) (lmax1 (hd 0 avg) avg - lmin1 (hd 0 avg) avg) 0.
Proof.
  unfold decompose_harmonic_error. fold (dec_avg rows). cbv zeta. set (avg := dec_avg rows). set (zm := map (fun x => x - lmean avg) avg).
  destruct (fit_core lstsq zm f mi tol) as [fit |]; [| discriminate]. cbn [bind]. destruct (Z.leb_spec nh 0) as [|NH]; [discriminate |]. cbn [raise_if].
  assert (LZ : length zm = length avg) by apply map_length. rewrite LZ. destruct (Nat.eqb_spec (length avg) 0) as [|NZ]; [discriminate |]. cbn [raise_if].
  intros E. apply Ok_inj in E. subst r. exists fit. cbn [h_freq h_noise h_reconstructed h_fundamental h_harmonic h_magnitudes h_phases h_residual_rms h_magnitudes_db h_noise_db].
  set (W := lstsq (harm_basis (length avg) (f_frequency fit) (Z.to_nat nh)) (fun i => nth i zm 0)). set (B := harm_basis (length avg) (f_frequency fit) (Z.to_nat nh)).
  split; [reflexivity |]. split; [exact NH |]. split; [lia |]. split; [reflexivity |].
  assert (LR : length (map (mv B W) (seq 0 (length avg))) = length avg) by (rewrite map_length, seq_length; reflexivity).
  assert (LN : length (map2 Rminus zm (map (mv B W) (seq 0 (length avg)))) = length avg) by (rewrite map2_length; congruence).
  split; [exact LN |]. split; [rewrite !map_length, seq_length; reflexivity |]. split; [rewrite !map_length, seq_length; reflexivity |].
  split; [rewrite map2_length; rewrite !map_length, seq_length; reflexivity |]. split.
  - intros t T.
    assert (MV : nth t (map (mv B W) (seq 0 (length avg))) 0 = mv B W t) by (rewrite (nth_map_in _ _ _ 0%nat) by (rewrite seq_length; exact T); rewrite seq_nth by exact T; reflexivity).
    assert (FU : nth t (map (fun t0 => m_at B t0 0 * W 0%nat + m_at B t0 1 * W 1%nat + m_at B t0 2 * W 2%nat) (seq 0 (length avg))) 0 = W 0%nat + W 1%nat * cos (2 * PI * f_frequency fit * INR t) + W 2%nat * sin (2 * PI * f_frequency fit * INR t)).
    { rewrite (nth_map_in _ _ _ 0%nat) by (rewrite seq_length; exact T). rewrite seq_nth by exact T. cbn [Nat.add]. destruct (basis_at (length avg) (f_frequency fit) (Z.to_nat nh) t) as (Z0 & Z1). destruct (Z1 0%nat) as (C1 & S1). cbn [Nat.mul Nat.add] in C1, S1. unfold B. rewrite Z0, C1, S1. cbn [INR]. rewrite !Rmult_1_l. ring. }
    assert (ZM : nth t zm 0 = nth t avg 0 - lmean avg) by (unfold zm; rewrite (nth_map_in _ _ _ 0) by exact T; reflexivity).
    rewrite !(nth_map_in _ _ _ 0) by (rewrite ?map_length, ?seq_length; exact T). rewrite MV, FU.
    rewrite !(map2_nth Rminus _ _ t 0 0 0) by (rewrite ?map_length, ?seq_length; lia). rewrite MV, FU, ZM. repeat split; ring.
  - split; [reflexivity |]. split; [reflexivity |]. split; [| split; reflexivity]. unfold rms_of. do 3 f_equal. unfold lmean. rewrite map_length. f_equal. rewrite (lsum_map_rsum _ _ 0). reflexivity.
Qed.
(** Fundamental, harmonics and noise add up to the average of the runs, sample by sample, whatever the
    least-squares routine returns; the phases lie in [-pi, pi) and the first one is 0. *)
Lemma c36_adds_up lstsq rows nh f mi tol r : decompose_harmonic_error lstsq rows nh f mi tol = Ok r -> harm_rows rows <> [] ->
  let n := length (hd [] (harm_rows rows)) in
  length (h_noise r) = n /\ length (h_reconstructed r) = n /\ length (h_fundamental r) = n /\ length (h_harmonic r) = n /\
  (forall t, (t < n)%nat -> nth t (h_fundamental r) 0 + nth t (h_harmonic r) 0 + nth t (h_noise r) 0 = run_mean (harm_rows rows) t /\
     nth t (h_reconstructed r) 0 = nth t (h_fundamental r) 0 + nth t (h_harmonic r) 0) /\
  length (h_phases r) = Z.to_nat nh /\ length (h_magnitudes r) = Z.to_nat nh /\
  (forall h, (h < Z.to_nat nh)%nat -> - PI <= nth h (h_phases r) 0 < PI /\ 0 <= nth h (h_magnitudes r) 0) /\ nth 0 (h_phases r) 0 = 0.
Proof.
  intros E NE n. destruct (harm_inv _ _ _ _ _ _ _ E) as (fit & _ & NH & NP & _ & L1 & L2 & L3 & L4 & V & MG & PH & _).
  assert (LA : length (dec_avg rows) = n) by (unfold dec_avg, harm_average; rewrite map_length, seq_length; reflexivity). rewrite LA in *. repeat (split; [assumption |]). split.
  - intros t T. destruct (V t T) as (V1 & V2 & V3 & V4). rewrite V1, V2, V3, V4. unfold dec_avg. rewrite average_nth by assumption. split; ring.
  - rewrite PH, MG, !map_length, seq_length. split; [reflexivity |]. split; [reflexivity |]. split.
    + intros h Hh. rewrite !(nth_map_in _ _ _ 0%nat) by (rewrite seq_length; exact Hh). split; [apply wrap_phase_range |]. pose proof (Cmod_nonneg) as C. match goal with |- 0 <= Cmod ?z * 2 => pose proof (C z) end. lra.
    + rewrite (nth_map_in _ _ _ 0%nat) by (rewrite seq_length; lia). rewrite seq_nth by lia. cbn [Nat.add Nat.mul]. change (INR 1) with 1. replace (_ - _) with 0 by ring. apply wrap_phase_0.
Qed.
(** One run, several runs, or a single column: which samples are averaged. *)
Lemma c36_runs : (forall y, (length y <> 1)%nat -> harm_rows [y] = [y]) /\ (forall y : list R, y <> [] -> harm_rows (map (fun x => [x]) y) = [y]) /\ (forall rows, (length (hd [] rows) <> 1)%nat -> harm_rows rows = rows).
Proof.
  split; [| split].
  - intros y L. unfold harm_rows. cbn [hd]. destruct (Nat.eqb_spec (length y) 1); [contradiction | reflexivity].
  - intros y NE. destruct y as [| x y]; [congruence |]. unfold harm_rows. cbn [map hd length Nat.eqb]. f_equal. f_equal. rewrite map_map. cbn [hd]. apply map_id.
  - intros rows L. unfold harm_rows. destruct (Nat.eqb_spec (length (hd [] rows)) 1); [contradiction | reflexivity].
Qed.
(** The call fails, with ValueError, exactly when no harmonic is requested, the record is empty, or the
    frequency has to be found from fewer than two samples. *)
Lemma c36_accepts lstsq rows nh f mi tol : let n := length (hd [] (harm_rows rows)) in
  ((0 < nh)%Z /\ (0 < n)%nat /\ (f = None -> (2 <= n)%nat) -> exists r, decompose_harmonic_error lstsq rows nh f mi tol = Ok r) /\
  (~ ((0 < nh)%Z /\ (0 < n)%nat /\ (f = None -> (2 <= n)%nat)) -> decompose_harmonic_error lstsq rows nh f mi tol = Err ValueError).
Proof.
  intros n. unfold decompose_harmonic_error. fold (dec_avg rows). cbv zeta. set (avg := dec_avg rows). set (zm := map (fun x => x - lmean avg) avg).
  assert (LA : length avg = n) by (unfold avg, dec_avg, harm_average; rewrite map_length, seq_length; reflexivity).
  assert (LZ : length zm = n) by (unfold zm; rewrite map_length; exact LA). rewrite LZ.
  destruct (c52_failure lstsq zm f mi tol) as [(fit & E) | (E & F & S)]; rewrite E; cbn [bind].
  - assert (FN : f = None -> (2 <= n)%nat). { intros ->. destruct (le_lt_dec 2 n) as [| B]; [assumption | exfalso]. rewrite <- LZ in B. unfold fit_core, estimate_frequency_fft in E. rewrite (Nat.div_small _ 2 B) in E. cbn in E. discriminate. }
    destruct (Z.leb_spec nh 0) as [|NH]; cbn [raise_if]; [split; [lia | reflexivity] |]. destruct (Nat.eqb_spec n 0) as [|NZ]; cbn [raise_if]; [split; [lia | reflexivity] |].
    split; [intros _; eexists; reflexivity |]. intros G. exfalso. apply G. repeat split; [exact NH | lia | exact FN].
  - split; [intros (_ & _ & G); specialize (G F); lia | reflexivity].
Qed.
(** residual_rms is 2 sqrt 2 times the rms of the residual. *)
Lemma c96_residual_scale lstsq rows nh f mi tol r : decompose_harmonic_error lstsq rows nh f mi tol = Ok r -> h_residual_rms r = 2 * sqrt 2 * rms_of (h_noise r).
Proof. intros E. destruct (harm_inv _ _ _ _ _ _ _ E) as (fit & _ & _ & _ & _ & _ & _ & _ & _ & _ & _ & _ & R & _). rewrite R. ring. Qed.

(* ---------- C93: optimality ---------- *)
Lemma distorted_mv n f H dc A ph t : distorted H dc A ph f t = mv (harm_basis n f H) (fun j => if (j =? 0)%nat then dc else if Nat.odd j then A ((j - 1) / 2)%nat * cos (ph ((j - 1) / 2)%nat) else - A ((j - 2) / 2)%nat * sin (ph ((j - 2) / 2)%nat)) t.
Proof.
  rewrite basis_mv. unfold distorted. cbn [Nat.eqb]. f_equal. apply rsum_ext. intros h Hh.
  destruct (Nat.eqb_spec (2 * h + 1) 0); [lia |]. destruct (Nat.eqb_spec (2 * h + 2) 0); [lia |].
  replace (Nat.odd (2 * h + 1)) with true by (symmetry; apply Nat.odd_spec; exists h; lia).
  replace (Nat.odd (2 * h + 2)) with false by (symmetry; rewrite <- Nat.negb_even; apply Bool.negb_false_iff; apply Nat.even_spec; exists (S h); lia).
  replace ((2 * h + 1 - 1) / 2)%nat with h by (replace (2 * h + 1 - 1)%nat with (h * 2)%nat by lia; symmetry; apply Nat.div_mul; lia).
  replace ((2 * h + 2 - 2) / 2)%nat with h by (replace (2 * h + 2 - 2)%nat with (h * 2)%nat by lia; symmetry; apply Nat.div_mul; lia).
  rewrite cos_plus. ring.
Qed.
Lemma opt_core lstsq rows nh f mi tol r : least_squares lstsq -> decompose_harmonic_error lstsq rows nh f mi tol = Ok r ->
  let avg := dec_avg rows in let n := length avg in
  (forall dc A ph, rsum n (fun t => nth t (h_noise r) 0 ^ 2) <= rsum n (fun t => (nth t avg 0 - distorted (Z.to_nat nh) dc A ph (h_freq r) t) ^ 2)) /\
  rsum n (fun t => nth t (h_noise r) 0) = 0 /\
  (forall h ph, (h < Z.to_nat nh)%nat -> rsum n (fun t => nth t (h_noise r) 0 * cos (INR (S h) * (2 * PI * h_freq r * INR t) + ph)) = 0) /\
  rsum n (fun t => (nth t avg 0 - lmean avg) ^ 2) = rsum n (fun t => (nth t (h_reconstructed r) 0 - lmean avg) ^ 2) + rsum n (fun t => nth t (h_noise r) 0 ^ 2).
Proof.
  intros L E avg n. destruct (harm_inv _ _ _ _ _ _ _ E) as (fit & _ & NH & NP & FR & _ & _ & _ & _ & V & _). cbv zeta in V. fold avg in V. fold n in V, NP. rewrite FR.
  set (H := Z.to_nat nh) in *. set (B := harm_basis n (f_frequency fit) H) in *. set (zm := map (fun x => x - lmean avg) avg) in *. set (W := lstsq B (fun i => nth i zm 0)) in *.
  assert (ZM : forall t, (t < n)%nat -> nth t zm 0 = nth t avg 0 - lmean avg) by (intros t T; unfold zm; rewrite (nth_map_in _ _ _ 0) by exact T; reflexivity).
  assert (MIN : minimises B (fun i => nth i zm 0) W) by (intros z; apply L).
  assert (NO : forall t, (t < n)%nat -> nth t (h_noise r) 0 = nth t zm 0 - rsum (m_m B) (fun k => m_at B t k * W k)) by (intros t T; destruct (V t T) as (_ & V2 & _); rewrite V2, ZM by exact T; reflexivity).
  assert (NE : forall j, (j < 2 * H + 1)%nat -> rsum n (fun t => nth t (h_noise r) 0 * m_at B t j) = 0).
  { intros j J. etransitivity; [| apply (normal_equations B _ W j MIN J)]. apply rsum_ext. intros t T. rewrite (NO t T). reflexivity. }
  assert (ORT : forall h ph, (h < H)%nat -> rsum n (fun t => nth t (h_noise r) 0 * cos (INR (S h) * (2 * PI * f_frequency fit * INR t) + ph)) = 0).
  { intros h ph Hh. rewrite (rsum_ext _ _ (fun t => cos ph * (nth t (h_noise r) 0 * m_at B t (2 * h + 1)) + (- sin ph) * (nth t (h_noise r) 0 * m_at B t (2 * h + 2)))).
    2:{ intros t T. destruct (proj2 (basis_at n (f_frequency fit) H t) h) as (C1 & C2). unfold B. rewrite C1, C2, cos_plus. ring. }
    rewrite rsum_plus, !rsum_scale, !NE by lia. ring. }
  split; [| split; [| split; [exact ORT |]]].
  - intros dc A ph. set (x := fun j => if (j =? 0)%nat then dc - lmean avg else if Nat.odd j then A ((j - 1) / 2)%nat * cos (ph ((j - 1) / 2)%nat) else - A ((j - 2) / 2)%nat * sin (ph ((j - 2) / 2)%nat)).
    pose proof (MIN x) as Q. rewrite (rsum_ext n (fun t => nth t (h_noise r) 0 ^ 2) (fun i => (rsum (m_m B) (fun j => m_at B i j * W j) - nth i zm 0) ^ 2)) by (intros t T; rewrite NO by exact T; ring).
    eapply Rle_trans; [exact Q |]. apply Req_le. apply rsum_ext. intros t T. change (rsum (m_m B) (fun j => m_at B t j * x j)) with (mv B x t).
    unfold B, x. rewrite <- distorted_mv. rewrite ZM by exact T. unfold distorted. ring.
  - etransitivity; [| apply (NE 0%nat ltac:(lia))]. apply rsum_ext. intros t T. unfold B. rewrite (proj1 (basis_at n (f_frequency fit) H t)). ring.
  - assert (X : rsum n (fun t => nth t (h_noise r) 0 * mv B W t) = 0).
    { unfold mv. rewrite (rsum_ext _ _ (fun t => rsum (m_m B) (fun j => W j * (nth t (h_noise r) 0 * m_at B t j)))) by (intros t T; rewrite <- rsum_scale; apply rsum_ext; intros; ring).
      rewrite rsum_swap. apply rsum_zero. intros j J. rewrite rsum_scale, (NE j J). ring. }
    rewrite (rsum_ext n (fun t => (nth t avg 0 - lmean avg) ^ 2) (fun t => (nth t (h_reconstructed r) 0 - lmean avg) ^ 2 + (nth t (h_noise r) 0 ^ 2 + 2 * (nth t (h_noise r) 0 * mv B W t)))).
    + rewrite !rsum_plus, rsum_scale, X. ring.
    + intros t T. destruct (V t T) as (V1 & V2 & _). rewrite V1, V2. ring.
Qed.
(** At the frequency used, no combination of offset and harmonics leaves a smaller residual; the
    residual has zero mean, is orthogonal to every harmonic, and therefore the powers add up. *)
Lemma c93_optimal lstsq rows nh f mi tol r : least_squares lstsq -> harm_rows rows <> [] -> decompose_harmonic_error lstsq rows nh f mi tol = Ok r ->
  let n := length (hd [] (harm_rows rows)) in let y := run_mean (harm_rows rows) in let mean := rsum n y / INR n in
  (forall dc A ph, rsum n (fun t => nth t (h_noise r) 0 ^ 2) <= rsum n (fun t => (y t - distorted (Z.to_nat nh) dc A ph (h_freq r) t) ^ 2)) /\
  rsum n (fun t => nth t (h_noise r) 0) = 0 /\
  (forall h ph, (h < Z.to_nat nh)%nat -> rsum n (fun t => nth t (h_noise r) 0 * cos (INR (S h) * (2 * PI * h_freq r * INR t) + ph)) = 0) /\
  rsum n (fun t => (y t - mean) ^ 2) = rsum n (fun t => (nth t (h_reconstructed r) 0 - mean) ^ 2) + rsum n (fun t => nth t (h_noise r) 0 ^ 2).
Proof.
  intros L NE E n y mean. pose proof (opt_core _ _ _ _ _ _ _ L E) as Q. cbv zeta in Q.
  assert (LA : length (dec_avg rows) = n) by (unfold dec_avg, harm_average; rewrite map_length, seq_length; reflexivity). rewrite LA in Q.
  assert (AV : forall t, (t < n)%nat -> nth t (dec_avg rows) 0 = y t) by (intros t T; apply average_nth; assumption).
  assert (MN : lmean (dec_avg rows) = mean) by (rewrite lmean_rsum, LA; unfold mean; f_equal; apply rsum_ext; exact AV). rewrite MN in Q. destruct Q as (Q1 & Q2 & Q3 & Q4).
  split; [| split; [exact Q2 | split; [exact Q3 |]]].
  - intros dc A ph. eapply Rle_trans; [apply (Q1 dc A ph) |]. apply Req_le. apply rsum_ext. intros t T. rewrite AV by exact T. reflexivity.
  - rewrite <- Q4. apply rsum_ext. intros t T. rewrite AV by exact T. reflexivity.
Qed.

(* ---------- C94: exact recovery ---------- *)
Lemma distorted_tones n H k dc A ph t : (0 < n)%nat ->
  distorted H dc A ph (INR k / INR n) t = dc * cos (2 * PI * INR 0 * INR t / INR n + 0) + rsum H (fun h => A h * cos (2 * PI * INR (S h * k) * INR t / INR n + ph h)).
Proof.
  intros N. assert (NP : 0 < INR n) by (apply lt_0_INR; exact N). unfold distorted. f_equal.
  - replace (2 * PI * INR 0 * INR t / INR n + 0) with 0 by (cbn; field; lra). rewrite cos_0. ring.
  - apply rsum_ext. intros h Hh. f_equal. f_equal. f_equal. rewrite mult_INR. field. lra.
Qed.
Lemma distorted_rdft n H k dc A ph j : (0 < k)%nat -> (2 * H * k < n)%nat -> (j <= n / 2)%nat ->
  rdft n (distorted H dc A ph (INR k / INR n)) j = Cplus (if (j =? 0)%nat then RtoC (INR n * dc) else C0) (csum H (fun h => if (j =? S h * k)%nat then Cscale (INR n * A h / 2) (cis (ph h)) else C0)).
Proof.
  intros K N J. rewrite (rdft_ext n _ (fun t => dc * cos (2 * PI * INR 0 * INR t / INR n + 0) + rsum H (fun h => A h * cos (2 * PI * INR (S h * k) * INR t / INR n + ph h)))) by (intros t _; apply distorted_tones; lia).
  rewrite rdft_plus, rdft_rsum. f_equal.
  - rewrite tone_rdft by lia. destruct (Nat.eqb_spec j 0); [| reflexivity]. cbn [Nat.eqb]. rewrite cos_0. f_equal. ring.
  - apply csum_ext. intros h Hh. rewrite tone_rdft by nia. destruct (Nat.eqb_spec j (S h * k)); [| reflexivity]. destruct (Nat.eqb_spec (S h * k) 0); [nia | reflexivity].
Qed.
Lemma distorted_line n H k dc A ph h : (0 < k)%nat -> (2 * H * k < n)%nat -> (h < H)%nat ->
  rdft n (distorted H dc A ph (INR k / INR n)) (S h * k) = Cscale (INR n * A h / 2) (cis (ph h)).
Proof.
  intros K N Hh. rewrite distorted_rdft; [| exact K | exact N | apply Nat.div_le_lower_bound; nia]. destruct (Nat.eqb_spec (S h * k) 0); [nia |].
  rewrite (csum_single H h) by (first [exact Hh | intros i I NI; destruct (Nat.eqb_spec (S h * k) (S i * k)); [nia | reflexivity]]). rewrite Nat.eqb_refl. unfold Cplus, C0, Cscale, cis. cbn [fst snd]. apply f_equal2; ring.
Qed.
(** Whole numbers of periods with every harmonic below the Nyquist frequency: independent columns. *)
Lemma c94_coherent_independent n H k : (0 < k)%nat -> (2 * H * k < n)%nat -> independent (harm_basis n (INR k / INR n) H).
Proof.
  intros K N x Z. change (m_n (harm_basis n (INR k / INR n) H)) with n in Z. change (m_m (harm_basis n (INR k / INR n) H)) with (2 * H + 1)%nat.
  assert (NP : 0 < INR n) by (apply lt_0_INR; lia).
  set (A := fun h => Cmod (x (2 * h + 1)%nat, - x (2 * h + 2)%nat)). set (ph := fun h => Carg (x (2 * h + 1)%nat, - x (2 * h + 2)%nat)).
  assert (P : forall h, Cscale (A h) (cis (ph h)) = (x (2 * h + 1)%nat, - x (2 * h + 2)%nat)) by (intros h; symmetry; apply polar).
  assert (D : forall t, (t < n)%nat -> distorted H (x 0%nat) A ph (INR k / INR n) t = 0).
  { intros t T. rewrite <- (Z t T). change (distorted H (x 0%nat) A ph (INR k / INR n) t = mv (harm_basis n (INR k / INR n) H) x t). rewrite basis_mv. unfold distorted. f_equal. apply rsum_ext. intros h _.
    pose proof (f_equal Re (P h)) as Q1. pose proof (f_equal Im (P h)) as Q2. unfold Cscale, cis, Re, Im in Q1, Q2. cbn [fst snd] in Q1, Q2. rewrite cos_plus, <- Q1. replace (x (2 * h + 2)%nat) with (- (A h * sin (ph h))) by lra. ring. }
  assert (RZ : forall j, rdft n (distorted H (x 0%nat) A ph (INR k / INR n)) j = C0).
  { intros j. rewrite (rdft_ext n _ (fun _ => 0)) by exact D. unfold rdft, dft. apply csum_zero. intros i _. unfold Cmult, RtoC, C0. cbn [fst snd]. f_equal; ring. }
  assert (HZ : forall h, (h < H)%nat -> x (2 * h + 1)%nat = 0 /\ x (2 * h + 2)%nat = 0).
  { intros h Hh. pose proof (distorted_line n H k (x 0%nat) A ph h K N Hh) as Q. rewrite RZ in Q. replace (Cscale (INR n * A h / 2) (cis (ph h))) with (Cscale (INR n / 2) (Cscale (A h) (cis (ph h)))) in Q by (rewrite Cscale_scale; f_equal; field).
    rewrite P in Q. pose proof (f_equal Re Q) as Q1. pose proof (f_equal Im Q) as Q2. unfold C0, Cscale, Re, Im in Q1, Q2. cbn [fst snd] in Q1, Q2. symmetry in Q1, Q2. apply Rmult_integral in Q1, Q2. split; lra. }
  intros j J. destruct (Nat.eq_dec j 0) as [-> | NJ].
  - pose proof (distorted_rdft n H k (x 0%nat) A ph 0 K N ltac:(lia)) as Q. rewrite RZ in Q. change (0 =? 0)%nat with true in Q. cbv iota in Q. rewrite csum_zero in Q by (intros h _; destruct (Nat.eqb_spec 0 (S h * k)); [nia | reflexivity]).
    unfold C0, RtoC, Cplus in Q. cbn [fst snd] in Q. injection Q as Q1. rewrite Rplus_0_r in Q1. symmetry in Q1. apply Rmult_integral in Q1. destruct Q1; [lra | assumption].
  - destruct (Nat.Even_or_Odd (j - 1)) as [(h & Hh) | (h & Hh)]; [replace j with (2 * h + 1)%nat by lia | replace j with (2 * h + 2)%nat by lia]; apply HZ; lia.
Qed.
Lemma Cmod_minus A ph : 0 <= A -> Cmod (A * cos ph, - A * sin ph) = A.
Proof. intros P. replace (A * cos ph, - A * sin ph) with (Cscale A (cis (- ph))) by (unfold Cscale, cis; cbn [fst snd]; rewrite cos_neg, sin_neg; f_equal; ring). rewrite Cmod_scale, Cmod_cis, Rabs_pos_eq by exact P. ring. Qed.
Lemma Carg_minus A ph : 0 < A -> same_angle (Carg (A * cos ph, - A * sin ph)) (- ph).
Proof. intros P. replace (A * cos ph, - A * sin ph) with (Cscale A (cis (- ph))) by (unfold Cscale, cis; cbn [fst snd]; rewrite cos_neg, sin_neg; f_equal; ring). rewrite Carg_scale by exact P. apply Carg_cis. Qed.
Lemma given_frequency lstsq y f tol fit : fit_core lstsq y (Some f) 0 tol = Ok fit -> f_frequency fit = f.
Proof. unfold fit_core. cbn [bind]. intros E. apply Ok_inj in E. subst fit. reflexivity. Qed.
(** Whenever the frequency used is that of the record and the columns are independent: the recovered
    components are the true ones. *)
Lemma exact_core lstsq rows nh f0 mi tol r dc A ph : least_squares lstsq -> harm_rows rows <> [] ->
  decompose_harmonic_error lstsq rows nh f0 mi tol = Ok r ->
  let n := length (hd [] (harm_rows rows)) in let H := Z.to_nat nh in let f := h_freq r in
  independent (harm_basis n f H) -> (forall t, (t < n)%nat -> run_mean (harm_rows rows) t = distorted H dc A ph f t) ->
  (forall t, (t < n)%nat -> nth t (h_noise r) 0 = 0 /\ nth t (h_fundamental r) 0 = dc + A 0%nat * cos (2 * PI * f * INR t + ph 0%nat) /\
     nth t (h_harmonic r) 0 = distorted H dc A ph f t - (dc + A 0%nat * cos (2 * PI * f * INR t + ph 0%nat))) /\
  h_residual_rms r = 0 /\
  (forall h, (h < H)%nat -> 0 <= A h -> nth h (h_magnitudes r) 0 = 2 * A h) /\
  (forall h, (h < H)%nat -> 0 < A h -> 0 < A 0%nat -> same_angle (nth h (h_phases r) 0) (- (ph h - INR (S h) * ph 0%nat))).
Proof.
  intros L NE E n H f IND REC. destruct (harm_inv _ _ _ _ _ _ _ E) as (fit & FC & NH & NP & FR & LN & _ & _ & _ & V & MG & PH & RM & _). cbv zeta in V, MG, PH.
  set (avg := dec_avg rows) in *. assert (LA : length avg = n) by (unfold avg, dec_avg, harm_average; rewrite map_length, seq_length; reflexivity). rewrite LA in *. fold f in FR. rewrite <- FR in *. fold H in V, MG, PH.
  set (zm := map (fun x => x - lmean avg) avg) in *. set (B := harm_basis n f H) in *. set (W := lstsq B (fun i => nth i zm 0)) in *.
  set (x := fun j => if (j =? 0)%nat then dc - lmean avg else if Nat.odd j then A ((j - 1) / 2)%nat * cos (ph ((j - 1) / 2)%nat) else - A ((j - 2) / 2)%nat * sin (ph ((j - 2) / 2)%nat)).
  assert (AV : forall t, (t < n)%nat -> nth t avg 0 = distorted H dc A ph f t) by (intros t T; rewrite <- (REC t T); apply average_nth; assumption).
  assert (ZM : forall t, (t < n)%nat -> mv B x t = nth t zm 0).
  { intros t T. unfold zm. rewrite (nth_map_in _ _ _ 0) by lia. rewrite (AV t T). unfold B, x. rewrite <- distorted_mv. unfold distorted. ring. }
  assert (WX : forall t, (t < n)%nat -> mv B W t = nth t zm 0) by (apply (least_squares_exact lstsq B (fun i => nth i zm 0) x L ZM)).
  assert (EQ : forall j, (j < 2 * H + 1)%nat -> W j = x j).
  { intros j J. cut (W j - x j = 0); [lra |]. apply (IND (fun j => W j - x j)); [| exact J]. intros t T. change (m_n (harm_basis n f H)) with n in T. fold B. rewrite (rsum_ext _ _ (fun j => m_at B t j * W j - m_at B t j * x j)) by (intros; ring). rewrite rsum_minus.
    change (mv B W t - mv B x t = 0). rewrite WX, ZM by exact T. ring. }
  assert (ODD : forall h, (h < H)%nat -> W (2 * h + 1)%nat = A h * cos (ph h) /\ W (2 * h + 2)%nat = - A h * sin (ph h)).
  { intros h Hh. rewrite !EQ by lia. unfold x. destruct (Nat.eqb_spec (2 * h + 1) 0); [lia |]. destruct (Nat.eqb_spec (2 * h + 2) 0); [lia |].
    replace (Nat.odd (2 * h + 1)) with true by (symmetry; apply Nat.odd_spec; exists h; lia).
    replace (Nat.odd (2 * h + 2)) with false by (symmetry; rewrite <- Nat.negb_even; apply Bool.negb_false_iff; apply Nat.even_spec; exists (S h); lia).
    replace ((2 * h + 1 - 1) / 2)%nat with h by (replace (2 * h + 1 - 1)%nat with (h * 2)%nat by lia; symmetry; apply Nat.div_mul; lia).
    replace ((2 * h + 2 - 2) / 2)%nat with h by (replace (2 * h + 2 - 2)%nat with (h * 2)%nat by lia; symmetry; apply Nat.div_mul; lia). split; reflexivity. }
  assert (HP : (0 < H)%nat) by (unfold H; lia). pose proof (ODD 0%nat HP) as (O1 & O2). cbn [Nat.mul Nat.add] in O1, O2.
  assert (O0 : W 0%nat = dc - lmean avg) by (rewrite EQ by lia; reflexivity).
  assert (NZ : forall t, (t < n)%nat -> nth t (h_noise r) 0 = 0).
  { intros t T. destruct (V t T) as (_ & V2 & _). rewrite V2, WX by exact T. unfold zm. rewrite (nth_map_in _ _ _ 0) by lia. ring. }
  split; [| split; [| split]].
  - intros t T. split; [apply NZ; exact T |]. destruct (V t T) as (_ & _ & V3 & V4). rewrite V4, V3, WX, O0, O1, O2 by exact T. rewrite cos_plus. split; [ring |].
    unfold zm. rewrite (nth_map_in _ _ _ 0) by lia. rewrite (AV t T). ring.
  - rewrite RM. unfold rms_of. rewrite LN. rewrite rsum_zero by (intros t T; rewrite NZ by exact T; ring). replace (0 / INR n) with 0 by (unfold Rdiv; ring). rewrite sqrt_0. ring.
  - intros h Hh P. rewrite MG, (nth_map_in _ _ _ 0%nat) by (rewrite seq_length; exact Hh). rewrite seq_nth by exact Hh. cbn [Nat.add]. destruct (ODD h Hh) as (-> & ->). rewrite Cmod_minus by exact P. ring.
  - intros h Hh P P0. rewrite PH, (nth_map_in _ _ _ 0%nat) by (rewrite seq_length; exact Hh). rewrite seq_nth by exact Hh. cbn [Nat.add]. destruct (ODD h Hh) as (-> & ->). rewrite O1, O2.
    destruct (Carg_minus (A h) (ph h) P) as (k1 & ->). destruct (Carg_minus (A 0%nat) (ph 0%nat) P0) as (k0 & ->).
    destruct (wrap_phase_turns (- ph h + 2 * PI * IZR k1 - (- ph 0%nat + 2 * PI * IZR k0) * INR (h + 1))) as (k2 & ->). exists (k1 - k0 * Z.of_nat (h + 1) + k2)%Z.
    rewrite plus_IZR, minus_IZR, mult_IZR, <- INR_IZR_INZ. replace (S h) with (h + 1)%nat by lia. ring.
Qed.
(** With the frequency given and no refinement, a record that is an offset plus harmonics 1..H is taken
    apart exactly whenever the columns are independent, as they are for a whole number of periods. *)
Lemma c94_exact lstsq rows nh f tol dc A ph : least_squares lstsq -> harm_rows rows <> [] -> (0 < nh)%Z ->
  let n := length (hd [] (harm_rows rows)) in let H := Z.to_nat nh in (0 < n)%nat ->
  independent (harm_basis n f H) -> (forall t, (t < n)%nat -> run_mean (harm_rows rows) t = distorted H dc A ph f t) ->
  exists r, decompose_harmonic_error lstsq rows nh (Some f) 0 tol = Ok r /\ h_freq r = f /\
  (forall t, (t < n)%nat -> nth t (h_noise r) 0 = 0 /\ nth t (h_fundamental r) 0 = dc + A 0%nat * cos (2 * PI * f * INR t + ph 0%nat) /\
     nth t (h_harmonic r) 0 = distorted H dc A ph f t - (dc + A 0%nat * cos (2 * PI * f * INR t + ph 0%nat))) /\
  h_residual_rms r = 0 /\
  (forall h, (h < H)%nat -> 0 <= A h -> nth h (h_magnitudes r) 0 = 2 * A h) /\
  (forall h, (h < H)%nat -> 0 < A h -> 0 < A 0%nat -> same_angle (nth h (h_phases r) 0) (- (ph h - INR (S h) * ph 0%nat))).
Proof.
  intros L NE NH n H NP IND REC. destruct (proj1 (c36_accepts lstsq rows nh (Some f) 0 tol)) as (r & E); [repeat split; [exact NH | exact NP | discriminate] |].
  assert (FR : h_freq r = f) by (destruct (harm_inv _ _ _ _ _ _ _ E) as (fit & FC & _ & _ & FR & _); rewrite FR; exact (given_frequency _ _ _ _ _ FC)).
  exists r. split; [exact E |]. split; [exact FR |]. pose proof (exact_core lstsq rows nh (Some f) 0 tol r dc A ph L NE E) as Q. cbv zeta in Q. rewrite FR in Q. apply Q; assumption.
Qed.
Lemma harm_estimate y H k dc A ph : (2 <= k)%nat -> (k < length y / 2)%nat -> (0 < H)%nat -> (2 * H * k < length y)%nat -> A 0%nat <> 0 -> (forall h, (h < H)%nat -> Rabs (A h) <= Rabs (A 0%nat)) ->
  is_record y (distorted H dc A ph (INR k / INR (length y))) -> estimate_frequency_fft y = Ok (INR k / INR (length y)).
Proof.
  intros K KN HP N NA DOM R. assert (NP : 0 < INR (length y)) by (apply lt_0_INR; lia).
  unfold estimate_frequency_fft, raise_if. destruct (Nat.eqb_spec (length y / 2) 0) as [Z | _]; [lia |]. cbv zeta. set (spec := map _ _).
  assert (LS : length spec = (length y / 2)%nat) by (unfold spec; rewrite map_length, seq_length; reflexivity). rewrite LS.
  set (pk := INR (length y) * Rabs (A 0%nat) / 2).
  assert (RD : forall i, rdft (length y) (fun i => nth i y 0) i = rdft (length y) (distorted H dc A ph (INR k / INR (length y))) i) by (intros i; apply rdft_ext; exact R).
  assert (MS : forall h, Cmod (Cscale (INR (length y) * A h / 2) (cis (ph h))) = INR (length y) * Rabs (A h) / 2).
  { intros h. rewrite Cmod_scale, Cmod_cis. unfold Rdiv. rewrite !Rabs_mult. rewrite (Rabs_pos_eq (INR _)), (Rabs_pos_eq (/ 2)) by lra. ring. }
  assert (PK : 0 < pk) by (pose proof (Rabs_pos_lt _ NA); unfold pk; apply Rdiv_lt_0_compat; [apply Rmult_lt_0_compat; lra | lra]).
  assert (V : forall i, (i < length y / 2)%nat -> (exists h, (h < H)%nat /\ i = (S h * k)%nat /\ nth i spec 0 = INR (length y) * Rabs (A h) / 2) \/ ((forall h, (h < H)%nat -> i <> (S h * k)%nat) /\ nth i spec 0 = 0)).
  { intros i I. unfold spec. rewrite (nth_map_in _ _ _ 0%nat) by (rewrite seq_length; exact I). rewrite seq_nth by exact I. cbn [Nat.add]. destruct (Nat.eqb_spec i 0) as [-> | I0]; [right; split; [intros; nia | reflexivity] |].
    assert (DEC : (exists h, (h < H)%nat /\ i = (S h * k)%nat) \/ (forall h, (h < H)%nat -> i <> (S h * k)%nat)).
    { clear - H. induction H as [| m IH]; [right; lia |]. destruct IH as [(h & P1 & P2) | P]; [left; exists h; split; [lia | exact P2] |]. destruct (Nat.eq_dec i (S m * k)) as [Q | Q]; [left; exists m; split; [lia | exact Q] |].
      right. intros h Hh. destruct (Nat.eq_dec h m) as [-> |]; [exact Q | apply P; lia]. }
    rewrite RD. destruct DEC as [(h & Hh & ->) | NO].
    - left. exists h. split; [exact Hh |]. split; [reflexivity |]. rewrite distorted_line by (first [exact Hh | exact N | lia]). apply MS.
    - right. split; [exact NO |]. rewrite distorted_rdft by lia. destruct (Nat.eqb_spec i 0); [contradiction |]. rewrite csum_zero by (intros h Hh; destruct (Nat.eqb_spec i (S h * k)) as [Q |]; [destruct (NO h Hh Q) | reflexivity]).
      replace (Cplus C0 C0) with C0 by (unfold Cplus, C0; cbn [fst snd]; f_equal; ring). apply Cmod_0. }
  assert (VK : nth k spec 0 = pk). { destruct (V k KN) as [(h & _ & Q & E) | (NO & _)]; [assert (h = 0%nat) by nia; subst h; exact E | exfalso; apply (NO 0%nat HP); lia]. }
  assert (VN : forall i, (i < length y / 2)%nat -> (0 < i < 2 * k)%nat -> i <> k -> nth i spec 0 = 0).
  { intros i I B NI. destruct (V i I) as [(h & _ & Q & _) | (_ & E)]; [exfalso; destruct h; nia | exact E]. }
  assert (V0 : nth 0 spec 0 = 0). { destruct (V 0%nat ltac:(lia)) as [(h & _ & Q & _) | (_ & E)]; [nia | exact E]. }
  assert (AM : argmax spec = k).
  { apply argmax_unique; [lia | |].
    - intros j J. rewrite VK. destruct (V j ltac:(lia)) as [(h & Hh & _ & ->) | (_ & ->)]; [| lra]. unfold pk. pose proof (DOM h Hh). assert (INR (length y) * Rabs (A h) <= INR (length y) * Rabs (A 0%nat)) by (apply Rmult_le_compat_l; lra). lra.
    - intros j J. rewrite VK. destruct (Nat.eq_dec j 0) as [-> |]; [rewrite V0; exact PK |]. rewrite VN by lia. exact PK. }
  rewrite AM. destruct (Nat.ltb_spec 0 k) as [_ |]; [| lia]. destruct (Nat.ltb_spec k (length y / 2 - 1)) as [I2 |]; [| reflexivity]. cbn [andb]. rewrite (VN (k - 1)%nat), (VN (k + 1)%nat) by lia.
  destruct (Rltb_spec 0 0); [lra |]. f_equal. replace (- 0 / (nth k spec 0 + 0)) with 0 by (unfold Rdiv; ring). rewrite Rplus_0_r. reflexivity.
Qed.
(** Without a frequency hint and without refinement: a coherent record with at least two periods, all
    harmonics below Nyquist and none larger than the fundamental is taken apart exactly. *)
Lemma c94_auto lstsq rows nh tol k dc A ph : least_squares lstsq -> harm_rows rows <> [] -> (0 < nh)%Z ->
  let n := length (hd [] (harm_rows rows)) in let H := Z.to_nat nh in
  (2 <= k)%nat -> (k < n / 2)%nat -> (2 * H * k < n)%nat -> 0 < A 0%nat -> (forall h, (h < H)%nat -> 0 <= A h <= A 0%nat) ->
  (forall t, (t < n)%nat -> run_mean (harm_rows rows) t = distorted H dc A ph (INR k / INR n) t) ->
  exists r, decompose_harmonic_error lstsq rows nh None 0 tol = Ok r /\ h_freq r = INR k / INR n /\
  (forall t, (t < n)%nat -> nth t (h_noise r) 0 = 0 /\ nth t (h_fundamental r) 0 = dc + A 0%nat * cos (2 * PI * (INR k / INR n) * INR t + ph 0%nat)) /\
  (forall h, (h < H)%nat -> nth h (h_magnitudes r) 0 = 2 * A h /\ (0 < A h -> same_angle (nth h (h_phases r) 0) (- (ph h - INR (S h) * ph 0%nat)))).
Proof.
  intros L NE NH n H K KN N PA DOM REC. assert (N2 : (2 * (n / 2) <= n)%nat) by (apply Nat.mul_div_le; lia).
  destruct (proj1 (c36_accepts lstsq rows nh None 0 tol)) as (r & E); [repeat split; [exact NH | fold n; lia | fold n; lia] |].
  assert (FR : h_freq r = INR k / INR n).
  { destruct (harm_inv _ _ _ _ _ _ _ E) as (fit & FC & _ & _ & FR & _). rewrite FR. set (avg := dec_avg rows) in *. set (zm := map (fun x => x - lmean avg) avg) in *.
    assert (LA : length avg = n) by (unfold avg, dec_avg, harm_average; rewrite map_length, seq_length; reflexivity). assert (LZ : length zm = n) by (unfold zm; rewrite map_length; exact LA).
    assert (RZ : is_record zm (distorted H (dc - lmean avg) A ph (INR k / INR (length zm)))).
    { intros t T. rewrite LZ in *. unfold zm. rewrite (nth_map_in _ _ _ 0) by lia. replace (nth t avg 0) with (distorted H dc A ph (INR k / INR n) t) by (rewrite <- (REC t T); symmetry; apply average_nth; assumption). unfold distorted. ring. }
    unfold fit_core in FC. rewrite (harm_estimate zm H k (dc - lmean avg) A ph K) in FC; [| rewrite LZ; exact KN | unfold H; lia | rewrite LZ; exact N | lra | intros h Hh; rewrite !Rabs_pos_eq by (destruct (DOM h Hh); lra); apply DOM; exact Hh | exact RZ].
    cbn [bind] in FC. apply Ok_inj in FC. subst fit. rewrite LZ. reflexivity. }
  exists r. split; [exact E |]. split; [exact FR |]. pose proof (exact_core lstsq rows nh None 0 tol r dc A ph L NE E) as Q. cbv zeta in Q. rewrite FR in Q. fold n H in Q.
  destruct (Q (c94_coherent_independent n H k ltac:(lia) N) REC) as (Q1 & _ & Q3 & Q4). split; [intros t T; destruct (Q1 t T) as (X & Y & _); split; assumption |].
  intros h Hh. split; [apply Q3; [exact Hh | apply DOM; exact Hh] |]. intros P. apply Q4; [exact Hh | exact P | exact PA].
Qed.
(** Magnitudes are twice the amplitudes: "magnitude of each harmonic" does not hold in the sense of
    amplitude; and the phases have the opposite sign of the package's cos(wt + phi) convention.  Both on
    cos(wt) + (1/2) cos(2wt + pi/2), two periods in 16 samples. *)
Definition quad_record : list R := map (fun t => distorted 2 0 (fun h => if (h =? 0)%nat then 1 else 1 / 2) (fun h => if (h =? 0)%nat then 0 else PI / 2) (INR 2 / INR 16) t) (seq 0 16).
Lemma quad_rows : harm_rows [quad_record] = [quad_record] /\ forall t, (t < 16)%nat -> run_mean [quad_record] t = distorted 2 0 (fun h => if (h =? 0)%nat then 1 else 1 / 2) (fun h => if (h =? 0)%nat then 0 else PI / 2) (INR 2 / INR 16) t.
Proof.
  split; [apply (proj1 c36_runs); unfold quad_record; rewrite map_length, seq_length; lia |]. intros t T. unfold run_mean. cbn [length rsum nth]. change (INR 1) with 1. unfold Rdiv at 1. rewrite Rinv_1, Rmult_1_r, Rplus_0_l.
  unfold quad_record. rewrite (nth_map_in _ _ _ 0%nat) by (rewrite seq_length; exact T). rewrite seq_nth by exact T. reflexivity.
Qed.
Lemma quad_result : exists r, decompose_harmonic_error gs_lstsq [quad_record] 2 None 0 (1 / 10 ^ 9) = Ok r /\ h_freq r = 1 / 8 /\ h_magnitudes r = [2; 1] /\ h_phases r = [0; - (PI / 2)] /\ (forall t, (t < 16)%nat -> nth t (h_noise r) 0 = 0).
Proof.
  destruct quad_rows as (QR & QM). pose proof PI_RGT_0 as PI0.
  destruct (c94_auto gs_lstsq [quad_record] 2 (1 / 10 ^ 9) 2 0 (fun h => if (h =? 0)%nat then 1 else 1 / 2) (fun h => if (h =? 0)%nat then 0 else PI / 2) gs_least_squares) as (r & E & F & S & M).
  - rewrite QR. discriminate. - lia. - lia. - rewrite QR. change (length (hd [] [quad_record])) with (length quad_record). unfold quad_record. rewrite map_length, seq_length. cbn. lia.
  - rewrite QR. change (length (hd [] [quad_record])) with (length quad_record). unfold quad_record. rewrite map_length, seq_length. cbn. lia.
  - cbn. lra. - intros h Hh. destruct (h =? 0)%nat; cbn; lra.
  - rewrite QR. change (length (hd [] [quad_record])) with (length quad_record). replace (length quad_record) with 16%nat by (unfold quad_record; rewrite map_length, seq_length; reflexivity). exact QM.
  - rewrite QR in F, S. change (length (hd [] [quad_record])) with (length quad_record) in F, S. assert (L16 : length quad_record = 16%nat) by (unfold quad_record; rewrite map_length, seq_length; reflexivity). rewrite L16 in F, S.
    exists r. split; [exact E |]. split; [rewrite F; cbn; field |].
    destruct (c36_adds_up _ _ _ _ _ _ _ E ltac:(rewrite QR; discriminate)) as (_ & _ & _ & _ & _ & LP & LM & RG & P0). change (Z.to_nat 2) with 2%nat in *.
    destruct (M 0%nat ltac:(lia)) as (M0 & _). destruct (M 1%nat ltac:(lia)) as (M1 & A1). cbn [Nat.eqb] in M0, M1, A1. destruct (A1 ltac:(lra)) as (k & A2). pose proof (proj1 (RG 1%nat ltac:(lia))) as RG1.
    assert (K0 : k = 0%Z). { cbn [INR] in A2. rewrite A2 in RG1. assert (IZR k < 1) by nra. assert (-1 < IZR k) by nra. apply lt_IZR in H. apply (lt_IZR (-1)) in H0. lia. }
    subst k. split; [| split].
    + apply (nth_ext_eq 0); [rewrite LM; reflexivity |]. intros i I. rewrite LM in I. destruct i as [| [| i]]; [rewrite M0; cbn; lra | rewrite M1; cbn; lra | lia].
    + apply (nth_ext_eq 0); [rewrite LP; reflexivity |]. intros i I. rewrite LP in I. destruct i as [| [| i]]; [rewrite P0; reflexivity | rewrite A2; cbn; ring | lia].
    + intros t T. apply (S t T).
Qed.
Lemma c94_auto_ex : exists r, decompose_harmonic_error gs_lstsq [quad_record] 2 None 0 (1 / 10 ^ 9) = Ok r /\ h_freq r = 1 / 8 /\ h_magnitudes r = [2; 1] /\ h_phases r = [0; - (PI / 2)] /\ (forall t, (t < 16)%nat -> nth t (h_noise r) 0 = 0).
Proof. exact quad_result. Qed.
Lemma c94_phase_sign_refuted : exists signal A ph f r, (forall t, (t < length signal)%nat -> nth t signal 0 = distorted 2 0 A ph f t) /\ 0 < A 0%nat /\ 0 < A 1%nat /\
  decompose_harmonic_error gs_lstsq [signal] 2 None 0 (1 / 10 ^ 9) = Ok r /\ (forall t, (t < length signal)%nat -> nth t (h_noise r) 0 = 0) /\
  ~ same_angle (nth 1 (h_phases r) 0) (ph 1%nat - 2 * ph 0%nat) /\ nth 1 (h_magnitudes r) 0 <> A 1%nat.
Proof.
  destruct quad_result as (r & E & _ & M & P & Z). assert (L16 : length quad_record = 16%nat) by (unfold quad_record; rewrite map_length, seq_length; reflexivity).
  exists quad_record, (fun h => if (h =? 0)%nat then 1 else 1 / 2), (fun h => if (h =? 0)%nat then 0 else PI / 2), (INR 2 / INR 16), r. rewrite L16.
  split. { intros t T. unfold quad_record. rewrite (nth_map_in _ _ _ 0%nat) by (rewrite seq_length; exact T). rewrite seq_nth by exact T. reflexivity. }
  cbn [Nat.eqb]. split; [lra |]. split; [lra |]. split; [exact E |]. split; [exact Z |]. rewrite P, M. cbn [nth]. split; [| lra].
  intros (k & Q). pose proof PI_RGT_0. assert (X : PI * (1 + 2 * IZR k) = 0) by nra. apply Rmult_integral in X. destruct X as [X | X]; [lra |]. assert (Y : IZR (1 + 2 * k) = 0) by (rewrite plus_IZR, mult_IZR; exact X). apply eq_IZR in Y. lia.
Qed.

(* ---------- C95: the refined frequency ---------- *)
(** Adding to a sinusoid something uncorrelated with sinusoid, quadrature and constant does not change
    the three-parameter solution. *)
Lemma unique3 n f y p q r : 0 < f < 1 / 2 -> (3 <= n)%nat ->
  (forall c s, rsum n (fun t => y t * (c * cos (2 * PI * f * INR t) + s * sin (2 * PI * f * INR t))) = 0) -> rsum n y = 0 ->
  rsum n (fun t => (y t - (p * cos (2 * PI * f * INR t) + q * sin (2 * PI * f * INR t) + r)) * cos (2 * PI * f * INR t)) = 0 ->
  rsum n (fun t => (y t - (p * cos (2 * PI * f * INR t) + q * sin (2 * PI * f * INR t) + r)) * sin (2 * PI * f * INR t)) = 0 ->
  rsum n (fun t => (y t - (p * cos (2 * PI * f * INR t) + q * sin (2 * PI * f * INR t) + r)) * 1) = 0 -> p = 0 /\ q = 0 /\ r = 0.
Proof.
  intros F N CS D X0 X1 X2. set (g := fun t => p * cos (2 * PI * f * INR t) + q * sin (2 * PI * f * INR t) + r) in *.
  assert (SQ : rsum n (fun t => g t * g t) = 0).
  { rewrite (rsum_ext _ _ (fun t => y t * (p * cos (2 * PI * f * INR t) + q * sin (2 * PI * f * INR t)) + (r * y t + (- p * ((y t - g t) * cos (2 * PI * f * INR t)) + (- q * ((y t - g t) * sin (2 * PI * f * INR t)) + - r * ((y t - g t) * 1)))))) by (intros t T; unfold g; ring).
    rewrite !rsum_plus, !rsum_scale. cbv beta in X0, X1, X2. unfold g in *. cbv beta. rewrite CS, D, X0, X1, X2. ring. }
  apply (independent3 n f p q r F N). intros t T. assert (P : g t * g t = 0) by (apply (rsum_nonneg_zero n (fun t => g t * g t)); [intros; apply Rle_0_sqr | lra | exact T]). apply Rmult_integral in P. destruct P; assumption.
Qed.
Definition second_record : list R := map (fun t => distorted 2 0 (fun _ => 1) (fun _ => 0) (1 / 8) t) (seq 0 8).
Lemma second_nth t : (t < 8)%nat -> nth t second_record 0 = cos (2 * PI * (1 / 8) * INR t) + cos (INR t * (PI / 2)).
Proof.
  intros T. unfold second_record. rewrite (nth_map_in _ _ _ 0%nat) by (rewrite seq_length; exact T). rewrite seq_nth by exact T. unfold distorted. cbn [rsum Nat.add INR]. rewrite !Rplus_0_r, !Rplus_0_l, !Rmult_1_l. f_equal. f_equal. field.
Qed.
Lemma second_orth : (forall c s, rsum 8 (fun t => cos (INR t * (PI / 2)) * (c * cos (2 * PI * (1 / 8) * INR t) + s * sin (2 * PI * (1 / 8) * INR t))) = 0) /\ rsum 8 (fun t => cos (INR t * (PI / 2))) = 0.
Proof.
  split.
  - intros c s. pose proof (tone_rdft 8 2 1 0 1 ltac:(lia) ltac:(cbn; lia)) as Q. cbn [Nat.eqb] in Q. pose proof (f_equal Re Q) as Q1. pose proof (f_equal Im Q) as Q2. rewrite csum_RtoC_Re in Q1. rewrite csum_RtoC_Im in Q2. unfold C0, Re, Im in Q1, Q2. cbn [fst snd] in Q1, Q2.
    transitivity (c * rsum 8 (fun n => 1 * cos (2 * PI * INR 2 * INR n / INR 8 + 0) * cos (2 * PI * INR 1 * INR n / INR 8)) + s * rsum 8 (fun n => 1 * cos (2 * PI * INR 2 * INR n / INR 8 + 0) * sin (2 * PI * INR 1 * INR n / INR 8))); [| rewrite Q1; replace (rsum 8 (fun n => 1 * cos (2 * PI * INR 2 * INR n / INR 8 + 0) * sin (2 * PI * INR 1 * INR n / INR 8))) with 0 by lra; ring].
    rewrite <- !rsum_scale, <- rsum_plus. apply rsum_ext. intros t T. rewrite Rplus_0_r. replace (2 * PI * INR 2 * INR t / INR 8) with (INR t * (PI / 2)) by (cbn [INR]; field). replace (2 * PI * INR 1 * INR t / INR 8) with (2 * PI * (1 / 8) * INR t) by (cbn [INR]; field). ring.
  - pose proof (tone_sum 8 2 1 0 ltac:(lia) ltac:(lia)) as Q. rewrite <- Q. apply rsum_ext. intros t T. rewrite Rplus_0_r. replace (2 * PI * INR 2 * INR t / INR 8) with (INR t * (PI / 2)) by (cbn [INR]; field). ring.
Qed.
Lemma second_bias : rsum 8 (fun t => cos (INR t * (PI / 2)) * (INR t * (- 1 * sin (2 * PI * (1 / 8) * INR t) + 0 * cos (2 * PI * (1 / 8) * INR t)))) = -4.
Proof.
  cbn [rsum]. rewrite !(fun t => proj1 (quarter_trig t)). unfold qcos. replace (sin (2 * PI * (1 / 8) * INR 2)) with 1. replace (sin (2 * PI * (1 / 8) * INR 6)) with (-1).
  replace (sin (2 * PI * (1 / 8) * INR 4)) with 0. cbn. ring.
  - replace (2 * PI * (1 / 8) * INR 4) with PI by (cbn; field). rewrite sin_PI. reflexivity.
  - replace (2 * PI * (1 / 8) * INR 6) with (INR 3 * (PI / 2)) by (cbn; field). rewrite (proj2 (quarter_trig 3)). reflexivity.
  - replace (2 * PI * (1 / 8) * INR 2) with (INR 1 * (PI / 2)) by (cbn; field). rewrite (proj2 (quarter_trig 1)). reflexivity.
Qed.
(** The default single refinement: a coherent two-harmonic record with its exact frequency supplied is
    analysed at another frequency, and is then not reproduced with the true components. *)
Lemma c95_frequency_moves_refuted : exists signal A ph f, is_record signal (distorted 2 0 A ph f) /\ usable f /\ independent (harm_basis (length signal) f 2) /\
  forall lstsq tol r, least_squares lstsq -> decompose_harmonic_error lstsq [signal] 2 (Some f) 1 tol = Ok r -> h_freq r <> f.
Proof.
  exists second_record, (fun _ => 1), (fun _ => 0), (1 / 8). assert (L8 : length second_record = 8%nat) by (unfold second_record; rewrite map_length, seq_length; reflexivity).
  assert (EPS : 0 < 1 / 10 ^ 10 < 1 / 8). { assert (8 < 10 ^ 10) by (apply (Rlt_le_trans _ (10 ^ 1)); [lra | apply Rle_pow; [lra | lia]]). split; [apply Rdiv_lt_0_compat; lra |]. unfold Rdiv. rewrite !Rmult_1_l. apply Rinv_lt_contravar; lra. }
  split. { intros t T. rewrite L8 in T. unfold second_record. rewrite (nth_map_in _ _ _ 0%nat) by (rewrite seq_length; exact T). rewrite seq_nth by exact T. reflexivity. }
  split; [unfold usable; lra |]. split. { rewrite L8. replace (1 / 8) with (INR 1 / INR 8) by (cbn; field). apply c94_coherent_independent; lia. }
  intros lstsq tol r L E FQ. destruct (harm_inv _ _ _ _ _ _ _ E) as (fit & FC & _ & _ & FR & _). rewrite FQ in FR. cbv zeta in FC.
  assert (AV : dec_avg [second_record] = second_record).
  { unfold dec_avg. rewrite (proj1 c36_runs) by lia. unfold harm_average. cbn [hd]. rewrite L8. apply (nth_ext_eq 0); [rewrite map_length, seq_length; lia |]. intros t T. rewrite map_length, seq_length in T. rewrite (nth_map_in _ _ _ 0%nat) by (rewrite seq_length; exact T). rewrite seq_nth by exact T.
    unfold lmean. cbn [map lsum length INR Nat.add]. cbn. field. }
  rewrite AV in FC. destruct second_orth as (OR & SM).
  assert (MZ : lmean second_record = 0).
  { rewrite lmean_rsum, L8. rewrite (rsum_ext _ _ (fun t => 1 * cos (2 * PI * INR 1 * INR t / INR 8 + 0) + cos (INR t * (PI / 2)))). 2:{ intros t T. rewrite second_nth by exact T. rewrite Rplus_0_r. replace (2 * PI * INR 1 * INR t / INR 8) with (2 * PI * (1 / 8) * INR t) by (cbn [INR]; field). ring. }
    rewrite rsum_plus, (tone_sum 8 1 1 0), SM by lia. unfold Rdiv. ring. }
  assert (ZM : map (fun x => x - lmean second_record) second_record = second_record) by (rewrite MZ; rewrite <- (map_id second_record) at 2; apply map_ext; intros; ring). rewrite ZM in FC.
  unfold fit_core in FC. cbn [bind] in FC. change (1 <? 0)%Z with false in FC. cbv iota zeta in FC. change (Z.to_nat 1) with 1%nat in FC. cbn [refine] in FC.
  set (co := lstsq (design3 (length second_record) (1 / 8)) (fun i => nth i second_record 0)) in FC. set (s0 := mkFs (1 / 8) (co 0%nat) (co 1%nat) (co 2%nat) (1 =? 0)%Z 0 0) in FC.
  assert (F1 : s_freq (refine_once lstsq second_record tol s0) = 1 / 8). { apply Ok_inj in FC. rewrite FR. rewrite <- FC. cbn [f_frequency]. destruct (Rltb _ _); reflexivity. }
  assert (M3 : minimises (design3 (length second_record) (1 / 8)) (fun i => nth i second_record 0) co) by (intros z; apply L). rewrite L8 in M3.
  assert (C3 : co 0%nat - 1 = 0 /\ co 1%nat = 0 /\ co 2%nat = 0).
  { clearbody co. pose proof (normal_equations _ _ _ 0%nat M3 ltac:(cbn; lia)) as N0. pose proof (normal_equations _ _ _ 1%nat M3 ltac:(cbn; lia)) as N1. pose proof (normal_equations _ _ _ 2%nat M3 ltac:(cbn; lia)) as N2.
    unfold design3, of_cols in N0, N1, N2. cbn [m_n m_m m_at length nth] in N0, N1, N2.
    apply (unique3 8 (1 / 8) (fun t => cos (INR t * (PI / 2)))); [lra | lia | exact OR | exact SM | | |].
    - etransitivity; [| exact N0]. apply rsum_ext. intros t T. rewrite rsum3. cbn [nth]. rewrite second_nth by exact T. ring.
    - etransitivity; [| exact N1]. apply rsum_ext. intros t T. rewrite rsum3. cbn [nth]. rewrite second_nth by exact T. ring.
    - etransitivity; [| exact N2]. apply rsum_ext. intros t T. rewrite rsum3. cbn [nth]. rewrite second_nth by exact T. ring. }
  destruct C3 as (A0 & A1 & _). unfold s0 in F1. unfold refine_once in F1. cbn [s_freq s_a s_b] in F1. replace (co 0%nat) with 1 in F1 by lra. rewrite A1, L8 in F1.
  set (w := lstsq (design4 8 (1 / 8) 1 0) (fun i => nth i second_record 0)) in F1. assert (M4 : minimises (design4 8 (1 / 8) 1 0) (fun i => nth i second_record 0) w) by (intros z; apply L). clearbody w. pose proof PI_RGT_0 as PI0.
  assert (W3 : w 3%nat = 0).
  { assert (DZ : w 3%nat / (2 * PI) = 0). { revert F1. unfold rclip, Rmin, Rmax. set (d := w 3%nat / (2 * PI)). repeat destruct (Rle_dec _ _); lra. } apply (Rmult_eq_reg_r (/ (2 * PI))); [unfold Rdiv in DZ; rewrite DZ; ring |]. apply Rinv_neq_0_compat. lra. }
  pose proof (normal_equations _ _ _ 0%nat M4 ltac:(cbn; lia)) as N0. pose proof (normal_equations _ _ _ 1%nat M4 ltac:(cbn; lia)) as N1. pose proof (normal_equations _ _ _ 2%nat M4 ltac:(cbn; lia)) as N2. pose proof (normal_equations _ _ _ 3%nat M4 ltac:(cbn; lia)) as N3.
  unfold design4, of_cols in N0, N1, N2, N3. cbn [m_n m_m m_at length nth] in N0, N1, N2, N3.
  assert (C4 : w 0%nat - 1 = 0 /\ w 1%nat = 0 /\ w 2%nat = 0).
  { apply (unique3 8 (1 / 8) (fun t => cos (INR t * (PI / 2)))); [lra | lia | exact OR | exact SM | | |].
    - etransitivity; [| exact N0]. apply rsum_ext. intros t T. rewrite rsum4. cbn [nth]. rewrite second_nth, W3 by exact T. ring.
    - etransitivity; [| exact N1]. apply rsum_ext. intros t T. rewrite rsum4. cbn [nth]. rewrite second_nth, W3 by exact T. ring.
    - etransitivity; [| exact N2]. apply rsum_ext. intros t T. rewrite rsum4. cbn [nth]. rewrite second_nth, W3 by exact T. ring. }
  destruct C4 as (B0 & B1 & B2). pose proof second_bias as SB. rewrite (rsum_ext 8 _ (fun t => cos (INR t * (PI / 2)) * (INR t * (- 1 * sin (2 * PI * (1 / 8) * INR t) + 0 * cos (2 * PI * (1 / 8) * INR t))))) in N3; [lra |].
  intros t T. rewrite rsum4. cbn [nth]. rewrite second_nth, W3, B1, B2 by exact T. replace (w 0%nat) with 1 by lra. ring.
Qed.

(* ---------- C96: residual_rms and the decibel figures ---------- *)
Lemma span_avg rows lo hi : harm_rows rows <> [] -> spans (length (hd [] (harm_rows rows))) (run_mean (harm_rows rows)) lo hi ->
  lmax1 (hd 0 (dec_avg rows)) (dec_avg rows) = hi /\ lmin1 (hd 0 (dec_avg rows)) (dec_avg rows) = lo.
Proof.
  intros NE ((i & I & LO) & (j & J & HI) & B). set (n := length (hd [] (harm_rows rows))) in *. set (avg := dec_avg rows).
  assert (LA : length avg = n) by (unfold avg, dec_avg, harm_average; rewrite map_length, seq_length; reflexivity).
  assert (AV : forall t, (t < n)%nat -> nth t avg 0 = run_mean (harm_rows rows) t) by (intros t T; apply average_nth; assumption).
  assert (IN : forall x, In x avg -> lo <= x <= hi) by (intros x X; destruct (In_nth _ _ 0 X) as (t & T & <-); rewrite LA in T; rewrite AV by exact T; apply B; exact T).
  assert (HD : In (hd 0 avg) avg) by (destruct avg; [cbn in LA; lia | left; reflexivity]).
  assert (I1 : In lo avg) by (rewrite <- LO, <- AV by exact I; apply nth_In; lia). assert (J1 : In hi avg) by (rewrite <- HI, <- AV by exact J; apply nth_In; lia).
  split; apply Rle_antisym.
  - destruct (lmax1_in (hd 0 avg) avg) as [<- | X]; [apply IN; exact HD | apply IN; exact X].
  - apply lmax1_ge. exact J1.
  - apply lmin1_le. exact I1.
  - destruct (lmin1_in (hd 0 avg) avg) as [<- | X]; [apply IN; exact HD | apply IN; exact X].
Qed.
(** For a record that is not constant the decibel figures are 20 log10 of the ratio to the peak-to-peak
    range: minus infinity only for a residual that is exactly zero, never for a magnitude. *)
Lemma c96_decibels lstsq rows nh f mi tol r lo hi : harm_rows rows <> [] -> decompose_harmonic_error lstsq rows nh f mi tol = Ok r ->
  spans (length (hd [] (harm_rows rows))) (run_mean (harm_rows rows)) lo hi -> lo < hi ->
  (0 < rms_of (h_noise r) -> h_noise_db r = Fin (20 * (ln (2 * sqrt 2 * rms_of (h_noise r) / (hi - lo)) / ln 10))) /\
  (rms_of (h_noise r) = 0 -> h_noise_db r = NInf) /\
  (forall h, (h < Z.to_nat nh)%nat -> nth h (h_magnitudes_db r) NaN = Fin (20 * (ln (nth h (h_magnitudes r) 0 / (hi - lo) + 1 / 10 ^ 20) / ln 10))).
Proof.
  intros NE E SP LT. destruct (span_avg rows lo hi NE SP) as (HI & LO). pose proof (c36_adds_up _ _ _ _ _ _ _ E NE) as (_ & _ & _ & _ & _ & _ & LM & MG & _).
  pose proof (c96_residual_scale _ _ _ _ _ _ _ E) as RS. destruct (harm_inv _ _ _ _ _ _ _ E) as (fit & _ & _ & _ & _ & _ & _ & _ & _ & _ & _ & _ & _ & MD & ND). cbv zeta in MD, ND. rewrite HI, LO in MD, ND. rewrite RS in ND.
  assert (S2 : 0 < sqrt 2) by (apply sqrt_lt_R0; lra).
  split; [| split].
  - intros P. rewrite ND. unfold db_ratio. destruct (Reqb_spec (hi - lo) 0); [lra |]. unfold mag_to_db, xlog10, xaxpy, log10. rewrite Rplus_0_r.
    assert (Q : 0 < 2 * sqrt 2 * rms_of (h_noise r) / (hi - lo)) by (apply Rdiv_lt_0_compat; [apply Rmult_lt_0_compat; lra | lra]). destruct (Rltb_spec 0 (2 * sqrt 2 * rms_of (h_noise r) / (hi - lo))); [| lra]. rewrite Rplus_0_l. reflexivity.
  - intros Z. rewrite ND, Z. unfold db_ratio. destruct (Reqb_spec (hi - lo) 0); [lra |]. unfold mag_to_db, xlog10, xaxpy. replace (2 * sqrt 2 * 0 / (hi - lo) + 0) with 0 by (field; lra).
    destruct (Rltb_spec 0 0); [lra |]. destruct (Reqb_spec 0 0); [| lra]. destruct (Rltb_spec 0 20); [reflexivity | lra].
  - intros h Hh. rewrite MD. rewrite (nth_map_in _ _ _ 0) by (rewrite LM; exact Hh). unfold db_ratio. destruct (Reqb_spec (hi - lo) 0); [lra |].
    assert (Q : 0 < nth h (h_magnitudes r) 0 / (hi - lo) + 1 / 10 ^ 20). { assert (0 < 1 / 10 ^ 20) by (apply Rdiv_lt_0_compat; [lra | apply pow_lt; lra]). assert (0 <= nth h (h_magnitudes r) 0 / (hi - lo)) by (apply Rdiv_le_0_compat; [apply MG; exact Hh | lra]). lra. }
    unfold mag_to_db, xlog10, xaxpy, log10. destruct (Rltb_spec 0 (nth h (h_magnitudes r) 0 / (hi - lo) + 1 / 10 ^ 20)); [| lra]. rewrite Rplus_0_l. reflexivity.
Qed.
(** A constant record has no range: the noise figure is NaN. *)
Lemma c96_constant lstsq rows nh f mi tol r v : least_squares lstsq -> harm_rows rows <> [] -> decompose_harmonic_error lstsq rows nh f mi tol = Ok r ->
  (forall t, (t < length (hd [] (harm_rows rows)))%nat -> run_mean (harm_rows rows) t = v) -> h_noise_db r = NaN /\ h_residual_rms r = 0.
Proof.
  intros L NE E CV. pose proof (c96_residual_scale _ _ _ _ _ _ _ E) as RS. pose proof (c93_optimal _ _ _ _ _ _ _ L NE E) as (OPT & _). cbv zeta in OPT. set (n := length (hd [] (harm_rows rows))) in *.
  destruct (harm_inv _ _ _ _ _ _ _ E) as (fit & _ & _ & NP & _ & LN & _ & _ & _ & _ & _ & _ & _ & _ & ND). cbv zeta in ND.
  assert (LA : length (dec_avg rows) = n) by (unfold dec_avg, harm_average; rewrite map_length, seq_length; reflexivity). rewrite LA in LN, NP.
  assert (RZ : h_residual_rms r = 0).
  { rewrite RS. unfold rms_of. rewrite LN. replace (rsum n (fun t => nth t (h_noise r) 0 ^ 2)) with 0. { replace (0 / INR n) with 0 by (unfold Rdiv; ring). rewrite sqrt_0. ring. }
    apply Rle_antisym; [apply rsum_nonneg; intros; apply pow2_ge_0 |]. eapply Rle_trans; [apply (OPT v (fun _ => 0) (fun _ => 0)) |]. apply Req_le. apply rsum_zero. intros t T. rewrite CV by exact T. unfold distorted. rewrite rsum_zero by (intros; ring). ring. }
  split; [| exact RZ]. destruct (span_avg rows v v NE) as (HI & LO).
  - repeat split; [exists 0%nat; split; [exact NP | apply CV; exact NP] | exists 0%nat; split; [exact NP | apply CV; exact NP] | rewrite CV by assumption; lra | rewrite CV by assumption; lra].
  - rewrite ND, HI, LO, RZ. unfold db_ratio. destruct (Reqb_spec (v - v) 0); [| lra]. destruct (Reqb_spec 0 0); [reflexivity | lra].
Qed.
(** The impulse 1, 0, 0, 0 analysed at a quarter of the sampling rate: the residual is +-1/4. *)
Lemma impulse_harm : exists r, decompose_harmonic_error gs_lstsq [[1; 0; 0; 0]] 1 (Some (1 / 4)) 0 (1 / 10 ^ 9) = Ok r /\ h_noise r = [1 / 4; - (1 / 4); 1 / 4; - (1 / 4)].
Proof.
  destruct (proj1 (c36_accepts gs_lstsq [[1; 0; 0; 0]] 1 (Some (1 / 4)) 0 (1 / 10 ^ 9))) as (r & E); [split; [lia | split; [cbn; lia | discriminate]] |]. exists r. split; [exact E |].
  assert (RW : harm_rows [[1; 0; 0; 0]] = [[1; 0; 0; 0]]) by reflexivity.
  assert (FR : h_freq r = 1 / 4) by (destruct (harm_inv _ _ _ _ _ _ _ E) as (fit & FC & _ & _ & FR & _); rewrite FR; exact (given_frequency _ _ _ _ _ FC)).
  pose proof (c93_optimal _ _ _ _ _ _ _ gs_least_squares ltac:(rewrite RW; discriminate) E) as (_ & Z & O & _). rewrite RW in Z, O. change (length (hd [] [[1; 0; 0; 0]])) with 4%nat in Z, O. rewrite FR in O.
  pose proof (O 0%nat 0 ltac:(cbn; lia)) as O1. pose proof (O 0%nat (- (PI / 2)) ltac:(cbn; lia)) as O2.
  rewrite (rsum_ext 4 _ (fun t => nth t (h_noise r) 0 * qcos t)) in O1. 2:{ intros t T. rewrite <- (proj1 (quarter_trig t)). f_equal. f_equal. cbn [INR]. field. }
  rewrite (rsum_ext 4 _ (fun t => nth t (h_noise r) 0 * qsin t)) in O2. 2:{ intros t T. rewrite <- (proj2 (quarter_trig t)). f_equal. rewrite sin_cos. rewrite <- cos_neg. replace (- (INR 1 * (2 * PI * (1 / 4) * INR t) + - (PI / 2))) with (PI / 2 - INR t * (PI / 2)) by (cbn [INR]; field). rewrite cos_shift, <- sin_cos. reflexivity. }
  destruct (harm_inv _ _ _ _ _ _ _ E) as (fit & FC & _ & _ & FR2 & LN & _ & _ & _ & V & _). cbv zeta in V. change (length (dec_avg [[1; 0; 0; 0]])) with 4%nat in *. rewrite FR in FR2. rewrite <- FR2 in V. change (Z.to_nat 1) with 1%nat in V.
  set (W := gs_lstsq (harm_basis 4 (1 / 4) 1) _) in V. clearbody W.
  assert (NO : forall t, (t < 4)%nat -> nth t (h_noise r) 0 = nth t [1; 0; 0; 0] 0 - lmean (dec_avg [[1; 0; 0; 0]]) - (W 0%nat + (W 1%nat * qcos t + W 2%nat * qsin t))).
  { intros t T. destruct (V t T) as (_ & -> & _). rewrite basis_mv. cbn [rsum Nat.mul Nat.add]. change (INR 1) with 1. replace (1 * (2 * PI * (1 / 4) * INR t)) with (INR t * (PI / 2)) by field. rewrite (proj1 (quarter_trig t)), (proj2 (quarter_trig t)), Rplus_0_l. f_equal. f_equal.
    unfold dec_avg. rewrite average_nth by (rewrite RW; first [discriminate | exact T]). rewrite RW. unfold run_mean. cbn [length rsum]. change (INR 1) with 1. change (nth 0 [[1; 0; 0; 0]] []) with [1; 0; 0; 0]. field. }
  pose proof (NO 0%nat ltac:(lia)) as N0. pose proof (NO 1%nat ltac:(lia)) as N1. pose proof (NO 2%nat ltac:(lia)) as N2. pose proof (NO 3%nat ltac:(lia)) as N3. cbn [rsum] in Z, O1, O2. unfold qcos, qsin in *. cbn [Nat.modulo Nat.divmod fst snd Nat.sub nth] in N0, N1, N2, N3, O1, O2.
  apply (nth_ext_eq 0); [rewrite LN; reflexivity |]. intros i I. rewrite LN in I. destruct i as [| [| [| [| i]]]]; [| | | | lia]; cbn [nth]; lra.
Qed.
Lemma impulse_rms : rms_of [1 / 4; - (1 / 4); 1 / 4; - (1 / 4)] = 1 / 4.
Proof. unfold rms_of. cbn [length rsum nth INR]. replace (_ / _) with ((1 / 4) * (1 / 4)) by field. apply sqrt_square. lra. Qed.
(** "RMS of residual noise" is not what is returned. *)
Lemma c96_residual_rms_refuted : exists lstsq rows r, least_squares lstsq /\ decompose_harmonic_error lstsq rows 1 (Some (1 / 4)) 0 (1 / 10 ^ 9) = Ok r /\ h_residual_rms r <> rms_of (h_noise r).
Proof.
  destruct impulse_harm as (r & E & N). exists gs_lstsq, [[1; 0; 0; 0]], r. split; [exact gs_least_squares |]. split; [exact E |].
  rewrite (c96_residual_scale _ _ _ _ _ _ _ E), N, impulse_rms. assert (1 < sqrt 2) by (rewrite <- sqrt_1 at 1; apply sqrt_lt_1; lra). lra.
Qed.
(** Its noise figure: 20 log10 (sqrt 2 / 2). *)
Lemma c96_decibels_ex : exists r, decompose_harmonic_error gs_lstsq [[1; 0; 0; 0]] 1 (Some (1 / 4)) 0 (1 / 10 ^ 9) = Ok r /\ h_residual_rms r = sqrt 2 / 2 /\ h_noise_db r = Fin (20 * (ln (sqrt 2 / 2) / ln 10)).
Proof.
  destruct impulse_harm as (r & E & N). exists r. split; [exact E |]. split; [rewrite (c96_residual_scale _ _ _ _ _ _ _ E), N, impulse_rms; field |].
  assert (NE : harm_rows [[1; 0; 0; 0]] <> []) by (cbn; discriminate).
  destruct (c96_decibels _ _ _ _ _ _ _ 0 1 NE E) as (D & _).
  - change (harm_rows [[1; 0; 0; 0]]) with [[1; 0; 0; 0]]. change (length (hd [] [[1; 0; 0; 0]])) with 4%nat. unfold run_mean. split; [| split].
    + exists 1%nat. split; [lia | cbn; field]. + exists 0%nat. split; [lia | cbn; field].
    + intros t T. destruct t as [| [| [| [| t]]]]; [| | | | lia]; cbn; lra.
  - lra. - rewrite D by (rewrite N, impulse_rms; lra). rewrite N, impulse_rms. do 4 f_equal. field.
Qed.
Lemma c93_optimal_ex : exists r, decompose_harmonic_error gs_lstsq [[1; 0; 0; 0]] 1 (Some (1 / 4)) 0 (1 / 10 ^ 9) = Ok r /\ h_noise r = [1 / 4; - (1 / 4); 1 / 4; - (1 / 4)].
Proof. exact impulse_harm. Qed.
(** Two runs are averaged first: their mean is the impulse. *)
Lemma c36_adds_up_ex : exists r, decompose_harmonic_error gs_lstsq [[2; 1; 0; -1]; [0; -1; 0; 1]] 1 (Some (1 / 4)) 0 (1 / 10 ^ 9) = Ok r /\ nth 0 (h_fundamental r) 0 + nth 0 (h_harmonic r) 0 + nth 0 (h_noise r) 0 = 1 /\ h_phases r = [0].
Proof.
  destruct (proj1 (c36_accepts gs_lstsq [[2; 1; 0; -1]; [0; -1; 0; 1]] 1 (Some (1 / 4)) 0 (1 / 10 ^ 9))) as (r & E); [split; [lia | split; [cbn; lia | discriminate]] |]. exists r. split; [exact E |].
  assert (NE : harm_rows [[2; 1; 0; -1]; [0; -1; 0; 1]] <> []) by (cbn; discriminate).
  destruct (c36_adds_up _ _ _ _ _ _ _ E NE) as (_ & _ & _ & _ & S & LP & _ & _ & P0). destruct (S 0%nat ltac:(cbn; lia)) as (S0 & _). split; [rewrite S0; unfold run_mean; cbn; lra |].
  apply (nth_ext_eq 0); [rewrite LP; reflexivity |]. intros i I. rewrite LP in I. change (Z.to_nat 1) with 1%nat in I. destruct i; [exact P0 | lia].
Qed.
(** A pure sine keeps its frequency for any number of refinements; without refinement any record does. *)
Lemma c95_pure_sine lstsq rows nh f mi tol A ph off r : least_squares lstsq -> harm_rows rows <> [] -> usable f -> 0 < A -> (5 <= length (hd [] (harm_rows rows)))%nat -> (0 <= mi)%Z -> 0 < tol ->
  (forall t, (t < length (hd [] (harm_rows rows)))%nat -> run_mean (harm_rows rows) t = sine A f ph off t) ->
  decompose_harmonic_error lstsq rows nh (Some f) mi tol = Ok r -> h_freq r = f.
Proof.
  intros L NE U PA N5 M PT REC E. destruct (harm_inv _ _ _ _ _ _ _ E) as (fit & FC & _ & _ & FR & _). rewrite FR. cbv zeta in FC. set (avg := dec_avg rows) in *. set (zm := map (fun x => x - lmean avg) avg) in *.
  assert (LZ : length zm = length (hd [] (harm_rows rows))) by (unfold zm, avg, dec_avg, harm_average; rewrite !map_length, seq_length; reflexivity).
  destruct (c83_exact_sine lstsq zm f A ph (off - lmean avg) mi tol L U PA ltac:(lia) M PT) as (fit' & E' & F' & _).
  - intros t T. rewrite LZ in T. unfold zm. rewrite (nth_map_in _ _ _ 0) by (unfold zm in LZ; rewrite map_length in LZ; lia). replace (nth t avg 0) with (sine A f ph off t) by (rewrite <- (REC t T); symmetry; apply average_nth; assumption). unfold sine. ring.
  - rewrite FC in E'. apply Ok_inj in E'. subst fit'. exact F'.
Qed.
Lemma c95_no_refinement lstsq rows nh f tol r : decompose_harmonic_error lstsq rows nh (Some f) 0 tol = Ok r -> h_freq r = f.
Proof. intros E. destruct (harm_inv _ _ _ _ _ _ _ E) as (fit & FC & _ & _ & FR & _). rewrite FR. exact (given_frequency _ _ _ _ _ FC). Qed.
