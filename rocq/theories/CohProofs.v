(** * Proofs about coherent averaging. *)
From Coq Require Import Lia Lra Psatz Permutation.
From Verif Require Import Base BaseLemmas Cplx FreqModel UnitsModel TiModel TiToneProofs SpecModel SpecProofs SpecMetricProofs SpecLemmas CohModel CohSpec CohLemmas.
Local Open Scope R_scope.

(** ** Rotation of a record *)
Lemma csum_rotate1 n g : csum n (fun i => g ((i + 1) mod n)%nat) = csum n g.
Proof.
  destruct n as [|m]; [reflexivity|]. rewrite (csum_shift m g). cbn [csum].
  rewrite (csum_ext m _ (fun i => g (S i))).
  - replace ((m + 1) mod S m)%nat with 0%nat; [ring|]. replace (m + 1)%nat with (S m) by lia. symmetry. apply Nat.mod_same. lia.
  - intros i Hi. f_equal. rewrite Nat.mod_small; lia.
Qed.
Lemma csum_rotate n g d : csum n (fun i => g ((i + d) mod n)%nat) = csum n g.
Proof.
  induction d as [|d IH].
  - apply csum_ext. intros i Hi. f_equal. rewrite Nat.add_0_r. apply Nat.mod_small. exact Hi.
  - rewrite <- IH. rewrite <- (csum_rotate1 n (fun i => g ((i + d) mod n)%nat)). apply csum_ext. intros i Hi. f_equal.
    rewrite Nat.add_mod_idemp_l by lia. f_equal. lia.
Qed.
Lemma rotated_length d r : length (rotated d r) = length r.
Proof. unfold rotated. rewrite map_length, seq_length. reflexivity. Qed.
Lemma rotated_nth d r i : (i < length r)%nat -> nth i (rotated d r) 0 = nth ((i + d) mod length r) r 0.
Proof.
  intros Hi. unfold rotated. rewrite nth_map_seq by exact Hi. reflexivity.
Qed.
Lemma rfft_rotated d r b :
  rfft (rotated d r) b = Cmult (rfft r b) (cis (2 * PI * INR b * INR d / INR (length r))).
Proof.
  unfold rfft, rdft, dft. rewrite rotated_length. set (N := length r).
  rewrite <- csum_mult_r.
  rewrite <- (csum_rotate N (fun i => Cmult (Cmult (RtoC (nth i r 0)) (cis (- (2 * PI * INR b * INR i / INR N)))) (cis (2 * PI * INR b * INR d / INR N))) d).
  apply csum_ext. intros i Hi. rewrite rotated_nth by exact Hi. fold N.
  set (j := ((i + d) mod N)%nat).
  assert (HN : INR N <> 0) by (apply not_0_INR; lia).
  assert (E : INR i + INR d = INR N * INR ((i + d) / N) + INR j).
  { rewrite <- plus_INR, <- mult_INR, <- plus_INR. f_equal. apply Nat.div_mod. lia. }
  replace (- (2 * PI * INR b * INR i / INR N)) with
    (- (2 * PI * INR b * INR j / INR N) + 2 * PI * INR b * INR d / INR N + 2 * PI * IZR (- Z.of_nat (b * ((i + d) / N)))%Z).
  - rewrite cis_period, cis_plus. ring.
  - rewrite opp_IZR, <- INR_IZR_INZ, mult_INR. replace (INR i) with (INR N * INR ((i + d) / N) + INR j - INR d) by lra.
    field. exact HN.
Qed.

Lemma run_silent_spec r : run_silent r = false <-> heard r.
Proof.
  unfold run_silent, heard. destruct r as [|x t]; cbn [map].
  - split; [discriminate|]. intros [y [[] _]].
  - destruct (Rltb_spec (lmax1 (Rabs x) (map Rabs t)) (/ 10 ^ 10)) as [L|L]; split; try discriminate; try reflexivity.
    + intros [y [Hy Ha]]. exfalso. destruct Hy as [<-|Hy].
      * pose proof (lmax1_ge_init (Rabs x) (map Rabs t)). lra.
      * pose proof (lmax1_ge (Rabs x) (map Rabs t) (Rabs y) (in_map Rabs _ _ Hy)). lra.
    + intros _. destruct (lmax1_in (Rabs x) (map Rabs t)) as [E|E].
      * exists x. split; [left; reflexivity|]. rewrite E. exact L.
      * apply in_map_iff in E. destruct E as [y [Ey Hy]]. exists y. split; [right; exact Hy|]. rewrite Ey. exact L.
Qed.
Lemma heard_rotated d r : heard r -> heard (rotated d r).
Proof.
  intros [x [Hx Ha]]. exists x. split; [|exact Ha]. apply (In_nth _ _ 0) in Hx. destruct Hx as [j [Hj <-]].
  set (N := length r) in *. set (i := ((j + (N - d mod N)) mod N)%nat).
  assert (Hi : (i < N)%nat) by (apply Nat.mod_upper_bound; lia).
  replace (nth j r 0) with (nth i (rotated d r) 0).
  - apply nth_In. rewrite rotated_length. exact Hi.
  - rewrite rotated_nth by exact Hi. fold N. f_equal. unfold i. rewrite Nat.add_mod_idemp_l by lia.
    pose proof (Nat.div_mod d N ltac:(lia)) as E. pose proof (Nat.mod_upper_bound d N ltac:(lia)) as B.
    replace (j + (N - d mod N) + d)%nat with (j + (1 + d / N) * N)%nat by nia.
    rewrite Nat.mod_add by lia. apply Nat.mod_small. exact Hj.
Qed.

(** ** Locating the fundamental *)
Lemma run_power_length N r : length (run_power N r) = (N / 2 + 1)%nat.
Proof. unfold run_power. rewrite map_length, seq_length. reflexivity. Qed.
Lemma run_power_nth N r j : (j < N / 2 + 1)%nat -> nth j (run_power N r) 0 = Cmod (rfft r j) ^ 2.
Proof.
  intros Hj. unfold run_power. rewrite nth_map_seq by exact Hj. reflexivity.
Qed.
Lemma half_bound N j : (2 * j <= N)%nat <-> (j < N / 2 + 1)%nat.
Proof. pose proof (Nat.div_mod N 2 ltac:(lia)). pose proof (Nat.mod_upper_bound N 2 ltac:(lia)). lia. Qed.
Lemma strongest_located N nb r k : length r = N -> strongest_bin N nb r k -> fundamental_bin (run_power N r) nb = k.
Proof.
  intros HN [Hk [H2 [Hmax Hfirst]]]. unfold fundamental_bin. cbv zeta.
  set (s := firstn nb (run_power N r)).
  assert (Ls : length s = Nat.min nb (N / 2 + 1)) by (unfold s; rewrite firstn_length, run_power_length; reflexivity).
  apply half_bound in H2.
  replace (1 <? length s)%nat with true by (symmetry; apply Nat.ltb_lt; lia).
  assert (Nth : forall j, (j < length (tl s))%nat -> nth j (tl s) 0 = Cmod (rfft r (S j)) ^ 2).
  { intros j Hj. rewrite <- (run_power_nth N) by (destruct s; cbn in *; lia). unfold s.
    replace (nth j (tl (firstn nb (run_power N r))) 0) with (nth (S j) (firstn nb (run_power N r)) 0).
    - rewrite (nth_firstn_lt); [reflexivity|]. destruct s; cbn in *; lia.
    - destruct (firstn nb (run_power N r)); [destruct j; reflexivity|reflexivity]. }
  assert (Lt : length (tl s) = (length s - 1)%nat) by (destruct s; cbn; lia).
  replace k with (S (k - 1)) at 1 by lia. f_equal.
  unfold rfft in Nth. rewrite HN in Nth.
  apply argmax_unique.
  - lia.
  - intros j Hj. rewrite !Nth by lia. replace (S (k - 1)) with k by lia.
    apply pow_incr. split; [apply Cmod_nonneg|]. apply Hmax; [lia|apply half_bound; lia].
  - intros j Hj. rewrite !Nth by lia. replace (S (k - 1)) with k by lia.
    pose proof (Hfirst (S j) ltac:(lia)) as Q. pose proof (Cmod_nonneg (rdft N (fun i => nth i r 0) (S j))). cbn [pow]. nra.
Qed.
Lemma aligned_run_is N nb r k : length r = N -> heard r -> strongest_bin N nb r k ->
  aligned_run N nb r = Some (align_spectrum (rfft r) k (fundamental_frac (run_power N r) nb) N).
Proof.
  intros HN Hh Hs. unfold aligned_run. rewrite (proj2 (run_silent_spec r) Hh). cbv zeta.
  rewrite (strongest_located N nb r k HN Hs). destruct Hs as [Hk _].
  replace (k <=? 0)%nat with false by (symmetry; apply Nat.leb_gt; lia). reflexivity.
Qed.
Lemma run_power_rotated N d r : run_power N (rotated d r) = run_power N r.
Proof. unfold run_power. apply map_ext. intros b. rewrite rfft_rotated, Cmod_mult, Cmod_cis, Rmult_1_r. reflexivity. Qed.
Lemma strongest_rotated N nb r k d : length r = N -> strongest_bin N nb r k -> strongest_bin N nb (rotated d r) k.
Proof.
  intros HN [Hk [H2 [Hm Hf]]]. cbv zeta in Hm, Hf.
  assert (E : forall j, Cmod (rdft N (fun i => nth i (rotated d r) 0) j) = Cmod (rdft N (fun i => nth i r 0) j)).
  { intros j. pose proof (rfft_rotated d r j) as Q. unfold rfft in Q. rewrite rotated_length, HN in Q. rewrite Q.
    rewrite Cmod_mult, Cmod_cis. ring. }
  split; [exact Hk|]. split; [exact H2|]. split; intros j; rewrite !E; [apply Hm|apply Hf].
Qed.

(** Harmonic bins of the aligned spectrum do not depend on where the record starts. *)
Lemma align_rotated N r k x d b : (0 < N)%nat -> length r = N -> (0 < k)%nat -> harmonic_bin N k b ->
  align_spectrum (rfft (rotated d r)) k x N b = align_spectrum (rfft r) k x N b.
Proof.
  intros HN Hl Hk Hb. destruct (Nat.eq_dec b 0) as [->|Nb]; [rewrite !align_dc by exact Hk; reflexivity|].
  rewrite !align_closed by assumption. destruct (harmonic_first N k b HN ltac:(lia) Hb) as [h Eh]. rewrite Eh.
  rewrite !rfft_rotated, Hl, align_phasor_turn, cpow_mult, rot_mult, cpow_cis, rot_cis.
  set (th := 2 * PI * INR b * INR d / INR N).
  assert (Q : Cmult (cis th) (cis (if snd (landing k N h) then - (INR h * - (2 * PI * INR k * INR d / INR N)) else INR h * - (2 * PI * INR k * INR d / INR N))) = C1).
  { destruct (first_order_some _ _ _ _ _ Eh) as [Hh [Hl' _]]. destruct (landing_appears N k h HN) as [L1 L2].
    assert (HN' : INR N <> 0) by (apply not_0_INR; lia).
    rewrite <- cis_plus. destruct (snd (landing k N h)).
    - destruct (L2 eq_refl) as [_ [q Hq]]. rewrite Hl' in Hq. rewrite <- (cis_2kPI (Z.of_nat (q * d))). f_equal.
      rewrite <- INR_IZR_INZ, mult_INR. apply (f_equal INR) in Hq. rewrite plus_INR, !mult_INR in Hq. unfold th.
      replace (2 * PI * INR b * INR d / INR N + - (INR h * - (2 * PI * INR k * INR d / INR N))) with (2 * PI * (INR h * INR k + INR b) * INR d / INR N) by (field; exact HN').
      rewrite Hq. field. exact HN'.
    - destruct (L1 eq_refl) as [_ [q Hq]]. rewrite Hl' in Hq. rewrite <- (cis_2kPI (- Z.of_nat (q * d))). f_equal.
      rewrite opp_IZR, <- INR_IZR_INZ, mult_INR. apply (f_equal INR) in Hq. rewrite plus_INR, !mult_INR in Hq. unfold th.
      replace (2 * PI * INR b * INR d / INR N + INR h * - (2 * PI * INR k * INR d / INR N)) with (- (2 * PI * (INR h * INR k - INR b) * INR d / INR N)) by (field; exact HN').
      rewrite Hq. field. exact HN'. }
  set (A := cis th) in *. set (B := cis (if snd (landing k N h) then _ else _)) in *.
  set (P := rot _ (cpow _ _)).
  replace (Cmult (Cmult (rfft r b) A) (Cmult P B)) with (Cmult (Cmult (rfft r b) P) (Cmult A B)) by ring.
  rewrite Q. unfold C1. destruct (Cmult (rfft r b) P). unfold Cmult; cbn. f_equal; ring.
Qed.

(** ** Averaging *)
Lemma fold_const runs b v : (forall a, In a runs -> a b = v) -> forall acc,
  fold_left (fun acc (a : nat -> C) => Cplus acc (a b)) runs acc = Cplus acc (Cscale (INR (length runs)) v).
Proof.
  induction runs as [|a t IH]; intros H acc; cbn [fold_left length].
  - cbn [INR]. rewrite Cscale_0. ring.
  - rewrite IH by (intros; apply H; right; assumption). rewrite (H a) by (left; reflexivity). rewrite S_INR.
    unfold Cscale, Cplus; cbn. f_equal; ring.
Qed.
Lemma mean_const N runs b v : (0 < N)%nat -> runs <> [] -> (forall a, In a runs -> a b = v) ->
  coherent_mean N runs b = Cscale (/ INR N) v.
Proof.
  intros HN Hr H. unfold coherent_mean. rewrite (fold_const runs b v H).
  replace (Nat.max 1 (length runs)) with (length runs) by (destruct runs; [contradiction|cbn; lia]).
  assert (INR (length runs) <> 0) by (apply not_0_INR; destruct runs; [contradiction|cbn; lia]).
  assert (INR N <> 0) by (apply not_0_INR; lia).
  unfold Cscale, Cplus, C0; cbn. f_equal; field; split; assumption.
Qed.
Lemma valid_rotated N nb r k ds : length r = N -> heard r -> strongest_bin N nb r k ->
  valid_runs N nb (map (fun d => rotated d r) ds) =
  map (fun d => align_spectrum (rfft (rotated d r)) k (fundamental_frac (run_power N r) nb) N) ds.
Proof.
  intros HN Hh Hs. induction ds as [|d t IH]; cbn [map valid_runs]; [reflexivity|].
  rewrite (aligned_run_is N nb (rotated d r) k).
  - rewrite run_power_rotated, IH. reflexivity.
  - rewrite rotated_length. exact HN.
  - apply heard_rotated, Hh.
  - apply strongest_rotated; assumption.
Qed.
Lemma mean_rotated N nb r k ds b : length r = N -> heard r -> strongest_bin N nb r k -> ds <> [] -> harmonic_bin N k b ->
  coherent_mean N (valid_runs N nb (map (fun d => rotated d r) ds)) b = coherent_mean N (valid_runs N nb [r]) b.
Proof.
  intros HN Hh Hs Hds Hb. assert (Np : (0 < N)%nat) by (destruct Hs as [? [? _]]; lia).
  assert (Kp : (0 < k)%nat) by (destruct Hs as [? [? _]]; lia).
  rewrite (valid_rotated N nb r k) by assumption.
  set (x := fundamental_frac (run_power N r) nb).
  rewrite (mean_const N _ b (align_spectrum (rfft r) k x N b)).
  - rewrite (mean_const N _ b (align_spectrum (rfft r) k x N b)); [reflexivity|exact Np| |].
    + cbn [valid_runs]. rewrite (aligned_run_is N nb r k) by assumption. discriminate.
    + intros a. cbn [valid_runs]. rewrite (aligned_run_is N nb r k) by assumption. intros [<-|[]]. reflexivity.
  - exact Np.
  - destruct ds; [contradiction|discriminate].
  - intros a Ha. apply in_map_iff in Ha. destruct Ha as [d [<- _]]. apply align_rotated; assumption.
Qed.
Lemma power_of_mean N runs runs' b : coherent_mean N runs b = coherent_mean N runs' b ->
  coherent_power_bin N runs b = coherent_power_bin N runs' b /\ coherent_complex_bin N runs b = coherent_complex_bin N runs' b.
Proof. intros E. unfold coherent_power_bin, coherent_complex_bin. rewrite E. split; reflexivity. Qed.
Lemma coherent_nth N nb rows b : (2 * b <= N)%nat ->
  nth b (fst (coherent_average N nb rows)) 0 = coherent_power_bin N (valid_runs N nb rows) b /\
  nth b (snd (coherent_average N nb rows)) C0 = coherent_complex_bin N (valid_runs N nb rows) b.
Proof.
  intros Hb. apply half_bound in Hb. unfold coherent_average. cbn [fst snd].
  split; apply nth_map_seq; exact Hb.
Qed.

(** Averaging records that differ only in where they start leaves the fundamental and every bin
    that carries one of its harmonics exactly as in a single record. *)
Lemma c105_harmonics_kept N nb r k ds b : length r = N -> heard r -> strongest_bin N nb r k -> ds <> [] ->
  harmonic_bin N k b -> (2 * b <= N)%nat ->
  let many := coherent_average N nb (map (fun d => rotated d r) ds) in
  let one := coherent_average N nb [r] in
  nth b (fst many) 0 = nth b (fst one) 0 /\ nth b (snd many) C0 = nth b (snd one) C0.
Proof.
  intros HN Hh Hs Hds Hb H2. cbv zeta.
  destruct (coherent_nth N nb (map (fun d => rotated d r) ds) b H2) as [-> ->].
  destruct (coherent_nth N nb [r] b H2) as [-> ->].
  apply power_of_mean. apply (mean_rotated N nb r k); assumption.
Qed.
Lemma coprime_harmonic N k b : (0 < N)%nat -> (0 < k)%nat -> Nat.gcd k N = 1%nat -> (2 * b <= N)%nat -> harmonic_bin N k b.
Proof.
  intros HN Hk Hg Hb.
  destruct (Nat.gcd_bezout k N) as [[u [v Huv]]|[u [v Huv]]]; rewrite Hg in Huv.
  - exists (u * b + N)%nat. split; [lia|]. destruct (Nat.eq_dec (2 * b) N) as [E|E].
    + right. split; [lia|]. exists (v * b + 1 + k)%nat. nia.
    + left. split; [lia|]. exists (v * b + k)%nat. nia.
  - exists (v * b + N)%nat. split; [lia|]. right. split; [lia|]. exists (u * b + k)%nat. nia.
Qed.

(** When the tone completes a number of periods coprime to the record length (the usual coherent
    setting), every bin carries a harmonic, so the whole averaged spectrum, power and complex,
    equals that of a single record. *)
Lemma c105_coprime N nb r k ds : length r = N -> heard r -> strongest_bin N nb r k -> ds <> [] ->
  Nat.gcd k N = 1%nat ->
  coherent_average N nb (map (fun d => rotated d r) ds) = coherent_average N nb [r].
Proof.
  intros HN Hh Hs Hds Hg. assert (Np : (0 < N)%nat) by (destruct Hs as [? [? _]]; lia).
  assert (Kp : (0 < k)%nat) by (destruct Hs as [? [? _]]; lia). unfold coherent_average.
  assert (Q : forall b, In b (seq 0 (N / 2 + 1)) ->
    coherent_mean N (valid_runs N nb (map (fun d => rotated d r) ds)) b = coherent_mean N (valid_runs N nb [r]) b).
  { intros b Hb. apply in_seq in Hb. apply (mean_rotated N nb r k); try assumption. apply coprime_harmonic; try assumption.
    apply half_bound. lia. }
  f_equal; apply map_ext_in; intros b Hb; apply power_of_mean, Q, Hb.
Qed.

(** ** Comparison with power averaging *)
Lemma cauchy_runs (f : (nat -> C) -> C) runs :
  Cmod2 (fold_left (fun acc a => Cplus acc (f a)) runs C0) <= INR (length runs) * lsum (map (fun a => Cmod2 (f a)) runs).
Proof.
  induction runs as [|a t IH] using rev_ind.
  - cbn. unfold Cmod2, C0; cbn. lra.
  - rewrite fold_left_app, app_length, map_app, lsum_app. cbn [fold_left length map lsum]. rewrite Nat.add_1_r, S_INR.
    set (sm := fold_left (fun acc a => Cplus acc (f a)) t C0) in *. set (L := lsum (map (fun a => Cmod2 (f a)) t)) in *.
    destruct (f a) as [x y]. destruct t as [|a' t'].
    + cbn in sm. unfold sm, C0, Cplus, Cmod2; cbn. unfold L; cbn. nra.
    + assert (Hn : 0 < INR (length (a' :: t'))) by (apply lt_0_INR; cbn; lia). set (n := INR (length (a' :: t'))) in *.
      destruct sm as [u v]. unfold Cmod2, Cplus in *; cbn [fst snd] in *.
      assert (Q : 0 <= n * (n * (x * x + y * y) + L - 2 * (u * x + v * y))).
      { replace (n * (n * (x * x + y * y) + L - 2 * (u * x + v * y))) with
          ((n * x - u) * (n * x - u) + (n * y - v) * (n * y - v) + (n * L - (u * u + v * v))) by ring.
        pose proof (Rle_0_sqr (n * x - u)). pose proof (Rle_0_sqr (n * y - v)). unfold Rsqr in *. lra. }
      assert (Q' : 0 <= n * (x * x + y * y) + L - 2 * (u * x + v * y)).
      { apply (Rmult_le_reg_l n); [exact Hn|]. rewrite Rmult_0_r. exact Q. }
      lra.
Qed.
Lemma align_mod_le X k r n b : (0 < n)%nat -> Cmod (align_spectrum X k r n b) <= Cmod (X b).
Proof.
  intros Hn. destruct k as [|k]; [unfold align_spectrum; cbn; lra|].
  destruct (Nat.eq_dec b 0) as [->|Nb]; [rewrite align_dc by lia; rewrite Cmod_0; apply Cmod_nonneg|].
  rewrite align_closed by lia. pose proof (Cmod_nonneg (X b)) as HX. pose proof (shrink_range (X (S k))) as [S0 S1].
  destruct (first_order (S k) n n b) as [h|].
  - rewrite Cmod_mult, Cmod_rot, Cmod_cpow, align_phasor_mod.
    assert (0 <= shrink (X (S k)) ^ h <= 1). { split; [apply pow_le; lra|]. rewrite <- (pow1 h). apply pow_incr. lra. }
    nra.
  - rewrite Cmod_mult. assert (Cmod (cpower (align_phasor (X (S k))) (if Rltb 0 r then INR b / r else 0)) <= 1).
    { apply cpower_mod_le; [rewrite align_phasor_mod; lra|]. destruct (Rltb_spec 0 r); [|lra].
      apply Rmult_le_pos; [apply pos_INR|]. left. apply Rinv_0_lt_compat. assumption. }
    pose proof (Cmod_nonneg (cpower (align_phasor (X (S k))) (if Rltb 0 r then INR b / r else 0))). nra.
Qed.
Lemma located_positive N nb r : (2 <= N)%nat -> (2 <= nb)%nat -> (1 <= fundamental_bin (run_power N r) nb)%nat.
Proof.
  intros HN Hnb. unfold fundamental_bin. cbv zeta. rewrite firstn_length, run_power_length.
  assert (1 <= N / 2)%nat by (apply Nat.div_le_lower_bound; lia).
  replace (1 <? Nat.min nb (N / 2 + 1))%nat with true by (symmetry; apply Nat.ltb_lt; lia). lia.
Qed.
Lemma valid_heard N nb rows : (2 <= N)%nat -> (2 <= nb)%nat -> Forall heard rows ->
  valid_runs N nb rows = map (fun r => align_spectrum (rfft r) (fundamental_bin (run_power N r) nb) (fundamental_frac (run_power N r) nb) N) rows.
Proof.
  intros HN Hnb H. induction H as [|r t Hr Ht IH]; [reflexivity|]. cbn [valid_runs map]. unfold aligned_run.
  rewrite (proj2 (run_silent_spec r) Hr). cbv zeta. pose proof (located_positive N nb r HN Hnb).
  replace (fundamental_bin (run_power N r) nb <=? 0)%nat with false by (symmetry; apply Nat.leb_gt; lia). rewrite IH. reflexivity.
Qed.
(** Coherent averaging never shows more power in a bin than power averaging does. *)
Lemma c106_below_power_average N nb rows b : (2 <= N)%nat -> (2 <= nb)%nat -> Forall heard rows -> rows <> [] ->
  (2 * b <= N)%nat ->
  0 <= nth b (fst (coherent_average N nb rows)) 0 <= nth b (power_average N rows) 0.
Proof.
  intros HN Hnb Hh Hne Hb. destruct (coherent_nth N nb rows b Hb) as [-> _]. unfold power_average. apply half_bound in Hb.
  rewrite nth_map_seq by exact Hb. unfold coherent_power_bin, power_bin. cbv zeta.
  assert (Q : 0 <= Cmod (coherent_mean N (valid_runs N nb rows) b) ^ 2 <= lmean (map (fun r => Cmod (rfft r b) ^ 2) rows) / INR N ^ 2).
  { split; [apply pow_le, Cmod_nonneg|]. rewrite valid_heard by assumption.
    set (al := fun r : list R => align_spectrum (rfft r) (fundamental_bin (run_power N r) nb) (fundamental_frac (run_power N r) nb) N).
    assert (HNp : 0 < INR N) by (apply lt_0_INR; lia).
    assert (HMp : 0 < INR (length rows)) by (apply lt_0_INR; destruct rows; [contradiction|cbn; lia]).
    unfold coherent_mean. rewrite map_length. replace (Nat.max 1 (length rows)) with (length rows) by (destruct rows; [contradiction|cbn; lia]).
    replace (Cmod (Cscale (/ (INR N * INR (length rows))) (fold_left (fun acc (a : nat -> C) => Cplus acc (a b)) (map al rows) C0)) ^ 2)
      with ((/ (INR N * INR (length rows))) ^ 2 * Cmod2 (fold_left (fun acc (a : nat -> C) => Cplus acc (a b)) (map al rows) C0)).
    2:{ rewrite Cmod_scale. rewrite Rpow_mult_distr. replace (Cmod _ ^ 2) with (Cmod (fold_left (fun acc (a : nat -> C) => Cplus acc (a b)) (map al rows) C0) * Cmod (fold_left (fun acc (a : nat -> C) => Cplus acc (a b)) (map al rows) C0)) by ring.
        rewrite Cmod_sqr, <- (pow2_abs (/ (INR N * INR (length rows)))). reflexivity. }
    pose proof (cauchy_runs (fun a => a b) (map al rows)) as CS. cbv beta in CS. rewrite map_length, map_map in CS.
    assert (LE : lsum (map (fun x => Cmod2 (al x b)) rows) <= lsum (map (fun r => Cmod (rfft r b) ^ 2) rows)).
    { apply lsum_le. clear - HN. induction rows as [|r t IH]; cbn [map]; constructor; [|exact IH].
      pose proof (align_mod_le (rfft r) (fundamental_bin (run_power N r) nb) (fundamental_frac (run_power N r) nb) N b ltac:(lia)) as A.
      fold (al r) in A. rewrite <- Cmod_sqr. pose proof (Cmod_nonneg (al r b)). nra. }
    unfold lmean. rewrite map_length.
    apply (Rmult_le_reg_l ((INR N * INR (length rows)) ^ 2)); [apply pow_lt; apply Rmult_lt_0_compat; assumption|].
    rewrite <- Rmult_assoc, <- Rpow_mult_distr, Rinv_r, pow1, Rmult_1_l by (apply Rgt_not_eq, Rmult_lt_0_compat; assumption).
    replace ((INR N * INR (length rows)) ^ 2 * (lsum (map (fun r => Cmod (rfft r b) ^ 2) rows) / INR (length rows) / INR N ^ 2))
      with (INR (length rows) * lsum (map (fun r => Cmod (rfft r b) ^ 2) rows)) by (field; lra).
    eapply Rle_trans; [exact CS|]. apply Rmult_le_compat_l; [lra|exact LE]. }
  destruct (b =? 0)%nat, (Nat.even N && (b =? N / 2))%nat; lra.
Qed.

(** ** Exact values *)
Lemma landing_self N k : (2 * k < N)%nat -> landing k N 1 = (k, false).
Proof.
  intros H. unfold landing. cbv zeta. rewrite Nat.mul_1_r, Nat.mod_small by lia.
  replace (2 * k <? N)%nat with true by (symmetry; apply Nat.ltb_lt; lia). reflexivity.
Qed.
Lemma first_of_one k n m b : fst (landing k n 1) = b -> (1 <= m)%nat -> first_order k n m b = Some 1%nat.
Proof.
  intros E Hm. induction m as [|m IH]; [lia|]. cbn [first_order]. destruct m as [|m].
  - cbn [first_order]. rewrite E, Nat.eqb_refl. reflexivity.
  - rewrite IH by lia. reflexivity.
Qed.
Lemma align_fundamental X k x N : (0 < k)%nat -> (2 * k < N)%nat ->
  align_spectrum X k x N k = RtoC (Cmod2 (X k) / (Cmod (X k) + / 10 ^ 20)).
Proof.
  intros Hk H2. rewrite align_closed by lia. rewrite (first_of_one k N N k) by (rewrite ?landing_self by lia; try reflexivity; lia).
  rewrite landing_self by lia. cbn [snd rot cpow]. unfold align_phasor, Rdiv.
  set (e := / (Cmod (X k) + / 10 ^ 20)). destruct (X k) as [u v].
  unfold Cmult, Cconj, Cscale, C1, RtoC, Cmod2; cbn. f_equal; ring.
Qed.
Lemma fold_real (f : list R -> nat -> C) (g : list R -> R) rows b : (forall r, In r rows -> f r b = RtoC (g r)) -> forall acc,
  fold_left (fun acc (a : nat -> C) => Cplus acc (a b)) (map f rows) acc = Cplus acc (RtoC (lsum (map g rows))).
Proof.
  induction rows as [|r t IH]; intros H acc; cbn [map fold_left lsum].
  - unfold RtoC, Cplus; destruct acc; cbn. f_equal; ring.
  - rewrite IH by (intros; apply H; right; assumption). rewrite H by (left; reflexivity).
    unfold RtoC, Cplus; cbn. f_equal; ring.
Qed.
(** The fundamental of the averaged spectrum has phase zero and the mean of the runs' amplitudes
    (up to the 1e-20 guard), whatever their phases. *)
Lemma c106_fundamental N nb rows k : rows <> [] -> (2 * k < N)%nat ->
  Forall (fun r => length r = N /\ heard r /\ strongest_bin N nb r k) rows ->
  nth k (snd (coherent_average N nb rows)) C0 =
  RtoC (lmean (map (fun r => let X := rdft N (fun i => nth i r 0) k in
                             Cmod2 X / (Cmod X + / 10 ^ 20)) rows) / INR N).
Proof.
  intros Hne H2 H. assert (Kp : (1 <= k)%nat) by (destruct H as [|r t [_ [_ [? _]]] _]; [contradiction|lia]).
  destruct (coherent_nth N nb rows k ltac:(lia)) as [_ ->]. unfold coherent_complex_bin. cbv zeta.
  replace (k =? 0)%nat with false by (symmetry; apply Nat.eqb_neq; lia).
  replace (Nat.even N && (k =? N / 2))%nat with false.
  2:{ symmetry. apply Bool.andb_false_iff. destruct (Nat.even N) eqn:E; [right|left; reflexivity].
      apply Nat.even_spec in E. destruct E as [m ->]. rewrite Nat.mul_comm, Nat.div_mul by lia. apply Nat.eqb_neq. lia. }
  assert (V : valid_runs N nb rows = map (fun r => align_spectrum (rfft r) k (fundamental_frac (run_power N r) nb) N) rows).
  { clear Hne. induction H as [|r t [Hl [Hh Hs]] Ht IH]; [reflexivity|]. cbn [valid_runs map].
    rewrite (aligned_run_is N nb r k) by assumption. rewrite IH. reflexivity. }
  unfold coherent_mean. rewrite V, map_length.
  rewrite (fold_real _ (fun r => let X := rdft N (fun i => nth i r 0) k in Cmod2 X / (Cmod X + / 10 ^ 20))).
  - cbv zeta. unfold lmean. rewrite map_length. replace (Nat.max 1 (length rows)) with (length rows) by (destruct rows; [contradiction|cbn; lia]).
    assert (INR (length rows) <> 0) by (apply not_0_INR; destruct rows; [contradiction|cbn; lia]).
    assert (INR N <> 0) by (apply not_0_INR; lia).
    unfold Cscale, RtoC, Cplus, C0; cbn. f_equal; field; split; assumption.
  - intros r Hr. rewrite Forall_forall in H. destruct (H r Hr) as [Hl _]. rewrite align_fundamental by lia.
    unfold rfft. rewrite Hl. reflexivity.
Qed.
(** For a single record, a bin carrying harmonic h (the lowest one there) keeps its power up to
    the factor (|X|/(|X|+1e-20))^(2h), X being the fundamental's bin. *)
Lemma c106_single N nb r k b : length r = N -> heard r -> strongest_bin N nb r k ->
  (1 <= b)%nat -> (2 * b <= N)%nat -> harmonic_bin N k b ->
  let X := Cmod (rdft N (fun i => nth i r 0) k) in
  exists h, (1 <= h <= N)%nat /\ appears N k h b /\ (forall h', (1 <= h' < h)%nat -> ~ appears N k h' b) /\
    nth b (fst (coherent_average N nb [r])) 0 = (X / (X + / 10 ^ 20)) ^ (2 * h) * nth b (power_average N [r]) 0.
Proof.
  intros HN Hh Hs Hb H2 Hhb. cbv zeta. assert (Np : (0 < N)%nat) by lia.
  assert (Kp : (0 < k)%nat) by (destruct Hs as [? _]; lia).
  destruct (harmonic_first N k b Np ltac:(lia) Hhb) as [h Eh]. exists h.
  destruct (first_order_some _ _ _ _ _ Eh) as [Hr [Hl Hf]]. split; [exact Hr|].
  split. { destruct (landing_appears N k h Np) as [L1 L2]. rewrite Hl in L1, L2. destruct (snd (landing k N h)); [right|left]; auto. }
  split. { intros h' Hh' Ha. apply (Hf h' Hh'). apply appears_landing; assumption. }
  destruct (coherent_nth N nb [r] b H2) as [-> _]. unfold power_average. apply half_bound in H2. rewrite nth_map_seq by exact H2.
  unfold coherent_power_bin, power_bin. cbv zeta.
  rewrite (mean_const N _ b (align_spectrum (rfft r) k (fundamental_frac (run_power N r) nb) N b)).
  - rewrite align_closed by lia. rewrite Eh. cbn [map]. unfold lmean. cbn [lsum length]. 
    rewrite Cmod_scale, Cmod_mult, Cmod_rot, Cmod_cpow, align_phasor_mod. unfold shrink.
    replace (rdft N (fun i => nth i r 0) k) with (rfft r k) by (unfold rfft; rewrite HN; reflexivity).
    set (g := Cmod (rfft r k) / (Cmod (rfft r k) + / 10 ^ 20)). rewrite (Nat.mul_comm 2 h), pow_mult.
    assert (HNp : INR N <> 0) by (apply not_0_INR; lia).
    replace ((Rabs (/ INR N) * (Cmod (rfft r b) * g ^ h)) ^ 2) with ((g ^ h) ^ 2 * ((Cmod (rfft r b) ^ 2 + 0) / INR 1 / INR N ^ 2)).
    + destruct (b =? 0)%nat, (Nat.even N && (b =? N / 2))%nat; unfold Rdiv; ring.
    + rewrite Rpow_mult_distr, pow2_abs. cbn [INR]. field. exact HNp.
  - exact Np.
  - cbn [valid_runs]. rewrite (aligned_run_is N nb r k) by assumption. discriminate.
  - intros a. cbn [valid_runs]. rewrite (aligned_run_is N nb r k) by assumption. intros [<-|[]]. reflexivity.
Qed.
Lemma run_dc N nb rows a : In a (valid_runs N nb rows) -> a O = C0.
Proof.
  induction rows as [|r t IH]; cbn [valid_runs]; [intros []|]. destruct (aligned_run N nb r) as [a'|] eqn:E; [|exact IH].
  intros [<-|Ha]; [|apply IH, Ha]. unfold aligned_run in E. destruct (run_silent r); [discriminate|]. cbv zeta in E.
  destruct (Nat.leb_spec (fundamental_bin (run_power N r) nb) 0); [discriminate|]. injection E as <-. apply align_dc. lia.
Qed.
Lemma dc_mean N nb rows : coherent_mean N (valid_runs N nb rows) 0 = C0.
Proof.
  unfold coherent_mean. rewrite (fold_const _ O C0) by (apply run_dc). unfold Cscale, Cplus, C0; cbn. f_equal; ring.
Qed.
(** The power spectrum is the squared magnitude of the complex one, and its DC bin is zero. *)
Lemma c106_square N nb rows b : (2 * b <= N)%nat ->
  nth b (fst (coherent_average N nb rows)) 0 = Cmod (nth b (snd (coherent_average N nb rows)) C0) ^ 2 /\
  nth 0 (snd (coherent_average N nb rows)) C0 = C0.
Proof.
  intros Hb. destruct (coherent_nth N nb rows b Hb) as [-> ->]. destruct (coherent_nth N nb rows 0 ltac:(lia)) as [_ ->].
  assert (H2 : (/ sqrt 2) ^ 2 = / 2). { rewrite pow_inv. f_equal. cbn [pow]. rewrite Rmult_1_r. apply sqrt_sqrt. lra. }
  split.
  - unfold coherent_power_bin, coherent_complex_bin. cbv zeta.
    destruct (b =? 0)%nat, (Nat.even N && (b =? N / 2))%nat; rewrite ?Cmod_scale, ?Rpow_mult_distr, ?pow2_abs, ?H2; field.
  - unfold coherent_complex_bin. cbv zeta. rewrite dc_mean. cbn [Nat.eqb].
    destruct (Nat.even N && (match N / 2 with O => true | S _ => false end))%nat; unfold Cscale, C0; cbn; f_equal; try ring; f_equal; ring.
Qed.

(** ** Silent runs and order *)
Lemma valid_app N nb a b : valid_runs N nb (a ++ b) = valid_runs N nb a ++ valid_runs N nb b.
Proof. induction a as [|r t IH]; cbn; [reflexivity|]. rewrite IH. destruct (aligned_run N nb r); reflexivity. Qed.
Lemma silent_none N nb r : ~ heard r -> aligned_run N nb r = None.
Proof.
  intros H. unfold aligned_run. destruct (run_silent r) eqn:E; [reflexivity|]. exfalso. apply H, run_silent_spec, E.
Qed.
(** A run without any sample of 1e-10 or more has no influence, not even on the divisor. *)
Lemma c108_silent N nb pre r post : ~ heard r ->
  coherent_average N nb (pre ++ r :: post) = coherent_average N nb (pre ++ post).
Proof.
  intros H. unfold coherent_average. rewrite !valid_app. cbn [valid_runs]. rewrite (silent_none N nb r H). reflexivity.
Qed.
(** The result does not depend on the order of the runs. *)
Lemma c108_order N nb rows rows' : Permutation rows rows' -> coherent_average N nb rows = coherent_average N nb rows'.
Proof.
  intros H. unfold coherent_average.
  assert (V : Permutation (valid_runs N nb rows) (valid_runs N nb rows')).
  { induction H; cbn [valid_runs].
    - constructor.
    - destruct (aligned_run N nb x); [constructor; assumption|assumption].
    - destruct (aligned_run N nb x), (aligned_run N nb y); try reflexivity. constructor.
    - etransitivity; eassumption. }
  assert (M : forall b, coherent_mean N (valid_runs N nb rows) b = coherent_mean N (valid_runs N nb rows') b).
  { intros b. unfold coherent_mean. rewrite (Permutation_length V). f_equal. generalize C0.
    induction V as [|a u v _ IH|a a' u|u v w _ IH1 _ IH2]; intros acc; cbn [fold_left]; [reflexivity|apply IH| |rewrite IH1; apply IH2].
    f_equal. ring. }
  f_equal; apply map_ext; intros b; apply power_of_mean, M.
Qed.
(** With no run above 1e-10 the spectrum is identically zero. *)
Lemma c108_all_silent N nb rows : Forall (fun r => ~ heard r) rows ->
  coherent_average N nb rows = (repeat 0 (N / 2 + 1), repeat C0 (N / 2 + 1)).
Proof.
  intros H. assert (V : valid_runs N nb rows = []).
  { induction H as [|r t Hr Ht IH]; [reflexivity|]. cbn [valid_runs]. rewrite silent_none by exact Hr. exact IH. }
  unfold coherent_average. rewrite V.
  assert (M : forall b, coherent_mean N [] b = C0) by (intros b; unfold coherent_mean, Cscale, C0; cbn; f_equal; ring).
  assert (Rp : forall A (f : nat -> A) c n, (forall i, f i = c) -> map f (seq 0 n) = repeat c n).
  { intros A f c n Hf. generalize 0%nat. induction n as [|n IH]; intros s; cbn; [reflexivity|]. rewrite Hf, IH. reflexivity. }
  f_equal; apply Rp; intros b.
  - unfold coherent_power_bin. rewrite M, Cmod_0. cbv zeta. destruct (b =? 0)%nat, (Nat.even N && (b =? N / 2))%nat; field.
  - unfold coherent_complex_bin. rewrite M. cbv zeta. destruct (b =? 0)%nat, (Nat.even N && (b =? N / 2))%nat; unfold Cscale, C0; cbn; f_equal; try ring; f_equal; ring.
Qed.

(** ** Phases of harmonics *)
Lemma Zmod_direct N m b : (0 < N)%nat -> (b < N)%nat -> ((Z.of_nat m - Z.of_nat b) mod Z.of_nat N = 0)%Z <-> exists q, (m = b + q * N)%nat.
Proof.
  intros HN Hb. split.
  - intros E. apply Z.mod_divide in E; [|lia]. destruct E as [q Hq]. exists (Z.to_nat q). assert (0 <= q)%Z by nia.
    apply Nat2Z.inj. rewrite Nat2Z.inj_add, Nat2Z.inj_mul, Z2Nat.id by assumption. lia.
  - intros [q ->]. replace (Z.of_nat (b + q * N) - Z.of_nat b)%Z with (Z.of_nat q * Z.of_nat N)%Z by nia. apply Z.mod_mul. lia.
Qed.
Lemma Zmod_mirror N m b : (0 < N)%nat -> ((- Z.of_nat m - Z.of_nat b) mod Z.of_nat N = 0)%Z <-> exists q, (m + b = q * N)%nat.
Proof.
  intros HN. split.
  - intros E. apply Z.mod_divide in E; [|lia]. destruct E as [q Hq]. exists (Z.to_nat (- q)). assert (q <= 0)%Z by nia.
    apply Nat2Z.inj. rewrite Nat2Z.inj_add, Nat2Z.inj_mul, Z2Nat.id by lia. lia.
  - intros [q Hq]. replace (- Z.of_nat m - Z.of_nat b)%Z with (- Z.of_nat q * Z.of_nat N)%Z by nia. apply Z.mod_mul. lia.
Qed.
Lemma no_both b N m q q' : (0 < b)%nat -> (2 * b < N)%nat -> (m + b = q * N)%nat -> (m = b + q' * N)%nat -> False.
Proof.
  intros Hb H2 H3 H4. assert (E : (2 * b = (q - q') * N)%nat) by (rewrite Nat.mul_sub_distr_r; lia).
  destruct (q - q')%nat; nia.
Qed.
Lemma cosine_dft N m a ph b : (0 < N)%nat ->
  rdft N (fun i => a * cos (2 * PI * INR m * INR i / INR N + ph)) b =
  Cplus (if ((Z.of_nat m - Z.of_nat b) mod Z.of_nat N =? 0)%Z then Cscale (a * INR N / 2) (cis ph) else C0)
        (if ((- Z.of_nat m - Z.of_nat b) mod Z.of_nat N =? 0)%Z then Cscale (a * INR N / 2) (cis (- ph)) else C0).
Proof.
  intros HN. assert (HN' : INR N <> 0) by (apply not_0_INR; lia). unfold rdft.
  rewrite (dft_ext N _ (fun n => Cplus (Cmult (Cscale (a / 2) (cis ph)) (cis (2 * PI * IZR (Z.of_nat m) * INR n / INR N)))
                                      (Cmult (Cscale (a / 2) (cis (- ph))) (cis (2 * PI * IZR (- Z.of_nat m) * INR n / INR N))))).
  - rewrite dft_plus, !dft_cmult, !dft_tone by exact HN.
    f_equal; destruct (_ =? 0)%Z; unfold Cscale, Cmult, RtoC, C0; cbn; f_equal; field.
  - intros i _. rewrite cos_exponentials. rewrite opp_IZR, <- INR_IZR_INZ. rewrite !Cscale_mult, <- !cis_plus.
    f_equal; f_equal; f_equal; field; exact HN'.
Qed.
Lemma rdft_plus N f g b : rdft N (fun i => f i + g i) b = Cplus (rdft N f b) (rdft N g b).
Proof. unfold rdft. rewrite <- dft_plus. apply dft_ext. intros. unfold RtoC, Cplus; cbn. f_equal; ring. Qed.
Lemma rdft_rsum N H (f : nat -> nat -> R) b : rdft N (fun i => rsum H (fun j => f j i)) b = csum H (fun j => rdft N (f j) b).
Proof.
  induction H as [|H IH]; cbn [rsum csum].
  - unfold rdft, dft. apply csum_zero. intros. unfold RtoC, Cmult, C0; cbn. f_equal; ring.
  - rewrite rdft_plus, IH. reflexivity.
Qed.
Lemma rdft_const N c b : (0 < b < N)%nat -> rdft N (fun _ => c) b = C0.
Proof.
  intros Hb. pose proof (cosine_dft N 0 c 0 b ltac:(lia)) as Q.
  replace (rdft N (fun _ => c) b) with (rdft N (fun i => c * cos (2 * PI * INR 0 * INR i / INR N + 0)) b).
  - rewrite Q. replace ((Z.of_nat 0 - Z.of_nat b) mod Z.of_nat N =? 0)%Z with false.
    + replace ((- Z.of_nat 0 - Z.of_nat b) mod Z.of_nat N =? 0)%Z with false; [unfold Cplus, C0; cbn; f_equal; ring|].
      symmetry. apply Z.eqb_neq. rewrite Zmod_mirror by lia. intros [q Hq]. destruct q; nia.
    + symmetry. apply Z.eqb_neq. rewrite Zmod_direct by lia. intros [q Hq]. lia.
  - unfold rdft. apply dft_ext. intros i Hi. f_equal. replace (2 * PI * INR 0 * INR i / INR N + 0) with 0.
    + rewrite cos_0. ring.
    + cbn [INR]. field. apply not_0_INR. lia.
Qed.
Lemma harmonic_record_length N k H dc a ph : length (harmonic_record N k H dc a ph) = N.
Proof. unfold harmonic_record. rewrite map_length, seq_length. reflexivity. Qed.
(** Spectrum of a sum of harmonics at a bin that exactly one of them reaches. *)
Lemma harmonic_record_bin N k H dc a ph h b (mir : bool) : (0 < N)%nat -> (1 <= h <= H)%nat -> (0 < b)%nat -> (2 * b < N)%nat ->
  (if mir then appears_mirrored N k h b else appears_direct N k h b) ->
  (forall h', (1 <= h' <= H)%nat -> h' <> h -> ~ appears N k h' b) ->
  rdft N (fun i => nth i (harmonic_record N k H dc a ph) 0) b = Cscale (a h * INR N / 2) (cis (if mir then - ph h else ph h)).
Proof.
  intros HN Hh Hb H2 Ha Hu.
  replace (rdft N (fun i => nth i (harmonic_record N k H dc a ph) 0) b) with
    (rdft N (fun i => dc + rsum H (fun j => a (S j) * cos (2 * PI * INR (S j * k) * INR i / INR N + ph (S j)))) b).
  2:{ unfold rdft. apply dft_ext. intros i Hi. f_equal. unfold harmonic_record. rewrite nth_map_seq by exact Hi. f_equal.
      apply rsum_ext. intros j _. f_equal. f_equal. f_equal. rewrite mult_INR. field. apply not_0_INR. lia. }
  rewrite rdft_plus, rdft_const by lia.
  rewrite (rdft_rsum N H (fun j i => a (S j) * cos (2 * PI * INR (S j * k) * INR i / INR N + ph (S j))) b).
  rewrite (csum_single H (h - 1)) by
    (first [lia | intros j Hj Nj; rewrite cosine_dft by exact HN;
      destruct (Z.eqb_spec ((Z.of_nat (S j * k) - Z.of_nat b) mod Z.of_nat N) 0) as [E|E];
      [exfalso; apply Zmod_direct in E; [|lia|lia]; apply (Hu (S j)); [lia|lia|left; split; [exact H2|exact E]]|];
      destruct (Z.eqb_spec ((- Z.of_nat (S j * k) - Z.of_nat b) mod Z.of_nat N) 0) as [E'|E'];
      [exfalso; apply Zmod_mirror in E'; [|lia]; apply (Hu (S j)); [lia|lia|right; split; [lia|exact E']]|];
      unfold Cplus, C0; cbn; f_equal; ring]).
  replace (S (h - 1)) with h by lia. rewrite cosine_dft by exact HN.
  destruct mir; destruct Ha as [_ [q Hq]].
  - replace ((Z.of_nat (h * k) - Z.of_nat b) mod Z.of_nat N =? 0)%Z with false.
    + replace ((- Z.of_nat (h * k) - Z.of_nat b) mod Z.of_nat N =? 0)%Z with true; [unfold Cplus, Cscale, C0; cbn; f_equal; ring|].
      symmetry. apply Z.eqb_eq. apply Zmod_mirror; [lia|]. exists q. exact Hq.
    + symmetry. apply Z.eqb_neq. rewrite Zmod_direct by lia. intros [q' Hq']. apply (no_both b N (h * k) q q'); assumption || lia.
  - replace ((Z.of_nat (h * k) - Z.of_nat b) mod Z.of_nat N =? 0)%Z with true.
    + replace ((- Z.of_nat (h * k) - Z.of_nat b) mod Z.of_nat N =? 0)%Z with false; [unfold Cplus, Cscale, C0; cbn; f_equal; ring|].
      symmetry. apply Z.eqb_neq. rewrite Zmod_mirror by lia. intros [q' Hq']. apply (no_both b N (h * k) q' q); assumption || lia.
    + symmetry. apply Z.eqb_eq. apply Zmod_direct; [lia|lia|]. exists q. exact Hq.
Qed.

Lemma align_harmonic N k H dc a ph x h b (mir : bool) : (0 < k)%nat -> (2 * k < N)%nat -> 0 < a 1%nat -> separate N k H ->
  (1 <= h <= H)%nat -> (0 < b)%nat -> (2 * b < N)%nat ->
  (if mir then appears_mirrored N k h b else appears_direct N k h b) ->
  align_spectrum (rfft (harmonic_record N k H dc a ph)) k x N b =
  Cscale (a h * INR N / 2 * ((a 1%nat * INR N / 2) / (a 1%nat * INR N / 2 + / 10 ^ 20)) ^ h)
         (cis ((if mir then - (1) else 1) * (ph h - INR h * ph 1%nat))).
Proof.
  intros Hk Hk2 Ha1 Hsep Hh Hb Hb2 Hap.
  assert (Hap' : appears N k h b) by (destruct mir; [right|left]; exact Hap).
  assert (HNp : 0 < INR N) by (apply lt_0_INR; lia).
  rewrite align_closed by lia.
  assert (F : first_order k N N b = Some h).
  { destruct (harmonic_first N k b ltac:(lia) Hb ltac:(exists h; split; [lia|exact Hap'])) as [h0 E0]. rewrite E0. f_equal.
    destruct (first_order_some _ _ _ _ _ E0) as [Hr [Hl Hf]].
    assert (Hle : (h0 <= h)%nat). { destruct (Nat.le_gt_cases h0 h) as [L|L]; [exact L|]. exfalso. apply (Hf h ltac:(lia)). apply appears_landing; [lia|exact Hb|exact Hap']. }
    destruct (Nat.eq_dec h0 h) as [E|E]; [exact E|]. exfalso. apply (Hsep h h0 b Hh ltac:(lia) ltac:(lia) Hap').
    destruct (landing_appears N k h0 ltac:(lia)) as [L1 L2]. rewrite Hl in L1, L2. destruct (snd (landing k N h0)); [right|left]; auto. }
  rewrite F. unfold rfft. rewrite harmonic_record_length.
  rewrite (harmonic_record_bin N k H dc a ph h b mir) by (try assumption; try lia; intros h' H1 H2 Q; apply (Hsep h h' b Hh H1 ltac:(lia) Hap' Q)).
  assert (E1 : rdft N (fun i => nth i (harmonic_record N k H dc a ph) 0) k = Cscale (a 1%nat * INR N / 2) (cis (ph 1%nat))).
  { apply (harmonic_record_bin N k H dc a ph 1 k false); try lia.
    - split; [lia|]. exists 0%nat. lia.
    - intros h' H1 H2 Q. apply (Hsep 1%nat h' k ltac:(lia) H1 ltac:(lia)); [|exact Q]. left. split; [lia|]. exists 0%nat. lia. }
  assert (M1 : Cmod (rdft N (fun i => nth i (harmonic_record N k H dc a ph) 0) k) = a 1%nat * INR N / 2).
  { rewrite E1, Cmod_scale, Cmod_cis, Rabs_right; [ring|]. apply Rle_ge. nra. }
  rewrite (align_phasor_polar _ (ph 1%nat) (a 1%nat * INR N / 2)) by (try exact E1; nra).
  unfold shrink. rewrite M1. rewrite cpow_scale, cpow_cis, rot_scale, rot_cis.
  assert (Lm : snd (landing k N h) = mir).
  { destruct (landing_appears N k h ltac:(lia)) as [L1 L2]. rewrite (appears_landing N k h b) in L1, L2 by (try lia; exact Hap').
    destruct mir, (snd (landing k N h)); try reflexivity; exfalso.
    - destruct (L1 eq_refl) as [_ [q Hq]]. destruct Hap as [_ [q' Hq']]. apply (no_both b N (h * k) q' q); assumption || lia.
    - destruct (L2 eq_refl) as [_ [q Hq]]. destruct Hap as [_ [q' Hq']]. apply (no_both b N (h * k) q q'); assumption || lia. }
  rewrite Lm. rewrite Cscale_mult, (Cscale_RtoC _ (cis _)) at 1.
  set (g := (a 1%nat * INR N / 2 / (a 1%nat * INR N / 2 + / 10 ^ 20)) ^ h).
  assert (Q : cis ((if mir then - (1) else 1) * (ph h - INR h * ph 1%nat)) =
    Cmult (cis (if mir then - ph h else ph h)) (cis (if mir then - (INR h * - ph 1%nat) else INR h * - ph 1%nat))).
  { rewrite <- cis_plus. f_equal. destruct mir; ring. }
  rewrite Q. unfold Cscale, Cmult, RtoC; cbn. f_equal; ring.
Qed.
(** Runs that contain the same harmonics with arbitrary (also fractional) time offsets tau
    average to one spectrum: harmonic h appears with half its amplitude (up to the guard) and with
    its phase relative to the fundamental, phi_h - h*phi_1, when it is not folded. *)
Lemma c107_phases N nb k H dc a ph taus h b : taus <> [] -> (2 * k < N)%nat -> 0 < a 1%nat -> separate N k H ->
  let rows := map (fun tau => harmonic_record N k H dc a (fun j => ph j + INR j * tau)) taus in
  Forall (fun r => heard r /\ strongest_bin N nb r k) rows ->
  (1 <= h <= H)%nat -> (1 <= b)%nat -> (2 * b < N)%nat ->
  let rho := (a 1%nat * INR N / 2) / (a 1%nat * INR N / 2 + / 10 ^ 20) in
  (appears_direct N k h b ->
   nth b (snd (coherent_average N nb rows)) C0 = Cscale (a h / 2 * rho ^ h) (cis (ph h - INR h * ph 1%nat))) /\
  (appears_mirrored N k h b ->
   nth b (snd (coherent_average N nb rows)) C0 = Cscale (a h / 2 * rho ^ h) (cis (- (ph h - INR h * ph 1%nat)))).
Proof.
  intros Hne Hk2 Ha1 Hsep rows Hrows Hh Hb Hb2 rho.
  assert (Kp : (0 < k)%nat). { destruct taus as [|tau t]; [contradiction|]. inversion Hrows as [|? ? [_ [? _]] _]. lia. }
  assert (G : forall mir : bool, (if mir then appears_mirrored N k h b else appears_direct N k h b) ->
    nth b (snd (coherent_average N nb rows)) C0 = Cscale (a h / 2 * rho ^ h) (cis ((if mir then - (1) else 1) * (ph h - INR h * ph 1%nat)))).
  { intros mir Hap. destruct (coherent_nth N nb rows b ltac:(lia)) as [_ ->]. unfold coherent_complex_bin. cbv zeta.
    replace (b =? 0)%nat with false by (symmetry; apply Nat.eqb_neq; lia).
    replace (Nat.even N && (b =? N / 2))%nat with false.
    2:{ symmetry. apply Bool.andb_false_iff. destruct (Nat.even N) eqn:E; [right|left; reflexivity].
        apply Nat.even_spec in E. destruct E as [m ->]. rewrite Nat.mul_comm, Nat.div_mul by lia. apply Nat.eqb_neq. lia. }
    rewrite (mean_const N _ b (Cscale (a h * INR N / 2 * rho ^ h) (cis ((if mir then - (1) else 1) * (ph h - INR h * ph 1%nat))))).
    - rewrite Cscale_scale. f_equal. field. apply not_0_INR. lia.
    - lia.
    - destruct taus as [|tau t]; [contradiction|]. cbn [map] in rows. unfold rows in *. inversion Hrows as [|? ? [Hh1 Hs1] _]. subst.
      cbn [valid_runs]. rewrite (aligned_run_is N nb _ k) by (try assumption; apply harmonic_record_length). discriminate.
    - clear Hne. unfold rows in *. clear rows. induction taus as [|tau t IH]; cbn [map valid_runs] in *; [intros ? []|].
      inversion Hrows as [|? ? [Hh1 Hs1] Ht]. subst.
      rewrite (aligned_run_is N nb _ k) by (try assumption; apply harmonic_record_length).
      intros al [<-|Hal]; [|apply IH; assumption].
      rewrite (align_harmonic N k H dc a _ _ h b mir) by (assumption || lia). f_equal. f_equal. f_equal. cbn [INR]. ring. }
  split; intros Hap.
  - rewrite (G false Hap). f_equal. f_equal. ring.
  - rewrite (G true Hap). f_equal. f_equal. ring.
Qed.

(** *** Memoryless distortion *)
Definition trig_poly (d : nat) (f : R -> R) : Prop :=
  exists c : nat -> R, forall t, f t = c O + rsum d (fun j => c (S j) * cos (INR (S j) * t)).
Lemma trig_plus d f g : trig_poly d f -> trig_poly d g -> trig_poly d (fun t => f t + g t).
Proof.
  intros [c Hc] [e He]. exists (fun j => c j + e j). intros t. rewrite Hc, He.
  rewrite (rsum_ext d (fun j => (c (S j) + e (S j)) * cos (INR (S j) * t)) (fun j => c (S j) * cos (INR (S j) * t) + e (S j) * cos (INR (S j) * t))) by (intros; ring).
  rewrite rsum_plus. ring.
Qed.
Lemma trig_scale d k f : trig_poly d f -> trig_poly d (fun t => k * f t).
Proof.
  intros [c Hc]. exists (fun j => k * c j). intros t. rewrite Hc, Rmult_plus_distr_l, <- rsum_scale. f_equal.
  apply rsum_ext. intros. ring.
Qed.
Lemma trig_ext d f g : (forall t, f t = g t) -> trig_poly d f -> trig_poly d g.
Proof. intros E [c Hc]. exists c. intros t. rewrite <- E. apply Hc. Qed.
Lemma trig_cos d m : (m <= d)%nat -> trig_poly d (fun t => cos (INR m * t)).
Proof.
  intros Hm. exists (fun j => if (j =? m)%nat then 1 else 0). intros t. destruct m as [|m].
  - cbn [Nat.eqb INR]. rewrite Rmult_0_l, cos_0. rewrite (rsum_ext d _ (fun _ => 0)) by (intros; ring).
    assert (Z0 : rsum d (fun _ => 0) = 0) by (clear; induction d; cbn; lra). lra.
  - cbn [Nat.eqb]. rewrite Rplus_0_l. symmetry.
    replace (cos (INR (S m) * t)) with ((fun j => (if (j =? m)%nat then 1 else 0) * cos (INR (S j) * t)) m) by (cbv beta; rewrite Nat.eqb_refl; ring).
    assert (E : forall n, (m < n)%nat -> rsum n (fun j => (if (j =? m)%nat then 1 else 0) * cos (INR (S j) * t)) = (fun j => (if (j =? m)%nat then 1 else 0) * cos (INR (S j) * t)) m).
    { intros n. induction n as [|n IH]; intros Hn; [lia|]. cbn [rsum]. destruct (Nat.eq_dec n m) as [->|Nn].
      - rewrite (rsum_ext m _ (fun _ => 0)).
        + assert (Z0 : rsum m (fun _ => 0) = 0) by (clear; induction m; cbn; lra). rewrite Z0. ring.
        + intros i Hi. replace (i =? m)%nat with false by (symmetry; apply Nat.eqb_neq; lia). ring.
      - rewrite IH by lia. replace (n =? m)%nat with false by (symmetry; apply Nat.eqb_neq; lia). ring. }
    apply E. lia.
Qed.
Lemma trig_rsum d n (f : nat -> R -> R) : (forall i, (i < n)%nat -> trig_poly d (f i)) -> trig_poly d (fun t => rsum n (fun i => f i t)).
Proof.
  induction n as [|n IH]; intros H.
  - cbn [rsum]. exists (fun _ => 0). intros t. rewrite (rsum_ext d _ (fun _ => 0)) by (intros; ring).
    assert (Z0 : rsum d (fun _ => 0) = 0) by (clear; induction d; cbn; lra). lra.
  - cbn [rsum]. apply trig_plus; [apply IH; intros; apply H; lia|apply H; lia].
Qed.
Lemma trig_mul_cos d f : trig_poly d f -> trig_poly (S d) (fun t => cos t * f t).
Proof.
  intros [c Hc].
  apply (trig_ext _ (fun t => c O * cos (INR 1 * t) + rsum d (fun j => c (S j) / 2 * cos (INR (S (S j)) * t) + c (S j) / 2 * cos (INR j * t)))).
  - intros t. rewrite Hc, Rmult_plus_distr_l, <- rsum_scale. change (INR 1) with 1. rewrite Rmult_1_l. f_equal; [ring|].
    apply rsum_ext. intros j _.
    replace (INR (S (S j)) * t) with (INR (S j) * t + t) by (rewrite (S_INR (S j)); ring).
    replace (INR j * t) with (INR (S j) * t - t) by (rewrite S_INR; ring).
    rewrite cos_plus, cos_minus. field.
  - apply trig_plus; [apply trig_scale, trig_cos; lia|]. apply (trig_rsum (S d) d (fun j t => c (S j) / 2 * cos (INR (S (S j)) * t) + c (S j) / 2 * cos (INR j * t))).
    intros i Hi. apply trig_plus; apply trig_scale, trig_cos; lia.
Qed.
Lemma trig_weaken d d' f : (d <= d')%nat -> trig_poly d f -> trig_poly d' f.
Proof.
  intros Hd [c Hc]. apply (trig_ext _ (fun t => c O * cos (INR 0 * t) + rsum d (fun j => c (S j) * cos (INR (S j) * t)))).
  - intros t. rewrite Hc. cbn [INR]. rewrite Rmult_0_l, cos_0. ring.
  - apply trig_plus; [apply trig_scale, trig_cos; lia|]. apply (trig_rsum d' d (fun j t => c (S j) * cos (INR (S j) * t))).
    intros i Hi. apply trig_scale, trig_cos; lia.
Qed.
Lemma trig_pow A j : trig_poly j (fun t => (A * cos t) ^ j).
Proof.
  induction j as [|j IH].
  - cbn [pow]. exists (fun _ => 1). intros t. cbn [rsum]. ring.
  - apply (trig_ext _ (fun t => A * (cos t * (A * cos t) ^ j))); [intros; cbn [pow]; ring|]. apply trig_scale, trig_mul_cos, IH.
Qed.
Lemma memoryless_is_harmonic N k c A ph : exists a, memoryless_record N k c A ph =
  harmonic_record N k (length c - 1) (a O) a (fun j => INR j * ph).
Proof.
  assert (T : trig_poly (length c - 1) (fun t => rsum (length c) (fun j => nth j c 0 * (A * cos t) ^ j))).
  { apply (trig_rsum (length c - 1) (length c) (fun j t => nth j c 0 * (A * cos t) ^ j)). intros i Hi. apply trig_scale.
    apply (trig_weaken i); [lia|]. apply trig_pow. }
  destruct T as [a Ha]. exists a. unfold memoryless_record, harmonic_record. apply map_ext. intros i. rewrite Ha. f_equal.
  apply rsum_ext. intros j _. f_equal. f_equal. ring.
Qed.

(** A negative fundamental amplitude is half a period of delay. *)
Lemma harmonic_flip N k H dc a ph :
  harmonic_record N k H dc a (fun j => INR j * ph) =
  harmonic_record N k H dc (fun j => (-1) ^ j * a j) (fun j => INR j * (ph + PI)).
Proof.
  unfold harmonic_record. apply map_ext. intros i. f_equal. apply rsum_ext. intros j _. cbv beta.
  set (m := S j). set (th := INR m * (2 * PI * INR k * INR i / INR N)).
  replace (th + INR m * (ph + PI)) with (th + INR m * ph + INR m * PI) by ring.
  assert (E : forall m x, cos (x + INR m * PI) = (-1) ^ m * cos x).
  { clear. intros m. induction m as [|m IH]; intros x; [cbn; rewrite Rmult_0_l, Rplus_0_r; ring|].
    rewrite S_INR. replace (x + (INR m + 1) * PI) with (x + INR m * PI + PI) by ring. rewrite neg_cos, IH. cbn [pow]. ring. }
  rewrite E. rewrite <- Rmult_assoc. replace ((-1) ^ m * a m * (-1) ^ m) with (a m * ((-1) ^ m * (-1) ^ m)) by ring.
  rewrite <- Rpow_mult_distr. replace (-1 * -1) with 1 by ring. rewrite pow1. ring.
Qed.
(** A tone distorted by any memoryless polynomial whose harmonics fall on different bins: after
    alignment every harmonic is real, that is at 0 or 180 degrees, folded or not. *)
Lemma c107_memoryless N nb k c A ph h b :
  let r := memoryless_record N k c A ph in
  heard r -> strongest_bin N nb r k -> (2 * k < N)%nat -> separate N k (length c - 1) ->
  (1 <= h <= length c - 1)%nat -> (1 <= b)%nat -> (2 * b < N)%nat -> appears N k h b ->
  Im (nth b (snd (coherent_average N nb [r])) C0) = 0.
Proof.
  intros r Hh Hs Hk2 Hsep Hr Hb Hb2 Hap. destruct (memoryless_is_harmonic N k c A ph) as [a Ea].
  unfold r in *. rewrite Ea in *. clear Ea. set (H := (length c - 1)%nat) in *. clearbody H. set (dc := a O) in *. clearbody dc.
  assert (G : forall a ph, 0 < a 1%nat -> heard (harmonic_record N k H dc a (fun j => INR j * ph)) ->
            strongest_bin N nb (harmonic_record N k H dc a (fun j => INR j * ph)) k ->
            Im (nth b (snd (coherent_average N nb [harmonic_record N k H dc a (fun j => INR j * ph)])) C0) = 0).
  { clear a ph Hh Hs r A c. intros a ph Ha Hh Hs.
    pose proof (c107_phases N nb k H dc a (fun _ => 0) [ph] h b) as Q. cbv zeta in Q. cbn [map] in Q.
    replace (harmonic_record N k H dc a (fun j => 0 + INR j * ph)) with (harmonic_record N k H dc a (fun j => INR j * ph)) in Q.
    2:{ unfold harmonic_record. apply map_ext. intros i. f_equal. apply rsum_ext. intros j _. rewrite Rplus_0_l. reflexivity. }
    destruct Q as [Q1 Q2]; try assumption; [discriminate|constructor; [split; assumption|constructor]|].
    destruct Hap as [Hap|Hap]; [rewrite (Q1 Hap)|rewrite (Q2 Hap)]; unfold Cscale, cis, Im; cbn [snd].
    - replace (0 - INR h * 0) with 0 by ring. rewrite sin_0. ring.
    - replace (- (0 - INR h * 0)) with 0 by ring. rewrite sin_0. ring. }
  destruct (Rtotal_order (a 1%nat) 0) as [L|[L|L]].
  - rewrite harmonic_flip in *. apply G; try assumption. cbn. lra.
  - assert (Np : (0 < N)%nat) by lia. assert (Kp : (0 < k)%nat) by (destruct Hs as [? _]; lia).
    destruct (coherent_nth N nb [harmonic_record N k H dc a (fun j => INR j * ph)] b ltac:(lia)) as [_ ->].
    unfold coherent_complex_bin. cbv zeta. rewrite (mean_const N _ b C0).
    + destruct (b =? 0)%nat, (Nat.even N && (b =? N / 2))%nat; unfold Cscale, C0, Im; cbn; ring.
    + exact Np.
    + cbn [valid_runs]. rewrite (aligned_run_is N nb _ k) by (try assumption; apply harmonic_record_length). discriminate.
    + intros al. cbn [valid_runs]. rewrite (aligned_run_is N nb _ k) by (try assumption; apply harmonic_record_length).
      intros [<-|[]]. rewrite align_closed by lia.
      destruct (harmonic_first N k b Np ltac:(lia) ltac:(exists h; split; [lia|exact Hap])) as [h0 E0]. rewrite E0.
      replace (rfft (harmonic_record N k H dc a (fun j => INR j * ph)) k) with C0.
      * replace (align_phasor C0) with C0 by (unfold align_phasor, Cconj, Cscale, C0; cbn; f_equal; ring).
        destruct (first_order_some _ _ _ _ _ E0) as [Hr0 _]. destruct h0 as [|h0]; [lia|]. cbn [cpow].
        replace (Cmult (cpow C0 h0) C0) with C0 by ring.
        destruct (snd (landing k N (S h0))); cbn [rot]; [replace (Cconj C0) with C0 by (unfold Cconj, C0; cbn; f_equal; ring)|]; ring.
      * unfold rfft. rewrite harmonic_record_length.
        rewrite (harmonic_record_bin N k H dc a _ 1 k false) by
          (first [lia | split; [lia|exists 0%nat; lia] | intros h' H1 H2 Q; apply (Hsep 1%nat h' k ltac:(lia) H1 ltac:(lia)); [left; split; [lia|exists 0%nat; lia]|exact Q]]).
        rewrite L. replace (0 * INR N / 2) with 0 by field. symmetry. apply Cscale_0.
  - apply G; assumption.
Qed.

(** ** Examples *)
Lemma harmonic_record_empty N k H dc a ph b : (0 < b < N)%nat ->
  (forall h, (1 <= h <= H)%nat -> (forall q, (h * k <> b + q * N)%nat) /\ (forall q, (h * k + b <> q * N)%nat)) ->
  rdft N (fun i => nth i (harmonic_record N k H dc a ph) 0) b = C0.
Proof.
  intros Hb Hu.
  replace (rdft N (fun i => nth i (harmonic_record N k H dc a ph) 0) b) with
    (rdft N (fun i => dc + rsum H (fun j => a (S j) * cos (2 * PI * INR (S j * k) * INR i / INR N + ph (S j)))) b).
  2:{ unfold rdft. apply dft_ext. intros i Hi. f_equal. unfold harmonic_record. rewrite nth_map_seq by exact Hi. f_equal.
      apply rsum_ext. intros j _. f_equal. f_equal. f_equal. rewrite mult_INR. field. apply not_0_INR. lia. }
  rewrite rdft_plus, rdft_const by lia.
  rewrite (rdft_rsum N H (fun j i => a (S j) * cos (2 * PI * INR (S j * k) * INR i / INR N + ph (S j))) b).
  rewrite csum_zero; [unfold Cplus, C0; cbn; f_equal; ring|]. intros j Hj. rewrite cosine_dft by lia.
  destruct (Hu (S j) ltac:(lia)) as [U1 U2].
  destruct (Z.eqb_spec ((Z.of_nat (S j * k) - Z.of_nat b) mod Z.of_nat N) 0) as [E|E].
  { exfalso. apply Zmod_direct in E; [|lia|lia]. destruct E as [q Hq]. apply (U1 q Hq). }
  destruct (Z.eqb_spec ((- Z.of_nat (S j * k) - Z.of_nat b) mod Z.of_nat N) 0) as [E'|E'].
  { exfalso. apply Zmod_mirror in E'; [|lia]. destruct E' as [q Hq]. apply (U2 q Hq). }
  unfold Cplus, C0; cbn; f_equal; ring.
Qed.
Lemma orders12 h : (1 <= h <= 2)%nat -> h = 1%nat \/ h = 2%nat.
Proof. lia. Qed.
Section Folded.
  Context (dc a2 p2 : R) (Ha2 : 0 < a2 < 1).
  Definition fold_amp (j : nat) : R := if (j =? 2)%nat then a2 else 1.
  Definition fold_ph (j : nat) : R := if (j =? 2)%nat then p2 else 0.
  (** A tone at bin 3 of 8 with a second harmonic, which folds to bin 2. *)
  Definition folded : list R := harmonic_record 8 3 2 dc fold_amp fold_ph.
  Lemma fold_separate : separate 8 3 2.
  Proof.
    intros h h' b Hh Hh' Nh Ha Hb.
    destruct Ha as [[Ha2' [q Hq]]|[Ha2' [q Hq]]]; destruct Hb as [[Hb2 [q' Hq']]|[Hb2 [q' Hq']]]; destruct (orders12 h Hh) as [->| ->], (orders12 h' Hh') as [->| ->]; lia.
  Qed.
  Lemma fold_bins : rdft 8 (fun i => nth i folded 0) 1 = C0 /\
    rdft 8 (fun i => nth i folded 0) 2 = Cscale (a2 * 4) (cis (- p2)) /\
    rdft 8 (fun i => nth i folded 0) 3 = Cscale 4 (cis 0) /\ rdft 8 (fun i => nth i folded 0) 4 = C0.
  Proof.
    split; [|split; [|split]].
    - apply harmonic_record_empty; [lia|]. intros h Hh. destruct (orders12 h Hh) as [->| ->]; split; intros q; lia.
    - unfold folded. rewrite (harmonic_record_bin 8 3 2 dc fold_amp fold_ph 2 2 true); try lia.
      + cbn [fold_amp fold_ph Nat.eqb]. f_equal. replace (INR 8) with 8 by (cbn; lra). field.
      + split; [lia|]. exists 1%nat. reflexivity.
      + intros h' H1 H2 Q. assert (h' = 1%nat) by lia. subst. destruct Q as [[_ [q Hq]]|[_ [q Hq]]]; lia.
    - unfold folded. rewrite (harmonic_record_bin 8 3 2 dc fold_amp fold_ph 1 3 false); try lia.
      + cbn [fold_amp fold_ph Nat.eqb]. f_equal. replace (INR 8) with 8 by (cbn; lra). field.
      + split; [lia|]. exists 0%nat. reflexivity.
      + intros h' H1 H2 Q. assert (h' = 2%nat) by lia. subst. destruct Q as [[_ [q Hq]]|[_ [q Hq]]]; lia.
    - apply harmonic_record_empty; [lia|]. intros h Hh. destruct (orders12 h Hh) as [->| ->]; split; intros q; lia.
  Qed.
  Lemma fold_strongest : strongest_bin 8 5 folded 3.
  Proof.
    destruct fold_bins as [B1 [B2 [B3 B4]]].
    assert (M3 : Cmod (Cscale 4 (cis 0)) = 4) by (rewrite Cmod_scale, Cmod_cis, Rabs_right by lra; ring).
    assert (M2 : Cmod (Cscale (a2 * 4) (cis (- p2))) < 4) by (rewrite Cmod_scale, Cmod_cis, Rabs_right by lra; lra).
    split; [lia|]. split; [lia|]. cbv zeta. split; intros j Hj.
    - intros _. assert (C : j = 1%nat \/ j = 2%nat \/ j = 3%nat \/ j = 4%nat) by lia.
      destruct C as [->|[->|[->| ->]]]; rewrite ?B1, ?B2, ?B4, B3, M3; rewrite ?Cmod_0; lra.
    - assert (C : j = 1%nat \/ j = 2%nat) by lia. destruct C as [->| ->]; rewrite ?B1, ?B2, B3, M3, ?Cmod_0; lra.
  Qed.
End Folded.

Lemma cos_quarter_0 : cos (PI / 2) = 0 /\ sin (PI / 2) = 1.
Proof. split; [apply cos_PI2|apply sin_PI2]. Qed.
Lemma ten_small : / 10 ^ 10 <= 1.
Proof. rewrite <- Rinv_1. apply Rinv_le_contravar; [lra|]. rewrite <- (pow1 10). apply pow_incr. lra. Qed.
Definition fold_record : list R := folded 0 (1 / 2) (PI / 2).
Lemma fold_heard : heard fold_record.
Proof.
  exists 1. split.
  - replace 1 with (nth 0 fold_record 0).
    + apply nth_In. unfold fold_record, folded. rewrite harmonic_record_length. lia.
    + unfold fold_record, folded, harmonic_record. rewrite nth_map_seq by lia. cbn [rsum]. unfold fold_amp, fold_ph. cbn [Nat.eqb INR].
      replace (1 * (2 * PI * (1 + 1 + 1) * 0 / (1 + 1 + 1 + 1 + 1 + 1 + 1 + 1)) + 0) with 0 by field.
      replace ((1 + 1) * (2 * PI * (1 + 1 + 1) * 0 / (1 + 1 + 1 + 1 + 1 + 1 + 1 + 1)) + PI / 2) with (PI / 2) by field.
      rewrite cos_0, cos_PI2. ring.
  - rewrite Rabs_R1. apply ten_small.
Qed.
Lemma fold_length : length fold_record = 8%nat.
Proof. apply harmonic_record_length. Qed.
Lemma fold_ok : strongest_bin 8 5 fold_record 3.
Proof. apply fold_strongest. lra. Qed.
(** Three copies of a tone with a folded second harmonic, starting 0, 3 and 4 samples in. *)
Lemma c105_coprime_ex :
  coherent_average 8 5 [rotated 0 fold_record; rotated 3 fold_record; rotated 4 fold_record] = coherent_average 8 5 [fold_record] /\
  rotated 4 fold_record <> fold_record.
Proof.
  split.
  - apply (c105_coprime 8 5 fold_record 3 [0; 3; 4]%nat); try reflexivity; try discriminate; [apply fold_heard|apply fold_ok].
  - intros E. pose proof (rfft_rotated 4 fold_record 3) as Q. rewrite E, fold_length in Q. unfold rfft in Q. rewrite fold_length in Q.
    destruct (fold_bins 0 (1 / 2) (PI / 2)) as [_ [_ [B3 _]]]. fold fold_record in B3. rewrite B3 in Q.
    rewrite cis_0 in Q. unfold Cscale, C1, Cmult, cis in Q. cbn [fst snd] in Q. injection Q as Q1 _.
    replace (2 * PI * (1 + 1 + 1) * (1 + 1 + 1 + 1) / (1 + 1 + 1 + 1 + 1 + 1 + 1 + 1)) with (PI + 2 * INR 1 * PI) in Q1 by (cbn [INR]; field).
    rewrite cos_period, cos_PI in Q1. lra.
Qed.
(** Runs delayed by 0 and by 1/10 radian of the fundamental: bin 2 holds the folded second
    harmonic with the sign of its phase reversed. *)
Lemma c107_phases_ex : 
  let rho := (1 * INR 8 / 2) / (1 * INR 8 / 2 + / 10 ^ 20) in
  nth 2 (snd (coherent_average 8 5 [fold_record])) C0 = Cscale (1 / 2 / 2 * rho ^ 2) (cis (- (PI / 2 - INR 2 * 0))).
Proof.
  pose proof (c107_phases 8 5 3 2 0 (fold_amp (1 / 2)) (fold_ph (PI / 2)) [0] 2 2) as Q. cbv zeta in Q. cbn [map] in Q.
  replace (harmonic_record 8 3 2 0 (fold_amp (1 / 2)) (fun j => fold_ph (PI / 2) j + INR j * 0)) with fold_record in Q.
  2:{ unfold fold_record, folded, harmonic_record. apply map_ext. intros i. f_equal. apply rsum_ext. intros j _. f_equal. f_equal. ring. }
  destruct Q as [_ Q]; try lia; try discriminate.
  - cbn. lra.
  - apply fold_separate.
  - constructor; [split; [apply fold_heard|apply fold_ok]|constructor].
  - cbv zeta. rewrite Q; [reflexivity|]. split; [lia|]. exists 1%nat. reflexivity.
Qed.
(** The documented reading (the aligned spectrum shows phi_h - h*phi_1) fails for a harmonic
    that folds an odd number of times. *)
Lemma c111_folded_phase_refuted : exists N nb k H dc a ph h b,
  (2 * k < N)%nat /\ 0 < a 1%nat /\ separate N k H /\ (1 <= h <= H)%nat /\ (1 <= b)%nat /\ (2 * b < N)%nat /\ appears N k h b /\
  heard (harmonic_record N k H dc a ph) /\ strongest_bin N nb (harmonic_record N k H dc a ph) k /\
  forall m, 0 <= m -> nth b (snd (coherent_average N nb [harmonic_record N k H dc a ph])) C0 <> Cscale m (cis (ph h - INR h * ph 1%nat)).
Proof.
  exists 8%nat, 5%nat, 3%nat, 2%nat, 0, (fold_amp (1 / 2)), (fold_ph (PI / 2)), 2%nat, 2%nat.
  split; [lia|]. split; [cbn; lra|]. split; [apply fold_separate|]. split; [lia|]. split; [lia|]. split; [lia|].
  split; [right; split; [lia|exists 1%nat; reflexivity]|]. split; [apply fold_heard|]. split; [apply fold_ok|].
  intros m Hm. fold (folded 0 (1 / 2) (PI / 2)). fold fold_record. pose proof c107_phases_ex as E. cbv zeta in E. rewrite E. clear E.
  cbn [fold_ph Nat.eqb]. replace (PI / 2 - INR 2 * 0) with (PI / 2) by ring. rewrite cis_neg. unfold cis. rewrite cos_PI2, sin_PI2.
  unfold Cscale, Cconj; cbn [fst snd]. intros Q. injection Q as _ Q.
  assert (0 < (1 * INR 8 / 2 / (1 * INR 8 / 2 + / 10 ^ 20)) ^ 2).
  { apply pow_lt. pose proof eps_pos. assert (0 < 1 * INR 8 / 2) by (cbn; lra). apply Rmult_lt_0_compat; [assumption|]. apply Rinv_0_lt_compat. lra. }
  nra.
Qed.

(** A strong tone at bin 2 of 8 and a weaker, unrelated one at bin 1. *)
Definition two_amp (j : nat) : R := if (j =? 2)%nat then 1 else 1 / 4.
Definition two_tones : list R := harmonic_record 8 1 2 0 two_amp (fun _ => 0).
Lemma two_length : length two_tones = 8%nat. Proof. apply harmonic_record_length. Qed.
Lemma two_bins : rdft 8 (fun i => nth i two_tones 0) 1 = RtoC 1 /\ rdft 8 (fun i => nth i two_tones 0) 2 = RtoC 4 /\
  rdft 8 (fun i => nth i two_tones 0) 3 = C0 /\ rdft 8 (fun i => nth i two_tones 0) 4 = C0.
Proof.
  split; [|split; [|split]].
  - unfold two_tones. rewrite (harmonic_record_bin 8 1 2 0 two_amp (fun _ => 0) 1 1 false); try lia.
    + rewrite cis_0. cbn [two_amp Nat.eqb]. unfold Cscale, C1, RtoC; cbn. f_equal; field.
    + split; [lia|]. exists 0%nat. reflexivity.
    + intros h' H1 H2 Q. assert (h' = 2%nat) by lia. subst. destruct Q as [[_ [q Hq]]|[_ [q Hq]]]; lia.
  - unfold two_tones. rewrite (harmonic_record_bin 8 1 2 0 two_amp (fun _ => 0) 2 2 false); try lia.
    + rewrite cis_0. cbn [two_amp Nat.eqb]. unfold Cscale, C1, RtoC; cbn. f_equal; field.
    + split; [lia|]. exists 0%nat. reflexivity.
    + intros h' H1 H2 Q. assert (h' = 1%nat) by lia. subst. destruct Q as [[_ [q Hq]]|[_ [q Hq]]]; lia.
  - apply harmonic_record_empty; [lia|]. intros h Hh. destruct (orders12 h Hh) as [->| ->]; split; intros q; lia.
  - apply harmonic_record_empty; [lia|]. intros h Hh. destruct (orders12 h Hh) as [->| ->]; split; intros q; lia.
Qed.
Lemma two_strongest : strongest_bin 8 5 two_tones 2.
Proof.
  destruct two_bins as [B1 [B2 [B3 B4]]].
  assert (M1 : Cmod (RtoC 1) = 1) by (rewrite Cmod_RtoC, Rabs_right; lra).
  assert (M2 : Cmod (RtoC 4) = 4) by (rewrite Cmod_RtoC, Rabs_right; lra).
  split; [lia|]. split; [lia|]. cbv zeta. split; intros j Hj.
  - intros _. assert (C : j = 1%nat \/ j = 2%nat \/ j = 3%nat \/ j = 4%nat) by lia.
    destruct C as [->|[->|[->| ->]]]; rewrite ?B1, ?B3, ?B4, B2, M2, ?M1, ?Cmod_0; lra.
  - assert (j = 1%nat) by lia. subst. rewrite B1, B2, M1, M2. lra.
Qed.
Lemma two_heard : heard two_tones.
Proof.
  exists (5 / 4). split.
  - replace (5 / 4) with (nth 0 two_tones 0).
    + apply nth_In. rewrite two_length. lia.
    + unfold two_tones, harmonic_record. rewrite nth_map_seq by lia. cbn [rsum]. unfold two_amp. cbn [Nat.eqb INR].
      replace (1 * (2 * PI * 1 * 0 / (1 + 1 + 1 + 1 + 1 + 1 + 1 + 1)) + 0) with 0 by field.
      replace ((1 + 1) * (2 * PI * 1 * 0 / (1 + 1 + 1 + 1 + 1 + 1 + 1 + 1)) + 0) with 0 by field.
      rewrite cos_0. field.
  - rewrite Rabs_right by lra. pose proof ten_small. lra.
Qed.
Lemma two_first : first_order 2 8 8 1 = None. Proof. reflexivity. Qed.
Lemma two_rotated b : rfft (rotated 4 two_tones) b = Cmult (rfft two_tones b) (cis (PI * INR b)).
Proof. rewrite rfft_rotated, two_length. f_equal. f_equal. cbn [INR]. field. Qed.
Lemma two_cancel x : align_spectrum (rfft (rotated 4 two_tones)) 2 x 8 1 = Copp (align_spectrum (rfft two_tones) 2 x 8 1).
Proof.
  rewrite !align_closed by lia. rewrite two_first. rewrite !two_rotated.
  replace (cis (PI * INR 1)) with (Copp C1).
  - replace (cis (PI * INR 2)) with C1.
    + replace (Cmult (rfft two_tones 2) C1) with (rfft two_tones 2) by ring. ring.
    + symmetry. replace (PI * INR 2) with (2 * PI * IZR 1) by (cbn [INR]; ring). apply cis_2kPI.
  - unfold cis. replace (PI * INR 1) with PI by (cbn; ring). rewrite cos_PI, sin_PI. unfold Copp, C1; cbn. f_equal; ring.
Qed.
(** A tone that is not a harmonic of the fundamental is not aligned by it: averaging a record
    with its own copy half a record later removes it although the record shows it. *)
Lemma c110_unrelated_tone_refuted : exists N nb r k d b, length r = N /\ heard r /\ strongest_bin N nb r k /\ (1 <= b)%nat /\ (2 * b <= N)%nat /\
  nth b (fst (coherent_average N nb [r; rotated d r])) 0 = 0 /\
  0 < nth b (fst (coherent_average N nb [r])) 0 /\
  0 < nth b (power_average N [r; rotated d r]) 0.
Proof.
  exists 8%nat, 5%nat, two_tones, 2%nat, 4%nat, 1%nat. split; [apply two_length|]. split; [apply two_heard|]. split; [apply two_strongest|].
  split; [lia|]. split; [lia|].
  set (x := fundamental_frac (run_power 8 two_tones) 5).
  assert (V1 : valid_runs 8 5 [two_tones] = [align_spectrum (rfft two_tones) 2 x 8]).
  { cbn [valid_runs]. rewrite (aligned_run_is 8 5 two_tones 2) by (apply two_length || apply two_heard || apply two_strongest). reflexivity. }
  assert (V2 : valid_runs 8 5 [two_tones; rotated 4 two_tones] = [align_spectrum (rfft two_tones) 2 x 8; align_spectrum (rfft (rotated 4 two_tones)) 2 x 8]).
  { cbn [valid_runs]. rewrite (aligned_run_is 8 5 two_tones 2) by (apply two_length || apply two_heard || apply two_strongest).
    rewrite (aligned_run_is 8 5 (rotated 4 two_tones) 2).
    - rewrite run_power_rotated. reflexivity.
    - rewrite rotated_length. apply two_length.
    - apply heard_rotated, two_heard.
    - apply strongest_rotated; [apply two_length|apply two_strongest]. }
  destruct two_bins as [B1 [B2 _]].
  assert (X1 : rfft two_tones 1 = RtoC 1) by (unfold rfft; rewrite two_length; exact B1).
  assert (X2 : rfft two_tones 2 = RtoC 4) by (unfold rfft; rewrite two_length; exact B2).
  split; [|split].
  - destruct (coherent_nth 8 5 [two_tones; rotated 4 two_tones] 1 ltac:(lia)) as [-> _]. rewrite V2.
    unfold coherent_power_bin. cbn [Nat.eqb Nat.even andb Nat.div Nat.divmod fst]. unfold coherent_mean. cbn [length fold_left Nat.max].
    rewrite two_cancel. replace (Cplus (Cplus C0 _) _) with C0 by ring.
    rewrite Cmod_scale, Cmod_0. ring.
  - destruct (coherent_nth 8 5 [two_tones] 1 ltac:(lia)) as [-> _]. rewrite V1.
    unfold coherent_power_bin. cbn [Nat.eqb Nat.even andb Nat.div Nat.divmod fst]. unfold coherent_mean. cbn [length fold_left Nat.max].
    apply pow_lt. rewrite Cmod_scale. apply Rmult_lt_0_compat.
    + apply Rabs_pos_lt. apply Rinv_neq_0_compat. cbn; lra.
    + replace (Cplus C0 (align_spectrum (rfft two_tones) 2 x 8 1)) with (align_spectrum (rfft two_tones) 2 x 8 1) by ring.
      rewrite align_closed by lia. rewrite two_first, X1, Cmod_mult, Cmod_RtoC, Rabs_R1, Rmult_1_l.
      unfold cpower. destruct (Reqb _ 0); [replace C1 with (RtoC 1) by reflexivity; rewrite Cmod_RtoC, Rabs_R1; lra|].
      destruct (Ceqb0 (align_phasor (rfft two_tones 2))) eqn:E.
      * exfalso. apply Ceqb0_spec in E. apply (f_equal Cmod) in E. rewrite align_phasor_mod, Cmod_0 in E. unfold shrink in E. rewrite X2, Cmod_RtoC, Rabs_right in E by lra.
        pose proof eps_pos. assert (0 < 4 / (4 + / 10 ^ 20)) by (apply Rmult_lt_0_compat; [lra|apply Rinv_0_lt_compat; lra]). lra.
      * rewrite Cmod_scale, Cmod_cis. rewrite Rabs_right; [rewrite Rmult_1_r; apply exp_pos|]. apply Rle_ge, Rlt_le, exp_pos.
  - unfold power_average. rewrite nth_map_seq by (cbn; lia). unfold power_bin. cbn [Nat.eqb Nat.even andb Nat.div Nat.divmod fst map].
    unfold lmean. cbn [lsum length]. rewrite two_rotated, X1, Cmod_mult, Cmod_cis, Cmod_RtoC, Rabs_R1. cbn [INR]. lra.
Qed.
(** The two records of the previous example: strictly less power than power averaging. *)
Lemma c106_below_power_average_ex :
  0 <= nth 2 (fst (coherent_average 8 5 [two_tones; rotated 4 two_tones])) 0 <= nth 2 (power_average 8 [two_tones; rotated 4 two_tones]) 0 /\
  nth 2 (power_average 8 [two_tones; rotated 4 two_tones]) 0 = 1 / 4.
Proof.
  split.
  - apply c106_below_power_average; try lia; try discriminate. constructor; [apply two_heard|]. constructor; [apply heard_rotated, two_heard|constructor].
  - destruct two_bins as [_ [B2 _]]. assert (X2 : rfft two_tones 2 = RtoC 4) by (unfold rfft; rewrite two_length; exact B2).
    unfold power_average. rewrite nth_map_seq by (cbn; lia). unfold power_bin. cbn [Nat.eqb Nat.even andb Nat.div Nat.divmod fst map].
    unfold lmean. cbn [lsum length]. rewrite two_rotated, X2, Cmod_mult, Cmod_cis, Cmod_RtoC, Rabs_right by lra. cbn [INR]. field.
Qed.
(** The averaged fundamental of the two records is real and 1/2 up to the guard. *)
Lemma c106_fundamental_ex : nth 2 (snd (coherent_average 8 5 [two_tones; rotated 4 two_tones])) C0 = RtoC ((16 / (4 + / 10 ^ 20)) / 8).
Proof.
  rewrite (c106_fundamental 8 5 [two_tones; rotated 4 two_tones] 2); try discriminate; try lia.
  - destruct two_bins as [_ [B2 _]]. cbn [map]. cbv zeta. rewrite B2.
    pose proof (two_rotated 2) as Q. unfold rfft in Q. rewrite rotated_length, two_length in Q. rewrite Q, B2.
    replace (cis (PI * INR 2)) with C1 by (symmetry; replace (PI * INR 2) with (2 * PI * IZR 1) by (cbn [INR]; ring); apply cis_2kPI).
    replace (Cmult (RtoC 4) C1) with (RtoC 4) by ring. rewrite Cmod_RtoC, Rabs_right by lra. unfold lmean, Cmod2, RtoC. cbn [lsum length fst snd INR].
    pose proof eps_pos. f_equal. field.
  - constructor; [|constructor; [|constructor]]; (split; [|split]).
    + apply two_length. + apply two_heard. + apply two_strongest.
    + rewrite rotated_length. apply two_length. + apply heard_rotated, two_heard. + apply strongest_rotated; [apply two_length|apply two_strongest].
Qed.
(** The folded second harmonic keeps its power up to rho^4. *)
Lemma c106_single_ex : exists h, h = 2%nat /\
  let X := Cmod (rdft 8 (fun i => nth i fold_record 0) 3) in
  nth 2 (fst (coherent_average 8 5 [fold_record])) 0 = (X / (X + / 10 ^ 20)) ^ (2 * h) * nth 2 (power_average 8 [fold_record]) 0.
Proof.
  assert (A2 : appears 8 3 2 2) by (right; split; [lia|exists 1%nat; reflexivity]).
  destruct (c106_single 8 5 fold_record 3 2 fold_length fold_heard fold_ok ltac:(lia) ltac:(lia)) as [h [Hh [Ha [Hf E]]]].
  { exists 2%nat. split; [lia|exact A2]. }
  exists h. split; [|exact E]. destruct (Nat.lt_trichotomy h 2) as [L|[L|L]]; [|exact L|].
  - assert (h = 1%nat) by lia. subst. destruct Ha as [[_ [q Hq]]|[_ [q Hq]]]; lia.
  - exfalso. apply (Hf 2%nat ltac:(lia) A2).
Qed.
(** A silent run between two others. *)
Lemma c108_silent_ex : coherent_average 8 5 [two_tones; repeat 0 8; fold_record] = coherent_average 8 5 [two_tones; fold_record].
Proof.
  apply (c108_silent 8 5 [two_tones] (repeat 0 8) [fold_record]). intros [x [Hx Ha]]. apply repeat_spec in Hx. subst. rewrite Rabs_R0 in Ha.
  assert (0 < / 10 ^ 10) by (apply Rinv_0_lt_compat, pow_lt; lra). lra.
Qed.
(** x + x^2/2 applied to a cosine at bin 3 of 8: the folded second harmonic is real. *)
Definition quad_record : list R := memoryless_record 8 3 [0; 1; 1 / 2] 1 0.
Lemma quad_is : quad_record = folded (1 / 4) (1 / 4) 0.
Proof.
  unfold quad_record, memoryless_record, folded, harmonic_record. apply map_ext. intros i. cbn [length rsum nth]. unfold fold_amp, fold_ph. cbn [Nat.eqb].
  set (t := 2 * PI * INR 3 * INR i / INR 8). replace (INR 1 * t + 0) with t by (cbn [INR]; ring). replace (INR 2 * t + 0) with (2 * t) by (cbn [INR]; ring).
  replace (t + 0) with t by ring. rewrite cos_2a_cos. field.
Qed.
Lemma c107_memoryless_ex : Im (nth 2 (snd (coherent_average 8 5 [quad_record])) C0) = 0.
Proof.
  apply (c107_memoryless 8 5 3 [0; 1; 1 / 2] 1 0 2 2); fold quad_record; cbn [length Nat.sub]; try lia.
  - exists (3 / 2). split.
    + replace (3 / 2) with (nth 0 quad_record 0).
      * apply nth_In. rewrite quad_is. unfold folded. rewrite harmonic_record_length. lia.
      * rewrite quad_is. unfold folded, harmonic_record. rewrite nth_map_seq by lia. cbn [rsum]. unfold fold_amp, fold_ph. cbn [Nat.eqb INR].
        replace (1 * (2 * PI * (1 + 1 + 1) * 0 / (1 + 1 + 1 + 1 + 1 + 1 + 1 + 1)) + 0) with 0 by field.
        replace ((1 + 1) * (2 * PI * (1 + 1 + 1) * 0 / (1 + 1 + 1 + 1 + 1 + 1 + 1 + 1)) + 0) with 0 by field.
        rewrite cos_0. field.
    + rewrite Rabs_right by lra. pose proof ten_small. lra.
  - rewrite quad_is. apply fold_strongest. lra.
  - apply fold_separate.
  - right. split; [lia|]. exists 1%nat. reflexivity.
Qed.

(** ** The whole computation *)
Lemma rotated_map g d r : r <> [] -> rotated d (map g r) = map g (rotated d r).
Proof.
  intros Hr. unfold rotated. rewrite map_map, map_length. apply map_ext_in. intros i Hi. apply in_seq in Hi.
  rewrite (nth_indep _ 0 (g 0)).
  - apply map_nth.
  - rewrite map_length. apply Nat.mod_upper_bound. destruct r; [contradiction|cbn; lia].
Qed.
Lemma rsum_rotate n f d : rsum n (fun i => f ((i + d) mod n)%nat) = rsum n f.
Proof.
  pose proof (csum_rotate n (fun i => RtoC (f i)) d) as Q. cbv beta in Q.
  rewrite (csum_RtoC n (fun i => f ((i + d) mod n)%nat)), csum_RtoC in Q. injection Q as Q. exact Q.
Qed.
Lemma rotated_mean d r : lmean (rotated d r) = lmean r.
Proof.
  unfold lmean. rewrite rotated_length. f_equal. rewrite !lsum_rsum, rotated_length.
  rewrite (rsum_ext _ _ (fun i => nth ((i + d) mod length r) r 0)) by (intros i Hi; apply rotated_nth; exact Hi).
  apply (rsum_rotate (length r) (fun i => nth i r 0)).
Qed.
Lemma rotated_in d r x : In x (rotated d r) <-> In x r.
Proof.
  split.
  - unfold rotated. intros H. apply in_map_iff in H. destruct H as [i [<- Hi]]. apply in_seq in Hi. apply nth_In. apply Nat.mod_upper_bound. lia.
  - intros Hx. apply (In_nth _ _ 0) in Hx. destruct Hx as [j [Hj <-]].
    set (N := length r) in *. set (i := ((j + (N - d mod N)) mod N)%nat).
    assert (Hi : (i < N)%nat) by (apply Nat.mod_upper_bound; lia).
    replace (nth j r 0) with (nth i (rotated d r) 0).
    + apply nth_In. rewrite rotated_length. exact Hi.
    + rewrite rotated_nth by exact Hi. fold N. f_equal. unfold i. rewrite Nat.add_mod_idemp_l by lia.
      pose proof (Nat.div_mod d N ltac:(lia)) as E. pose proof (Nat.mod_upper_bound d N ltac:(lia)) as B.
      replace (j + (N - d mod N) + d)%nat with (j + (1 + d / N) * N)%nat by nia.
      rewrite Nat.mod_add by lia. apply Nat.mod_small. exact Hj.
Qed.
Lemma lmin1_facts x l : In (lmin1 x l) (x :: l) /\ forall y, In y (x :: l) -> lmin1 x l <= y.
Proof. split; [apply lmin1_in|]. intros y [<-|Hy]; [apply lmin1_le_init|apply lmin1_le, Hy]. Qed.
Lemma lmax1_facts x l : In (lmax1 x l) (x :: l) /\ forall y, In y (x :: l) -> y <= lmax1 x l.
Proof. split; [apply lmax1_in|]. intros y [<-|Hy]; [apply lmax1_ge_init|apply lmax1_ge, Hy]. Qed.
Lemma peak_same d d' sc : concat d <> [] -> concat d' <> [] -> (forall x, In x (concat d) <-> In x (concat d')) -> peak_of d sc = peak_of d' sc.
Proof.
  intros N1 N2 H. destruct sc; [|reflexivity|reflexivity]. unfold peak_of. destruct (concat d) as [|x l]; [contradiction|].
  destruct (concat d') as [|x' l']; [contradiction|].
  destruct (lmax1_facts x l) as [I M], (lmax1_facts x' l') as [I' M'], (lmin1_facts x l) as [J K], (lmin1_facts x' l') as [J' K'].
  f_equal. apply H in I, J. apply H in I', J'. pose proof (M' _ I). pose proof (M _ I'). pose proof (K' _ J). pose proof (K _ J').
  replace (lmax1 x l) with (lmax1 x' l') by lra. replace (lmin1 x l) with (lmin1 x' l') by lra. reflexivity.
Qed.
Lemma boxcar_windowed rows N : Forall (fun r => length r = N) rows -> windowed rows (repeat 1 N) = rows.
Proof.
  intros H. unfold windowed. induction H as [|r t Hr Ht IH]; [reflexivity|]. cbn [map]. rewrite IH. f_equal.
  clear - Hr. revert N Hr. induction r as [|x r IH]; intros N Hr; [reflexivity|]. destruct N; [discriminate|]. cbn [repeat map2]. rewrite IH by (cbn in Hr; lia).
  f_equal. ring.
Qed.
Lemma orient_single r : orient [r] = [r].
Proof. unfold orient. cbn [length Nat.ltb Nat.leb andb]. rewrite Bool.andb_false_r. reflexivity. Qed.
Lemma orient_rotated ds r : ds <> [] -> (2 <= length r)%nat -> (length ds <= 2 * length r)%nat ->
  orient (map (fun d => rotated d r) ds) = map (fun d => rotated d r) ds.
Proof.
  intros Hds Hr Hl. unfold orient. rewrite map_length. unfold ncols.
  replace (length (hd [] (map (fun d => rotated d r) ds))) with (length r) by (destruct ds; [contradiction|cbn [map hd]; rewrite rotated_length; reflexivity]).
  cbv zeta. replace (length r =? 1)%nat with false by (symmetry; apply Nat.eqb_neq; lia). cbn [andb].
  replace (length r * 2 <? length ds)%nat with false by (symmetry; apply Nat.ltb_ge; lia). rewrite Bool.andb_false_r. reflexivity.
Qed.
(** compute_spectrum with coherent averaging and no window: feeding it copies of one record that
    start at different samples gives the spectrum, complex spectrum, SNDR, ENOB, SFDR and THD of
    the single record. *)
Lemma c105_compute kaiser38 cheb100 r fs sc side osr mh nf assumed cutoff ds s nb k one z many z' :
  (2 <= length r)%nat -> ds <> [] -> (length ds <= 2 * length r)%nat ->
  prepare_fft_input [r] sc = Ok [s] -> inband_count (Z.of_nat (length r)) osr = Ok nb ->
  heard s -> strongest_bin (length r) (Z.to_nat nb) s k -> Nat.gcd k (length r) = 1%nat ->
  compute_spectrum_coherent kaiser38 cheb100 [r] fs sc Boxcar side osr mh nf assumed cutoff = Ok (one, z) ->
  compute_spectrum_coherent kaiser38 cheb100 (map (fun d => rotated d r) ds) fs sc Boxcar side osr mh nf assumed cutoff = Ok (many, z') ->
  sp_power many = sp_power one /\ z' = z /\ sp_sndr many = sp_sndr one /\ sp_enob many = sp_enob one /\
  sp_sfdr many = sp_sfdr one /\ sp_thd many = sp_thd one.
Proof.
  intros Hr Hds Hl Hp Hnb Hh Hs Hg H1 H2. set (N := length r) in *.
  assert (Rne : r <> []) by (intros E; unfold N in Hr; rewrite E in Hr; cbn in Hr; lia).
  assert (PM : exists g, prepare_fft_input [r] sc = Ok [map g r] /\ prepare_fft_input (map (fun d => rotated d r) ds) sc = Ok (map (fun d => rotated d (map g r)) ds)).
  { unfold prepare_fft_input in *. rewrite orient_single, orient_rotated in * by assumption. cbv zeta in *.
    assert (PE : peak_of (map (fun d => rotated d r) ds) sc = peak_of [r] sc).
    { apply peak_same.
      - destruct ds as [|d t]; [contradiction|]. cbn [map concat]. intros E. apply app_eq_nil in E. destruct E as [E _]. apply (f_equal (@length R)) in E. rewrite rotated_length in E. fold N in E. cbn in E. lia.
      - cbn [concat]. rewrite app_nil_r. exact Rne.
      - intros x. cbn [concat]. rewrite app_nil_r, in_concat. split.
        + intros [l [Hl' Hx]]. apply in_map_iff in Hl'. destruct Hl' as [d [<- _]]. apply rotated_in in Hx. exact Hx.
        + intros Hx. destruct ds as [|d t]; [contradiction|]. exists (rotated d r). split; [left; reflexivity|]. apply rotated_in. exact Hx. }
    rewrite PE. destruct (peak_of [r] sc) as [peak|e]; [|discriminate]. cbn [bind] in *.
    exists (fun x => if Reqb peak 0 then x - lmean r else (x - lmean r) / peak). split; [reflexivity|]. f_equal. rewrite map_map.
    apply map_ext. intros d. rewrite rotated_mean. symmetry. apply rotated_map. exact Rne. }
  destruct PM as [g [P1 P2]]. rewrite P1 in Hp. apply Ok_inj in Hp. injection Hp as Es. subst s.
  unfold compute_spectrum_coherent in H1, H2. rewrite P1 in H1. rewrite P2 in H2. cbn [bind] in H1, H2.
  assert (NC1 : ncols [map g r] = N) by (unfold ncols; cbn [hd]; rewrite map_length; reflexivity).
  assert (NC2 : ncols (map (fun d => rotated d (map g r)) ds) = N).
  { unfold ncols. destruct ds; [contradiction|]. cbn [map hd]. rewrite rotated_length, map_length. reflexivity. }
  rewrite NC1 in H1. rewrite NC2 in H2. rewrite Hnb in H1, H2. cbn [bind create_window] in H1, H2.
  rewrite boxcar_windowed in H1 by (constructor; [rewrite map_length; reflexivity|constructor]).
  rewrite boxcar_windowed in H2 by (apply Forall_map, Forall_forall; intros d _; rewrite rotated_length, map_length; reflexivity).
  rewrite (c105_coprime N (Z.to_nat nb) (map g r) k) in H2 by (try assumption; rewrite map_length; reflexivity).
  set (av := coherent_average N (Z.to_nat nb) [map g r]) in *. clearbody av.
  destruct (apply_cutoff _ cutoff fs N) as [P|e]; [|discriminate]. cbn [bind] in H1, H2.
  unfold analyse_power, raise_if in H1, H2. destruct (mh <? 1)%Z; [discriminate|]. cbv zeta in H1, H2.
  match type of H1 with bind (bind ?x _) _ = _ => destruct x as [n1|]; [|discriminate] end.
  match type of H2 with bind (bind ?x _) _ = _ => destruct x as [n2|]; [|discriminate] end.
  cbn [bind] in H1, H2. apply Ok_inj in H1, H2. injection H1 as <- <-. injection H2 as <- <-. repeat split; reflexivity.
Qed.

(** HD2 of a memoryless polynomial distortion is reported at 0 or 180 degrees, and so is HD3. *)
Lemma c107_degrees N nb k c A ph hs h b :
  let r := memoryless_record N k c A ph in
  heard r -> strongest_bin N nb r k -> (2 * k < N)%nat -> separate N k (length c - 1) ->
  (h = 2 \/ h = 3)%nat -> (h <= length c - 1)%nat -> (1 <= b)%nat -> (2 * b < N)%nat -> appears N k h b ->
  nth_error hs (h - 2) = Some (Z.of_nat b) ->
  let d := harmonic_phases (snd (coherent_average N nb [r])) hs in
  let deg := if (h =? 2)%nat then fst d else snd d in deg = 0 \/ deg = 180.
Proof.
  intros r Hh Hs Hk2 Hsep Hc Hr Hb Hb2 Hap Hn. cbv zeta.
  pose proof (c107_memoryless N nb k c A ph h b Hh Hs Hk2 Hsep ltac:(lia) Hb Hb2 Hap) as Q. fold r in Q.
  set (z := snd (coherent_average N nb [r])) in *.
  assert (G : phase_at z hs (h - 2) = 0 \/ phase_at z hs (h - 2) = 180).
  { unfold phase_at. rewrite Hn. destruct (Z.of_nat b <? Z.of_nat (length z))%Z; [|left; reflexivity]. rewrite Nat2Z.id.
    destruct (nth b z C0) as [x y]. unfold Im in Q. cbn [snd] in Q. subst y. unfold degrees, Carg, Re, Im. cbn [fst snd].
    destruct (Rltb_spec 0 x) as [L|L]; [left; replace (0 / x) with 0 by (field; lra); rewrite atan_0; ring|].
    destruct (Rltb_spec x 0) as [L'|L'].
    - right. destruct (Rleb_spec 0 0); [|lra]. replace (0 / x) with 0 by (field; lra). rewrite atan_0. field. apply PI_neq0.
    - left. destruct (Rltb_spec 0 0); [lra|]. ring. }
  destruct Hc as [-> | ->]; exact G.
Qed.

(** ** One bin per harmonic *)
Lemma plotspec_loop_ok P f sb hs : forall order thd hp col,
  Forall (fun h => counted f sb h = true -> (h < Z.of_nat (length P))%Z) hs ->
  plotspec_loop P f sb hs order thd hp col =
  Ok (thd + lsum (map (fun h => if counted f sb h then nth (Z.to_nat h) P 0 else 0) hs),
      rev hp ++ map (fun h => if counted f sb h then Rmax (nth (Z.to_nat h) P 0) (/ 10 ^ 15) else / 10 ^ 15) hs,
      rev col ++ map fst (filter (fun ih => fund_collision f sb (snd ih)) (combine (seq order (length hs)) hs))).
Proof.
  induction hs as [|h t IH]; intros order thd hp col H; cbn [plotspec_loop map lsum length seq combine filter].
  - rewrite !app_nil_r, Rplus_0_r. reflexivity.
  - inversion H as [|? ? H0 Ht]. subst. cbn [snd]. unfold counted in *.
    destruct (fund_collision f sb h) eqn:E1; cbn [negb andb] in *.
    + rewrite IH by exact Ht. cbn [rev map fst]. rewrite <- !app_assoc. cbn [app]. rewrite Rplus_0_l. reflexivity.
    + destruct (dc_collision sb h) eqn:E2; cbn [negb] in *.
      * rewrite IH by exact Ht. cbn [rev]. rewrite <- !app_assoc. cbn [app]. rewrite Rplus_0_l. reflexivity.
      * replace (h <? Z.of_nat (length P))%Z with true by (symmetry; apply Z.ltb_lt, H0; reflexivity).
        rewrite IH by exact Ht. cbn [rev]. rewrite <- !app_assoc. cbn [app]. rewrite <- Rplus_assoc. reflexivity.
Qed.
Lemma plotspec_loop_err P f sb hs : forall order thd hp col,
  Exists (fun h => counted f sb h = true /\ (Z.of_nat (length P) <= h)%Z) hs -> plotspec_loop P f sb hs order thd hp col = Err IndexError.
Proof.
  induction hs as [|h t IH]; intros order thd hp col H; [inversion H|]. cbn [plotspec_loop].
  destruct (fund_collision f sb h) eqn:E1; [|destruct (dc_collision sb h) eqn:E2; [|destruct (Z.ltb_spec h (Z.of_nat (length P)))]]; try reflexivity;
    apply IH; inversion H as [? ? [Hc Hl]|]; subst; try assumption; exfalso; unfold counted in Hc; rewrite ?E1, ?E2 in Hc; cbn in Hc; try discriminate; lia.
Qed.
(** The single-bin THD helper: one bin per harmonic that is clear of the fundamental and of DC,
    summed for the total (with the 1e-15 floor); the others are reported at the floor, and those
    near the fundamental listed; a bin past the spectrum raises IndexError. *)
Lemma c109_single_bin P f sb hs :
  let clear h := (2 * Z.of_nat sb < Z.abs (h - Z.of_nat f) /\ Z.of_nat sb < h)%Z in
  ((forall h, In h hs -> clear h -> (h < Z.of_nat (length P))%Z) ->
   exists hp col, harmonic_power_plotspec P f sb hs =
     Ok (Rmax (lsum (map (fun h => if counted f sb h then nth (Z.to_nat h) P 0 else 0) hs)) (/ 10 ^ 15), hp, col) /\
   length hp = length hs /\
   (forall i h, nth_error hs i = Some h ->
      (clear h -> nth_error hp i = Some (Rmax (nth (Z.to_nat h) P 0) (/ 10 ^ 15))) /\
      (~ clear h -> nth_error hp i = Some (/ 10 ^ 15)) /\
      (In (i + 2)%nat col <-> (Z.abs (h - Z.of_nat f) <= 2 * Z.of_nat sb)%Z))) /\
  ((exists h, In h hs /\ clear h /\ (Z.of_nat (length P) <= h)%Z) -> harmonic_power_plotspec P f sb hs = Err IndexError) /\
  (forall h, counted f sb h = true <-> clear h).
Proof.
  cbv zeta.
  assert (CL : forall h, counted f sb h = true <-> (2 * Z.of_nat sb < Z.abs (h - Z.of_nat f) /\ Z.of_nat sb < h)%Z).
  { intros h. unfold counted, fund_collision, dc_collision. rewrite Bool.andb_true_iff, !Bool.negb_true_iff, !Z.leb_gt. reflexivity. }
  split; [|split; [|exact CL]].
  - intros H. unfold harmonic_power_plotspec. rewrite plotspec_loop_ok.
    2:{ apply Forall_forall. intros h Hh Hc. apply H; [exact Hh|]. apply CL, Hc. }
    cbn [bind rev app]. rewrite Rplus_0_l. eexists. eexists. split; [reflexivity|]. split; [apply map_length|].
    intros i h Hn. split; [|split].
    + intros Hc. apply CL in Hc. rewrite (map_nth_error _ _ _ Hn), Hc. reflexivity.
    + intros Hc. rewrite (map_nth_error _ _ _ Hn). destruct (counted f sb h) eqn:E; [exfalso; apply Hc, CL, E|reflexivity].
    + assert (G : forall l s i h, nth_error l i = Some h -> In (i + s)%nat (map fst (filter (fun ih => fund_collision f sb (snd ih)) (combine (seq s (length l)) l))) <-> fund_collision f sb h = true).
      { clear. intros l. induction l as [|x t IH]; intros s i h Hn; [destruct i; discriminate|]. cbn [length seq combine filter snd].
        assert (B : forall y, In y (map fst (filter (fun ih => fund_collision f sb (snd ih)) (combine (seq (S s) (length t)) t))) -> (S s <= y)%nat).
        { intros y Hy. apply in_map_iff in Hy. destruct Hy as [[a b'] [<- Hy]]. apply filter_In in Hy. destruct Hy as [Hy _]. apply in_combine_l, in_seq in Hy. cbn. lia. }
        destruct i as [|i]; cbn in Hn.
        - injection Hn as ->. cbn [Nat.add]. destruct (fund_collision f sb h) eqn:E; cbn [map fst].
          + split; [reflexivity|left; reflexivity].
          + split; [intros Q; apply B in Q; lia|discriminate].
        - rewrite <- (IH (S s) i h Hn). replace (S i + s)%nat with (i + S s)%nat by lia.
          destruct (fund_collision f sb x); cbn [map fst]; [|reflexivity]. split; [intros [Q|Q]; [lia|exact Q]|right; assumption]. }
      rewrite (G hs 2%nat i h Hn). unfold fund_collision. apply Z.leb_le.
  - intros [h [Hh [Hc Hl]]]. unfold harmonic_power_plotspec. rewrite plotspec_loop_err; [reflexivity|].
    apply Exists_exists. exists h. split; [exact Hh|]. split; [apply CL, Hc|exact Hl].
Qed.
(** H2 at bin 4 counts, H3 sits on the fundamental, H4 on DC. *)
Lemma c109_single_bin_ex : exists hp, harmonic_power_plotspec [0; 5; 0; 0; 2] 1 0 [4; 1; 0]%Z = Ok (2, hp, [3%nat]) /\ length hp = 3%nat.
Proof.
  destruct (c109_single_bin [0; 5; 0; 0; 2] 1 0 [4; 1; 0]%Z) as [H _]. destruct H as [hp [col [E [L S]]]].
  { intros h [<-|[<-|[<-|[]]]] [? ?]; cbn in *; lia. }
  exists hp. split; [|exact L]. unfold harmonic_power_plotspec in *. cbn [plotspec_loop] in *. cbn in E |- *.
  apply Ok_inj in E. injection E as E1 E2 E3. rewrite <- E2. cbn. f_equal. f_equal. f_equal.
  rewrite Rplus_0_l. apply Rmax_left. rewrite <- Rinv_1. apply Rle_trans with 1; [|lra]. rewrite <- Rinv_1. apply Rinv_le_contravar; lra.
Qed.

(** ** The polar front end *)
Lemma coherent_defined kz cz l fs sc wt side osr mh nf : l <> [] -> 0 < osr -> (1 <= mh)%Z -> (0 <= nf <= 4)%Z -> (exists p, peak_of [l] sc = Ok p) ->
  exists sp z, compute_spectrum_coherent kz cz [l] fs sc wt side osr mh nf None 0 = Ok (sp, z) /\ length z = (length l / 2 + 1)%nat /\
    sp_harm_bins sp = harmonic_bins (sp_frac sp) (Z.to_nat mh) (length l) /\ length (sp_power sp) = (length l / 2 + 1)%nat.
Proof.
  intros Hl Ho Hm Hnf [p Hp]. unfold compute_spectrum_coherent. set (pr := prepare_fft_input [l] sc).
  assert (E : exists row, pr = Ok [row] /\ length row = length l).
  { unfold pr, prepare_fft_input. replace (orient [l]) with [l] by (unfold orient; cbn [length]; change (1 <? 1)%nat with false; rewrite andb_false_r; reflexivity).
    rewrite Hp. cbn [bind map]. eexists. split; [reflexivity|]. apply map_length. }
  destruct E as (row & -> & Lr). cbn [bind]. unfold ncols. cbn [hd length]. rewrite Lr.
  assert (Ll : (0 < length l)%nat) by (destruct l; [contradiction|simpl; lia]).
  destruct (inband_count (Z.of_nat (length l)) osr) as [nb|e] eqn:EI; [|exfalso; rewrite inband_eq in EI by (lia || lra); discriminate].
  cbn [bind]. unfold apply_cutoff, cut_complex. destruct (Rltb_spec 0 0) as [L|L]; [lra|]. cbn [bind].
  match goal with |- context [analyse_power ?P ?M ?N ?b ?f ?o ?t ?w ?s ?m ?n None] => set (PP := P); assert (A : exists r, analyse_power PP M N b f o t w s m n None = Ok r) end.
  { unfold analyse_power, raise_if. cbv zeta. destruct (Z.ltb_spec mh 1); [lia|]. unfold estimate_noise. cbv zeta.
    destruct (Z.eqb_spec nf 4); [destruct (candidate_bins _ _ _ _); cbn [bind]; eexists; reflexivity|].
    destruct (Z.eqb_spec nf 0); [cbn [bind]; eexists; reflexivity|].
    destruct (Z.eqb_spec nf 1); [cbn [bind]; eexists; reflexivity|].
    destruct (Z.eqb_spec nf 2); [cbn [bind]; eexists; reflexivity|].
    destruct (Z.eqb_spec nf 3); [cbn [bind]; eexists; reflexivity|]. lia. }
  destruct A as [r A]. rewrite A. cbn [bind]. do 2 eexists. split; [reflexivity|]. apply analyse_fields in A. destruct A as (AP & _ & _ & _ & _ & _ & _ & _ & AH & _).
  split; [rewrite map_length; unfold coherent_average; cbn [snd]; rewrite map_length, seq_length; reflexivity|]. split; [exact AH|].
  rewrite AP. unfold PP. rewrite map_length. unfold coherent_average. cbn [fst]. rewrite map_length, seq_length. reflexivity.
Qed.
(** The polar front end always locates at least the second and third harmonics: for every requested number of
    harmonics (also zero or negative) it answers, and harmonic number i + 2 is reported at the rounded folded bin. *)
Lemma c121_orders kz cz l sc harmonic osr fs wt : l <> [] -> 0 < osr -> (exists p, peak_of [l] sc = Ok p) ->
  exists sp z, analyze_spectrum_polar kz cz [l] sc harmonic osr 0 fs wt = Ok (sp, z) /\ length z = (length l / 2 + 1)%nat /\ length (sp_power sp) = (length l / 2 + 1)%nat /\
    length (sp_harm_bins sp) = (Nat.max 3 (Z.to_nat harmonic) - 1)%nat /\
    (forall i, (i < Nat.max 3 (Z.to_nat harmonic) - 1)%nat -> nth i (sp_harm_bins sp) 0%Z = round_he (fold_bin (sp_frac sp * INR (i + 2)) (Z.of_nat (length l)))).
Proof.
  intros Hl Ho Hp. destruct (coherent_defined kz cz l fs sc wt None osr (Z.max 3 harmonic) 0 Hl Ho ltac:(lia) ltac:(lia) Hp) as (sp & z & E & Lz & H & LP). exists sp, z.
  split; [exact E|]. split; [exact Lz|]. split; [exact LP|]. rewrite H. unfold harmonic_bins.
  assert (Q : Z.to_nat (Z.max 3 harmonic) = Nat.max 3 (Z.to_nat harmonic)) by lia. rewrite Q. split; [rewrite map_length, seq_length; reflexivity|].
  intros i Hi. rewrite (nth_map_in _ _ _ 0%nat) by (rewrite seq_length; exact Hi). rewrite seq_nth by exact Hi. reflexivity.
Qed.
(** Asking for up to three harmonics makes no difference. *)
Lemma c121_floor kz cz data sc h h' osr cutoff fs wt : (h <= 3)%Z -> (h' <= 3)%Z ->
  analyze_spectrum_polar kz cz data sc h osr cutoff fs wt = analyze_spectrum_polar kz cz data sc h' osr cutoff fs wt.
Proof. intros H H'. unfold analyze_spectrum_polar. rewrite !Z.max_l by lia. reflexivity. Qed.
Lemma c121_orders_ex kz cz : exists sp z, analyze_spectrum_polar kz cz [[1; 0; -1; 0; 1; 0; -1; 0]] (ScalePeak 1) (-7) 1 0 1 Hann = Ok (sp, z) /\ length (sp_harm_bins sp) = 2%nat /\ length z = 5%nat.
Proof.
  destruct (c121_orders kz cz [1; 0; -1; 0; 1; 0; -1; 0] (ScalePeak 1) (-7) 1 1 Hann ltac:(discriminate) ltac:(lra) (ex_intro _ 1 eq_refl)) as (sp & z & E & Lz & _ & L & _).
  exists sp, z. split; [exact E|]. split; [exact L|exact Lz].
Qed.
