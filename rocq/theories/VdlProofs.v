(** * Variable delay line, multi-sampler and background skew calibration: proofs. *)
From Verif Require Import Base BaseLemmas Cplx SpecModel SpecLemmas SineHistModel TiModel TiSpec TiProofs FitSpec VdlModel VdlSpec.
From Coq Require Import Psatz.
Local Open Scope R_scope.

Lemma running_length acc l : length (running acc l) = length l.
Proof. revert acc. induction l as [| x l IH]; intros acc; [reflexivity |]. cbn [running length]. rewrite IH. reflexivity. Qed.
Lemma running_nth l : forall acc i, (i < length l)%nat -> nth i (running acc l) 0 = acc + rsum (S i) (fun j => nth j l 0).
Proof.
  induction l as [| x l IH]; intros acc i H; [cbn [length] in H; lia |]. cbn [running length] in *. destruct i as [| i]; [cbn; ring |]. cbn [nth]. rewrite IH by lia.
  change (S (S i)) with (1 + S i)%nat. rewrite rsum_app. cbn [rsum nth Nat.add]. ring.
Qed.
(* ---------- C160: the delay line ---------- *)
Lemma vdl_shape n lsb cv off draws v : make_vdl n lsb cv off draws = Ok v -> (1 <= n)%Z /\ v_codes v = n /\ length (v_delays v) = Z.to_nat n /\ v_center v = (n / 2)%Z /\ v_lsb v = lsb /\
  exists mid, forall i, (i < Z.to_nat n)%nat -> nth i (v_delays v) 0 = rsum i (fun j => lsb * Rmax (1 + cv * draws j) (1 / 20)) - mid + off /\ mid = rsum (Z.to_nat (n / 2)) (fun j => lsb * Rmax (1 + cv * draws j) (1 / 20)).
Proof.
  unfold make_vdl. destruct (Z.ltb_spec n 1); cbn [raise_if]; [discriminate |]. intros E. apply Ok_inj in E. subst v. cbn [v_codes v_delays v_center v_lsb]. set (g := fun j => lsb * Rmax (1 + cv * draws j) (1 / 20)).
  assert (L : length (0 :: running 0 (map g (seq 0 (Z.to_nat (n - 1))))) = Z.to_nat n) by (cbn [length]; rewrite running_length, map_length, seq_length; lia).
  assert (V : forall i, (i < Z.to_nat n)%nat -> nth i (0 :: running 0 (map g (seq 0 (Z.to_nat (n - 1))))) 0 = rsum i g).
  { intros i Hi. destruct i as [| i]; [reflexivity |]. cbn [nth]. rewrite running_nth by (rewrite map_length, seq_length; lia). rewrite Rplus_0_l. apply rsum_ext. intros j Hj. rewrite (nth_map_in _ _ _ 0%nat) by (rewrite seq_length; lia). rewrite seq_nth by lia. reflexivity. }
  split; [lia |]. split; [reflexivity |]. split; [rewrite map_length; exact L |]. split; [reflexivity |]. split; [reflexivity |].
  exists (rsum (Z.to_nat (n / 2)) g). intros i Hi. split; [| reflexivity]. rewrite (nth_map_in _ _ _ 0) by (rewrite L; exact Hi). rewrite V by exact Hi. rewrite V; [reflexivity |]. assert ((n / 2 < n)%Z) by (apply Z.div_lt; lia). lia.
Qed.
Lemma zclip_in n c : (0 <= c < n)%Z -> zclip 0 (n - 1) c = c.
Proof. unfold zclip. lia. Qed.
(** Neighbouring codes differ by the drawn step, at least a twentieth of the nominal one; so the delay rises strictly with the
    code, whatever the draws and however wide they spread. *)
Lemma c160_steps n lsb cv off draws v : make_vdl n lsb cv off draws = Ok v ->
  (forall c, (0 <= c < n - 1)%Z -> vdl_delay v (c + 1) - vdl_delay v c = lsb * Rmax (1 + cv * draws (Z.to_nat c)) (1 / 20)) /\
  (0 < lsb -> forall c d, (0 <= c < d)%Z -> (d < n)%Z -> IZR (d - c) * (lsb / 20) <= vdl_delay v d - vdl_delay v c) /\
  (cv = 0 -> forall c, (0 <= c < n)%Z -> vdl_delay v c = off + lsb * IZR (c - n / 2)).
Proof.
  intros E. destruct (vdl_shape _ _ _ _ _ _ E) as (N & VC & L & _ & _ & mid & V). set (g := fun j => lsb * Rmax (1 + cv * draws j) (1 / 20)) in *.
  assert (D : forall c, (0 <= c < n)%Z -> vdl_delay v c = rsum (Z.to_nat c) g - mid + off) by (intros c C; unfold vdl_delay; rewrite VC, zclip_in by lia; apply V; lia).
  assert (ST : forall c, (0 <= c < n - 1)%Z -> vdl_delay v (c + 1) - vdl_delay v c = g (Z.to_nat c)).
  { intros c C. rewrite !D by lia. replace (Z.to_nat (c + 1)) with (S (Z.to_nat c)) by lia. cbn [rsum]. ring. }
  split; [exact ST |]. split.
  - intros PL c d CD DN. assert (P : forall k, (c + Z.of_nat k < n)%Z -> INR k * (lsb / 20) <= vdl_delay v (c + Z.of_nat k) - vdl_delay v c).
    { induction k as [| k IH]; intros K; [replace (c + Z.of_nat 0)%Z with c by lia; cbn; lra |]. specialize (IH ltac:(lia)). pose proof (ST (c + Z.of_nat k)%Z ltac:(lia)) as Q. replace (c + Z.of_nat k + 1)%Z with (c + Z.of_nat (S k))%Z in Q by lia.
      assert (lsb / 20 <= g (Z.to_nat (c + Z.of_nat k))); [| rewrite S_INR; lra]. unfold g. pose proof (Rmax_r (1 + cv * draws (Z.to_nat (c + Z.of_nat k))) (1 / 20)). nra. }
    specialize (P (Z.to_nat (d - c)) ltac:(lia)). rewrite INR_IZR_INZ, Z2Nat.id in P by lia. replace (c + (d - c))%Z with d in P by lia. exact P.
  - intros -> c C. rewrite D by lia. assert (G : forall k, rsum k g = lsb * INR k) by (intros k; rewrite (rsum_ext k g (fun _ => lsb * 1)) by (intros j _; unfold g; rewrite Rmult_0_l, Rplus_0_r; f_equal; apply Rmax_left; lra); rewrite rsum_scale, rsum_const; ring).
    destruct (V 0%nat ltac:(lia)) as [_ ->]. fold g. rewrite !G, !INR_IZR_INZ, minus_IZR. assert (0 <= n / 2)%Z by (apply Z.div_pos; lia). rewrite !Z2Nat.id by lia. ring.
Qed.
(** The middle code has just the constant delay, codes beyond the ends act like the ends, and the line can be built for every
    positive number of codes. *)
Lemma c160_ends n lsb cv off draws : ((1 <= n)%Z <-> exists v, make_vdl n lsb cv off draws = Ok v) /\ ((n < 1)%Z -> make_vdl n lsb cv off draws = Err ValueError) /\
  forall v, make_vdl n lsb cv off draws = Ok v -> vdl_delay v (v_center v) = off /\ v_center v = (n / 2)%Z /\
    (forall c, (c <= 0)%Z -> vdl_delay v c = vdl_delay v 0) /\ (forall c, (n - 1 <= c)%Z -> vdl_delay v c = vdl_delay v (n - 1)) /\
    vdl_range v = vdl_delay v (n - 1) - vdl_delay v 0.
Proof.
  split; [| split].
  - split; [intros N; unfold make_vdl; destruct (Z.ltb_spec n 1); [lia |]; cbn [raise_if]; eexists; reflexivity | intros (v & E); exact (proj1 (vdl_shape _ _ _ _ _ _ E))].
  - intros N. unfold make_vdl. destruct (Z.ltb_spec n 1); [reflexivity | lia].
  - intros v E. destruct (vdl_shape _ _ _ _ _ _ E) as (N & VC & L & CE & _ & mid & V). split; [| split; [exact CE |]].
    + rewrite CE. assert ((n / 2 < n)%Z) by (apply Z.div_lt; lia). assert (0 <= n / 2)%Z by (apply Z.div_pos; lia). unfold vdl_delay. rewrite VC, zclip_in by lia. destruct (V (Z.to_nat (n / 2)) ltac:(lia)) as [-> ->]. ring.
    + split; [| split]; intros; unfold vdl_delay, vdl_range; rewrite ?VC; unfold zclip; try (f_equal; f_equal; lia).
Qed.
Lemma argmin_from_spec l : forall best at_ pos, (forall j, (j < length l)%nat -> True) ->
  let r := argmin_from best at_ pos l in
  (r = at_ /\ (forall j, (j < length l)%nat -> best <= nth j l 0)) \/ (exists k, r = (pos + k)%nat /\ (k < length l)%nat /\ nth k l 0 < best /\ (forall j, (j < length l)%nat -> nth k l 0 <= nth j l 0) /\ (forall j, (j < k)%nat -> nth k l 0 < nth j l 0)).
Proof.
  induction l as [| x l IH]; intros best at_ pos _; cbv zeta; cbn [argmin_from length]; [left; split; [reflexivity | intros; lia] |].
  unfold Rltb. destruct (Rlt_dec x best) as [X | X].
  - right. destruct (IH x pos (S pos) (fun _ _ => I)) as [[-> H] | (k & -> & K & KX & H1 & H2)].
    + exists 0%nat. cbn [nth]. split; [lia |]. split; [lia |]. split; [exact X |]. split; [intros [| j] J; cbn [nth]; [lra | apply H; lia] | intros; lia].
    + exists (S k). cbn [nth]. split; [lia |]. split; [lia |]. split; [lra |]. split; [intros [| j] J; cbn [nth]; [lra | apply H1; lia] | intros [| j] J; cbn [nth]; [exact KX | apply H2; lia]].
  - destruct (IH best at_ (S pos) (fun _ _ => I)) as [[-> H] | (k & -> & K & KX & H1 & H2)].
    + left. split; [reflexivity |]. intros [| j] J; cbn [nth]; [lra | apply H; lia].
    + right. exists (S k). cbn [nth]. split; [lia |]. split; [lia |]. split; [exact KX |]. split; [intros [| j] J; cbn [nth]; [lra | apply H1; lia] | intros [| j] J; cbn [nth]; [lra | apply H2; lia]].
Qed.
Lemma argmin_spec l i : argmin l = Ok i -> (i < length l)%nat /\ (forall j, (j < length l)%nat -> nth i l 0 <= nth j l 0) /\ (forall j, (j < i)%nat -> nth i l 0 < nth j l 0).
Proof.
  destruct l as [| x l]; [discriminate |]. cbn [argmin]. intros E. apply Ok_inj in E. destruct (argmin_from_spec l x 0 1 (fun _ _ => I)) as [[R H] | (k & R & K & KX & H1 & H2)]; cbv zeta in R; rewrite R in E; subst i; cbn [length].
  - split; [lia |]. split; [intros [| j] J; cbn [nth]; [lra | apply H; lia] | intros; lia].
  - cbn [Nat.add nth]. split; [lia |]. split; [intros [| j] J; cbn [nth]; [lra | apply H1; lia] | intros [| j] J; cbn [nth]; [exact KX | apply H2; lia]].
Qed.
(** nearest_code finds the code whose delay is closest, the lowest one of several; it inverts the delay line, and within its
    reach it is never further away than half of some step. *)
Lemma c160_nearest n lsb cv off draws v : make_vdl n lsb cv off draws = Ok v ->
  (forall t, exists c, nearest_code v t = Ok c /\ (0 <= c < n)%Z /\ (forall d, Rabs (vdl_delay v c - t) <= Rabs (vdl_delay v d - t)) /\ (forall d, (0 <= d < c)%Z -> Rabs (vdl_delay v c - t) < Rabs (vdl_delay v d - t))) /\
  (0 < lsb -> forall c, (0 <= c < n)%Z -> nearest_code v (vdl_delay v c) = Ok c) /\
  (forall t c, nearest_code v t = Ok c -> vdl_delay v 0 <= t < vdl_delay v (n - 1) -> exists d, (0 <= d < n - 1)%Z /\ Rabs (vdl_delay v c - t) <= (vdl_delay v (d + 1) - vdl_delay v d) / 2).
Proof.
  intros E. destruct (vdl_shape _ _ _ _ _ _ E) as (N & VC & L & _). pose proof (c160_steps _ _ _ _ _ _ E) as (_ & MO & _).
  assert (DN : forall c, (0 <= c < n)%Z -> vdl_delay v c = nth (Z.to_nat c) (v_delays v) 0) by (intros c C; unfold vdl_delay; rewrite VC, zclip_in by lia; reflexivity).
  assert (A : forall t, exists c, nearest_code v t = Ok c /\ (0 <= c < n)%Z /\ (forall d, Rabs (vdl_delay v c - t) <= Rabs (vdl_delay v d - t)) /\ (forall d, (0 <= d < c)%Z -> Rabs (vdl_delay v c - t) < Rabs (vdl_delay v d - t))).
  { intros t. unfold nearest_code. set (l := map (fun d => Rabs (d - t)) (v_delays v)). assert (LL : length l = Z.to_nat n) by (unfold l; rewrite map_length; exact L).
    assert (NL : forall j, (j < Z.to_nat n)%nat -> nth j l 0 = Rabs (nth j (v_delays v) 0 - t)) by (intros j J; unfold l; rewrite (nth_map_in _ _ _ 0) by (rewrite L; exact J); reflexivity).
    destruct (argmin l) as [i |] eqn:AM; [| destruct l; [cbn [length] in LL; lia | discriminate AM]]. destruct (argmin_spec _ _ AM) as (I1 & I2 & I3). rewrite LL in I1, I2. cbn [bind]. exists (Z.of_nat i). split; [reflexivity |]. split; [lia |].
    assert (CV : forall d, exists k, (k < Z.to_nat n)%nat /\ vdl_delay v d = nth k (v_delays v) 0) by (intros d; unfold vdl_delay; rewrite VC; exists (Z.to_nat (zclip 0 (n - 1) d)); split; [unfold zclip; lia | reflexivity]).
    rewrite DN by lia. rewrite Nat2Z.id. split.
    - intros d. destruct (CV d) as (k & K & ->). rewrite <- !NL by lia. apply I2, K.
    - intros d Hd. rewrite DN by lia. rewrite <- !NL by lia. apply I3. lia. }
  split; [exact A |]. split.
  - intros PL c C. destruct (A (vdl_delay v c)) as (c' & E' & C' & M & _). rewrite E'. f_equal. specialize (M c). replace (vdl_delay v c - vdl_delay v c) with 0 in M by ring. rewrite Rabs_R0 in M. pose proof (Rabs_pos (vdl_delay v c' - vdl_delay v c)).
    assert (Z0 : vdl_delay v c' - vdl_delay v c = 0) by (destruct (Req_dec (vdl_delay v c' - vdl_delay v c) 0) as [Q | Q]; [exact Q | exfalso; apply Rabs_pos_lt in Q; lra]).
    destruct (Z.lt_trichotomy c c') as [Q | [Q | Q]]; [| lia |]; exfalso.
    + pose proof (MO PL c c' ltac:(lia) ltac:(lia)). assert (1 <= IZR (c' - c)) by (apply IZR_le; lia). nra.
    + pose proof (MO PL c' c ltac:(lia) ltac:(lia)). assert (1 <= IZR (c - c')) by (apply IZR_le; lia). nra.
  - intros t c EC [T0 T1]. destruct (A t) as (c' & E' & _ & M & _). assert (c' = c) by congruence. subst c'.
    assert (S0 : forall k, (Z.of_nat k <= n - 1)%Z -> t < vdl_delay v (Z.of_nat k) -> exists d, (0 <= d < n - 1)%Z /\ vdl_delay v d <= t < vdl_delay v (d + 1)).
    { induction k as [| k IH]; intros K TK; [change (Z.of_nat 0) with 0%Z in TK; lra |]. destruct (Rlt_le_dec t (vdl_delay v (Z.of_nat k))) as [Q | Q]; [exact (IH ltac:(lia) Q) |]. exists (Z.of_nat k). split; [lia |]. replace (Z.of_nat k + 1)%Z with (Z.of_nat (S k)) by lia. lra. }
    destruct (S0 (Z.to_nat (n - 1)) ltac:(lia)) as (d & D & D1 & D2); [rewrite Z2Nat.id by lia; exact T1 |]. exists d. split; [exact D |].
    destruct (Rle_lt_dec (t - vdl_delay v d) ((vdl_delay v (d + 1) - vdl_delay v d) / 2)) as [Q | Q].
    + eapply Rle_trans; [apply (M d) |]. rewrite Rabs_left1 by lra. lra.
    + eapply Rle_trans; [apply (M (d + 1)%Z) |]. rewrite Rabs_right by lra. lra.
Qed.

(* ---------- C161: the sampler ---------- *)
Lemma map2_at {A B C} (f : A -> B -> C) da db dc : forall a b i, (i < length a)%nat -> (i < length b)%nat -> nth i (map2 f a b) dc = f (nth i a da) (nth i b db).
Proof.
  induction a as [| x a IH]; intros b i HA HB; [cbn [length] in HA; lia |]. destruct b as [| y b]; [cbn [length] in HB; lia |]. destruct i as [| i]; [reflexivity |]. cbn [map2 nth length] in *. apply IH; lia.
Qed.
Lemma map2_short {A B C} (f : A -> B -> C) : forall a b, length (map2 f a b) = Nat.min (length a) (length b).
Proof. induction a as [| x a IH]; intros [| y b]; cbn [map2 length]; try reflexivity. rewrite IH. reflexivity. Qed.
Lemma skew_ok s : sized s -> exists l, effective_skew s = Ok l /\ length l = Z.to_nat (s_M s) /\ forall m, (m < Z.to_nat (s_M s))%nat -> nth m l 0 = channel_skew s m.
Proof.
  intros (PM & LS & LV & LT). unfold effective_skew. destruct (Nat.ltb_spec (length (s_trim s)) (length (s_vdls s))); [lia |]. cbn [raise_if]. eexists. split; [reflexivity |].
  split; [rewrite !map2_short; lia |]. intros m H1. rewrite (map2_at _ 0 0) by (rewrite ?map2_short; lia). rewrite (map2_at _ (mkVdl 1 [] 0 0) 0%Z) by lia. reflexivity.
Qed.
(** Sample n is taken by channel n mod M at n periods plus the skew of that channel. *)
Lemma c161_samples s fin amp n rms rnd u noise : sized s -> s_fs s <> 0 -> rms <= 0 -> exists x, capture s fin amp n rms None rnd u noise = Ok x /\ length x = n /\
  forall t, (t < n)%nat -> nth t x 0 = amp * cos (2 * PI * fin * (INR t / s_fs s + channel_skew s (t mod Z.to_nat (s_M s))) + (if rnd then u else 0)).
Proof.
  intros SZ F NR. destruct (skew_ok s SZ) as (l & El & Ll & Vl). destruct SZ as (PM & _). unfold capture. unfold Reqb. destruct (Req_EM_T (s_fs s) 0); [contradiction |]. cbn [raise_if]. rewrite El. cbn [bind]. destruct (Z.eqb_spec (s_M s) 0); [lia |]. cbn [andb raise_if bind]. cbv zeta.
  unfold Rltb. destruct (Rlt_dec 0 rms); [lra |]. eexists. split; [reflexivity |]. split; [rewrite map_length, seq_length; reflexivity |]. intros t T. rewrite (nth_map_in _ _ _ 0%nat) by (rewrite seq_length; exact T). rewrite seq_nth by exact T. cbn [Nat.add].
  rewrite Vl by (apply Nat.mod_upper_bound; lia). do 3 f_equal. unfold Rdiv. ring.
Qed.
(** With all skews equal the record is one pure sine; a delay common to all channels is only a phase. *)
Lemma c161_aligned s fin amp n rms rnd u noise d x : sized s -> s_fs s <> 0 -> rms <= 0 -> (forall m, (m < Z.to_nat (s_M s))%nat -> channel_skew s m = d) -> capture s fin amp n rms None rnd u noise = Ok x ->
  is_record x (sine amp (fin / s_fs s) (2 * PI * fin * d + (if rnd then u else 0)) 0).
Proof.
  intros SZ F NR EQ E. destruct (c161_samples s fin amp n rms rnd u noise SZ F NR) as (x' & E' & L & V). assert (x' = x) by congruence. subst x'. intros t T. rewrite L in T. rewrite V by exact T. destruct SZ as (PM & _). rewrite EQ by (apply Nat.mod_upper_bound; lia). unfold sine. rewrite Rplus_0_l. do 2 f_equal. field. exact F.
Qed.
Lemma c161_common s fin amp n rms hd3 u noise d : sized s -> s_fs s <> 0 ->
  capture (mkSampler (s_M s) (s_fs s) (map (fun v => v + d) (s_skew s)) (s_vdls s) (s_trim s)) fin amp n rms hd3 true u noise = capture s fin amp n rms hd3 true (u + 2 * PI * fin * d) noise.
Proof.
  intros SZ F. set (s' := mkSampler _ _ _ _ _). assert (SZ' : sized s') by (destruct SZ as (A & B & C & D); unfold sized, s'; cbn [s_M s_skew s_vdls s_trim]; rewrite map_length; repeat split; assumption).
  destruct (skew_ok s SZ) as (l & El & Ll & Vl). destruct (skew_ok s' SZ') as (l' & El' & Ll' & Vl'). change (s_M s') with (s_M s) in *. destruct SZ as (PM & LS & _). unfold capture. change (s_fs s') with (s_fs s). change (s_M s') with (s_M s). unfold Reqb at 1 3. destruct (Req_EM_T (s_fs s) 0); [contradiction |]. cbn [raise_if]. rewrite El, El'. cbn [bind]. destruct (Z.eqb_spec (s_M s) 0); [lia |]. cbn [andb raise_if]. cbv zeta.
  assert (X : map (fun n0 => amp * cos (2 * PI * fin * (INR n0 * (1 / s_fs s) + nth (n0 mod Z.to_nat (s_M s)) l' 0) + u)) (seq 0 n) = map (fun n0 => amp * cos (2 * PI * fin * (INR n0 * (1 / s_fs s) + nth (n0 mod Z.to_nat (s_M s)) l 0) + (u + 2 * PI * fin * d))) (seq 0 n)).
  { apply map_ext. intros t. assert (TM : (t mod Z.to_nat (s_M s) < Z.to_nat (s_M s))%nat) by (apply Nat.mod_upper_bound; lia). rewrite Vl, Vl' by exact TM. unfold channel_skew, s'. cbn [s_skew s_vdls s_trim]. rewrite (nth_map_in _ _ _ 0) by (rewrite LS; exact TM). do 2 f_equal. ring. }
  rewrite X. reflexivity.
Qed.
(** A request for a third harmonic of level h adds one of exactly r = 10^(h/20) times the amplitude, and raises the
    fundamental by the factor 1 + 3 r. *)
Lemma c161_hd3 s fin amp n rms h rnd u noise : sized s -> s_fs s <> 0 -> rms <= 0 -> amp <> 0 -> exists x, capture s fin amp n rms (Some h) rnd u noise = Ok x /\ length x = n /\
  let r := Rpower 10 (h / 20) in forall t, (t < n)%nat -> let th := 2 * PI * fin * (INR t / s_fs s + channel_skew s (t mod Z.to_nat (s_M s))) + (if rnd then u else 0) in
  nth t x 0 = amp * (1 + 3 * r) * cos th + amp * r * cos (3 * th).
Proof.
  intros SZ F NR NA. destruct (c161_samples s fin amp n rms rnd u noise SZ F NR) as (x & E & L & V). unfold capture in *. unfold Reqb at 1 in E. unfold Reqb at 1. destruct (Req_EM_T (s_fs s) 0); [contradiction |]. cbn [raise_if] in *. destruct (effective_skew s) as [l |]; [| discriminate]. cbn [bind] in *.
  destruct ((s_M s =? 0)%Z && negb (n =? 0)%nat); cbn [raise_if] in *; [discriminate |]. cbv zeta in *. cbn [bind] in E. unfold Rltb in *. destruct (Rlt_dec 0 rms); [lra |]. apply Ok_inj in E. rewrite E. unfold Reqb. destruct (Req_EM_T amp 0); [contradiction |]. cbn [raise_if bind].
  eexists. split; [reflexivity |]. split; [rewrite map_length; exact L |]. intros t T. rewrite (nth_map_in _ _ _ 0) by (rewrite L; exact T). rewrite V by exact T. set (th := 2 * PI * fin * _ + _). set (r := Rpower 10 (h / 20)).
  assert (C3 : cos (3 * th) = 4 * cos th ^ 3 - 3 * cos th).
  { replace (3 * th) with (2 * th + th) by ring. rewrite cos_plus, cos_2a, sin_2a. pose proof (sin2_cos2 th) as SC. unfold Rsqr in SC. replace ((cos th * cos th - sin th * sin th) * cos th - 2 * sin th * cos th * sin th) with (cos th ^ 3 - 3 * (sin th * sin th) * cos th) by ring. replace (sin th * sin th) with (1 - cos th * cos th) by lra. ring. }
  rewrite C3. field. exact NA.
Qed.
(** One channel, eight samples of a period, a harmonic of 0 dBc asked for: the record is a sine of four times the amplitude
    of its third harmonic, and nothing else fits it. *)
Lemma c161_hd3_refuted : exists s x, sized s /\ capture s 1 1 8 0 (Some 0) false 0 (fun _ => 0) = Ok x /\ Rpower 10 (0 / 20) = 1 /\
  forall F H, (forall t, (t < 8)%nat -> nth t x 0 = F * cos (2 * PI * INR t / 8) + H * cos (3 * (2 * PI * INR t / 8))) -> F = 4 /\ H = 1.
Proof.
  destruct (proj1 (proj1 (c160_ends 1 1 0 0 (fun _ => 0))) ltac:(lia)) as (v & EV). pose (s := mkSampler 1 8 [0] [v] [0%Z]). assert (SZ : sized s) by (unfold sized, s; cbn; repeat split; lia).
  destruct (c161_hd3 s 1 1 8 0 0 false 0 (fun _ => 0) SZ ltac:(cbn; lra) ltac:(lra) ltac:(lra)) as (x & E & L & V). exists s, x. split; [exact SZ |]. split; [exact E |].
  assert (R1 : Rpower 10 (0 / 20) = 1) by (replace (0 / 20) with 0 by field; apply Rpower_O; lra). split; [exact R1 |]. cbv zeta in V. rewrite R1 in V.
  assert (CS : channel_skew s 0 = 0) by (unfold channel_skew, s; cbn [s_skew s_vdls s_trim nth]; destruct (proj2 (proj2 (c160_ends 1 1 0 0 (fun _ => 0))) v EV) as (C & CE & _); rewrite CE in C; change (1 / 2)%Z with 0%Z in C; lra).
  intros F H Q. pose proof (V 0%nat ltac:(lia)) as V0. pose proof (V 1%nat ltac:(lia)) as V1. rewrite (Q 0%nat ltac:(lia)) in V0. rewrite (Q 1%nat ltac:(lia)) in V1. change (s_fs s) with 8 in *. change (Z.to_nat (s_M s)) with 1%nat in *. change (0 mod 1)%nat with 0%nat in V0. change (1 mod 1)%nat with 0%nat in V1. rewrite CS in V0, V1. change (INR 0) with 0 in V0. change (INR 1) with 1 in V1.
  replace (2 * PI * 0 / 8) with 0 in V0 by field. replace (2 * PI * 1 * (0 / 8 + 0) + 0) with 0 in V0 by field. rewrite Rmult_0_r, cos_0 in V0. replace (2 * PI * 1 / 8) with (PI / 4) in V1 by field. replace (2 * PI * 1 * (1 / 8 + 0) + 0) with (PI / 4) in V1 by field. replace (3 * (PI / 4)) with (3 * (PI / 4)) in V1 by field.
  assert (C3 : cos (3 * (PI / 4)) = - cos (PI / 4)) by (replace (3 * (PI / 4)) with (PI - PI / 4) by field; rewrite cos_minus, cos_PI, sin_PI; ring). rewrite C3 in V1. assert (P : 0 < cos (PI / 4)) by (apply cos_gt_0; pose proof PI_RGT_0; lra). set (q := cos (PI / 4)) in *.
  assert (F - H = 3); [| lra]. apply Rmult_eq_reg_r with q; lra.
Qed.
(** Trimming each channel to the code nearest to what it lacks against channel 0 leaves a skew against channel 0 of at most
    half a step of its line, if its line reaches that far. *)
Lemma c161_ideal_codes s m v c n lsb cv off draws : make_vdl n lsb cv off draws = Ok v -> nth m (s_vdls s) (mkVdl 1 [] 0 0) = v -> nth m (s_trim s) 0%Z = c ->
  let target := channel_skew s 0 - nth m (s_skew s) 0 in nearest_code v target = Ok c -> vdl_delay v 0 <= target < vdl_delay v (n - 1) ->
  exists d, (0 <= d < n - 1)%Z /\ Rabs (channel_skew s m - channel_skew s 0) <= (vdl_delay v (d + 1) - vdl_delay v d) / 2.
Proof.
  intros E EV EC target NC RG. destruct (proj2 (proj2 (c160_nearest _ _ _ _ _ _ E)) target c NC RG) as (d & D & B). exists d. split; [exact D |]. unfold channel_skew at 1. rewrite EV, EC. replace (nth m (s_skew s) 0 + vdl_delay v c - channel_skew s 0) with (vdl_delay v c - target) by (unfold target; ring). exact B.
Qed.
(** Without given trim codes every channel starts at the centre code of its delay line; given codes are kept. *)
Lemma c161_initial M fs skew vdls trim s : make_sampler M fs skew vdls trim = Ok s ->
  s_M s = M /\ s_fs s = fs /\ s_skew s = skew /\ s_vdls s = vdls /\ (trim = None -> s_trim s = map v_center vdls) /\ (forall t, trim = Some t -> s_trim s = t).
Proof.
  unfold make_sampler. destruct (negb (Z.of_nat (length skew) =? M)%Z); [discriminate |]. destruct (negb (Z.of_nat (length vdls) =? M)%Z); [discriminate |]. cbn [raise_if]. intros E. apply Ok_inj in E. subst s. cbn [s_M s_fs s_skew s_vdls s_trim]. repeat split; intros; subst; reflexivity.
Qed.
Example c161_initial_ex : exists s, make_sampler 2 1 [0; 1 / 4] [mkVdl 5 [0; 1; 2; 3; 4] 2 1; mkVdl 9 [0; 1; 2; 3; 4; 5; 6; 7; 8] 4 1] None = Ok s /\ s_trim s = [2; 4]%Z.
Proof.
  eexists. split; reflexivity.
Qed.
(** What is refused: sizes that do not fit, too few trim codes, a sampling rate of zero, a harmonic of a zero amplitude. *)
Lemma c161_errors M fs skew vdls trim :
  ((Z.of_nat (length skew) = M /\ Z.of_nat (length vdls) = M) <-> exists s, make_sampler M fs skew vdls trim = Ok s) /\
  (~ (Z.of_nat (length skew) = M /\ Z.of_nat (length vdls) = M) -> make_sampler M fs skew vdls trim = Err AssertionError) /\
  (forall s, make_sampler M fs skew vdls trim = Ok s -> (0 < M)%Z -> sized s <-> (forall t, trim = Some t -> (Z.to_nat M <= length t)%nat)) /\
  (forall s fin amp n rms hd3 rnd u noise, make_sampler M fs skew vdls trim = Ok s -> (0 < M)%Z -> let x := capture s fin amp n rms hd3 rnd u noise in
     (fs = 0 -> x = Err ZeroDivisionError) /\ (fs <> 0 -> ~ sized s -> x = Err IndexError) /\ (fs <> 0 -> sized s -> hd3 <> None /\ amp = 0 -> x = Err ZeroDivisionError) /\
     (fs <> 0 -> sized s -> ~ (hd3 <> None /\ amp = 0) -> exists y, x = Ok y /\ length y = n)).
Proof.
  unfold make_sampler. destruct (Z.eqb_spec (Z.of_nat (length skew)) M) as [A | A]; destruct (Z.eqb_spec (Z.of_nat (length vdls)) M) as [B | B]; cbn [negb raise_if]; (split; [split; [| ]; [try (intros [? ?]; exfalso; congruence) | try (intros (s & Q); discriminate Q)] |]).
  all: try (split; [reflexivity | split; intros; discriminate]).
  - intros _. eexists. reflexivity.
  - intros _. split; assumption.
  - split; [intros Q; exfalso; apply Q; split; assumption |]. split.
    + intros s E PM. apply Ok_inj in E. subst s. unfold sized. cbn [s_M s_skew s_vdls s_trim]. split.
      * intros (_ & _ & _ & H) t ->. exact H.
      * intros H. split; [exact PM |]. split; [lia |]. split; [lia |]. destruct trim as [t |]; [apply H; reflexivity | rewrite map_length; lia].
    + intros s fin amp n rms hd3 rnd u noise E PM. cbv zeta. set (x := capture s fin amp n rms hd3 rnd u noise). apply Ok_inj in E. assert (FS : s_fs s = fs) by (subst s; reflexivity). assert (MS : s_M s = M) by (subst s; reflexivity). split; [| split].
      * intros F. unfold x, capture. rewrite FS. unfold Reqb. destruct (Req_EM_T fs 0); [reflexivity | contradiction].
      * intros F NS. unfold x, capture. rewrite FS. unfold Reqb at 1. destruct (Req_EM_T fs 0); [contradiction |]. cbn [raise_if]. unfold effective_skew. destruct (Nat.ltb_spec (length (s_trim s)) (length (s_vdls s))) as [Q | Q]; [reflexivity |]. exfalso. apply NS. subst s. cbn [s_trim s_vdls] in Q. unfold sized. cbn [s_M s_skew s_vdls s_trim]. repeat split; lia.
      * assert (CO : fs <> 0 -> sized s -> exists l, x = bind (match hd3 with None => Ok l | Some h => raise_if (Reqb amp 0) ZeroDivisionError (Ok (map (fun v => v + 4 * Rpower 10 (h / 20) / amp ^ 2 * v ^ 3) l)) end) (fun y => Ok (if Rltb 0 rms then map2 (fun v i => v + noise i * rms) y (seq 0 n) else y)) /\ length l = n).
        { intros F SZ. destruct (skew_ok s SZ) as (l & El & _). unfold x, capture. rewrite FS. unfold Reqb at 1. destruct (Req_EM_T fs 0); [contradiction |]. cbn [raise_if]. rewrite El. cbn [bind]. rewrite MS. destruct (Z.eqb_spec M 0); [lia |]. cbn [andb raise_if]. eexists. split; [reflexivity |]. rewrite map_length, seq_length. reflexivity. }
        split; intros F SZ H; destruct (CO F SZ) as (l & -> & L).
        -- destruct H as [NH ->]. destruct hd3 as [h |]; [| congruence]. unfold Reqb. destruct (Req_EM_T 0 0); [reflexivity | lra].
        -- assert (G : forall y : list R, length y = n -> length (if Rltb 0 rms then map2 (fun v i => v + noise i * rms) y (seq 0 n) else y) = n) by (intros y LY; destruct (Rltb 0 rms); [rewrite map2_short, seq_length; lia | exact LY]).
           destruct hd3 as [h |]; cbn [bind]; [| eexists; split; [reflexivity | apply G, L]]. unfold Reqb. destruct (Req_EM_T amp 0) as [Z0 | Z0]; [exfalso; apply H; split; [discriminate | exact Z0] |]. cbn [raise_if bind]. eexists. split; [reflexivity |]. apply G. rewrite map_length. exact L.
Qed.

(* ---------- C162: background calibration ---------- *)
(** The measure of channel i is the sum of the absolute steps from its samples to the next ones, over all but the last round. *)
Lemma c162_mad (M K : nat) x : (0 < M)%nat -> length x = (K * M)%nat -> exists mad, mad_of (Z.of_nat M) x = Ok mad /\ length mad = M /\
  forall i, (i < M)%nat -> nth i mad 0 = rsum (K - 1) (fun k => Rabs (nth (k * M + i + 1) x 0 - nth (k * M + i) x 0)).
Proof.
  intros PM L. assert (LK : (length x / M = K)%nat) by (rewrite L; apply Nat.div_mul; lia). assert (D : exists ch, deinterleave x (Z.of_nat M) = Ok ch).
  { rewrite (deinterleave_eq x M K PM L). eexists. reflexivity. }
  destruct D as (ch & D). destruct (c17_channel_samples x M ch D) as ([LC LR] & V). rewrite LK in *. unfold mad_of. rewrite D. cbn [bind]. eexists. split; [reflexivity |]. rewrite Nat2Z.id. split; [rewrite map_length, seq_length; reflexivity |].
  intros i Hi. rewrite (nth_map_in _ _ _ 0%nat) by (rewrite seq_length; exact Hi). rewrite seq_nth by exact Hi. cbn [Nat.add].
  pose proof LR as LR'.
  set (head := fun r : list R => firstn (length r - 1) r). assert (NH : forall m k, (m < M)%nat -> (k < K - 1)%nat -> nth k (head (nth m ch [])) 0 = nth (k * M + m) x 0).
  { intros m k Hm Hk. unfold head. rewrite LR' by exact Hm. rewrite <- V by lia. rewrite <- (firstn_skipn (K - 1) (nth m ch [])) at 2. rewrite app_nth1; [reflexivity |]. rewrite firstn_length, LR' by exact Hm. lia. }
  assert (LH : forall m, (m < M)%nat -> length (head (nth m ch [])) = (K - 1)%nat) by (intros m Hm; unfold head; rewrite firstn_length, LR' by exact Hm; lia).
  assert (R0 : forall m, (m < M)%nat -> nth m (map head ch ++ [tl (nth 0 ch [])]) [] = head (nth m ch [])) by (intros m Hm; rewrite app_nth1 by (rewrite map_length; lia); rewrite (nth_map_in _ _ _ []) by lia; reflexivity).
  assert (R1 : length (nth (S i) (map head ch ++ [tl (nth 0 ch [])]) []) = (K - 1)%nat /\ forall k, (k < K - 1)%nat -> nth k (nth (S i) (map head ch ++ [tl (nth 0 ch [])]) []) 0 = nth (k * M + i + 1) x 0).
  { destruct (Nat.eq_dec (S i) M) as [Q | Q].
    - rewrite app_nth2 by (rewrite map_length; lia). rewrite map_length, LC, Q, Nat.sub_diag. cbn [nth]. pose proof (LR' 0%nat PM) as L0. split.
      + destruct (nth 0 ch []) as [| a t]; cbn [tl length] in *; lia.
      + intros k Hk. assert (T : nth k (tl (nth 0 ch [])) 0 = nth (S k) (nth 0 ch []) 0) by (destruct (nth 0 ch []); [cbn [length] in L0; lia | reflexivity]). rewrite T, V by lia. f_equal. nia.
    - rewrite R0 by lia. split; [apply LH; lia |]. intros k Hk. rewrite NH by lia. f_equal. lia. }
  destruct R1 as [L1 V1]. rewrite lsum_rsum, map_length, map2_short, L1, R0, LH, Nat.min_id by lia. apply rsum_ext. intros k Hk. rewrite (nth_map_in _ _ _ 0) by (rewrite map2_short, L1, LH by lia; lia). rewrite (map2_at _ 0 0) by (rewrite ?L1, ?LH; lia). rewrite V1, NH by lia. reflexivity.
Qed.
(** On a noise-free capture it is proportional to |sin (pi fin g)|, g the time to the next sample. *)
Lemma c162_gap s fin amp (K : nat) rms rnd u noise : sized s -> s_fs s <> 0 -> rms <= 0 -> let M := Z.to_nat (s_M s) in
  exists x mad, capture s fin amp (K * M) rms None rnd u noise = Ok x /\ mad_of (s_M s) x = Ok mad /\
  forall i, (i < M)%nat -> nth i mad 0 = 2 * Rabs amp * Rabs (sin (PI * fin * gap s i)) * rsum (K - 1) (fun k => Rabs (sin (PI * fin * (INR (2 * (k * M + i) + 1) / s_fs s + channel_skew s i + channel_skew s (S i mod M)) + (if rnd then u else 0)))).
Proof.
  intros SZ F NR M. destruct (c161_samples s fin amp (K * M) rms rnd u noise SZ F NR) as (x & E & L & V). assert (PM : (0 < M)%nat) by (destruct SZ as (Q & _); unfold M; lia). destruct (c162_mad M K x PM L) as (mad & EM & LM & VM).
  replace (Z.of_nat M) with (s_M s) in EM by (unfold M; destruct SZ as (Q & _); lia). exists x, mad. split; [exact E |]. split; [exact EM |]. intros i Hi. rewrite VM by exact Hi. rewrite <- rsum_scale. apply rsum_ext. intros k Hk.
  assert (KM : (k * M + i + 1 < K * M)%nat) by nia. rewrite !V by lia. fold M. replace ((k * M + i) mod M)%nat with i by (rewrite Nat.add_comm, Nat.mod_add by lia; symmetry; apply Nat.mod_small; lia). replace ((k * M + i + 1) mod M)%nat with (S i mod M)%nat by (replace (k * M + i + 1)%nat with (S i + k * M)%nat by lia; rewrite Nat.mod_add by lia; reflexivity).
  set (ph := if rnd then u else 0). set (a := channel_skew s i). set (b := channel_skew s (S i mod M)). rewrite <- Rmult_minus_distr_l, Rabs_mult.
  assert (CC : forall p q, cos p - cos q = - (2 * sin ((p - q) / 2) * sin ((p + q) / 2))).
  { intros p q. pose proof (cos_plus ((p + q) / 2) ((p - q) / 2)) as A1. pose proof (cos_minus ((p + q) / 2) ((p - q) / 2)) as A2. replace ((p + q) / 2 + (p - q) / 2) with p in A1 by field. replace ((p + q) / 2 - (p - q) / 2) with q in A2 by field. rewrite A1, A2. ring. }
  rewrite CC, Rabs_Ropp, !Rabs_mult, (Rabs_right 2) by lra. replace ((2 * PI * fin * (INR (k * M + i + 1) / s_fs s + b) + ph - (2 * PI * fin * (INR (k * M + i) / s_fs s + a) + ph)) / 2) with (PI * fin * gap s i) by (unfold gap; fold M a b; rewrite !plus_INR; change (INR 1) with 1; field; exact F).
  replace ((2 * PI * fin * (INR (k * M + i + 1) / s_fs s + b) + ph + (2 * PI * fin * (INR (k * M + i) / s_fs s + a) + ph)) / 2) with (PI * fin * (INR (2 * (k * M + i) + 1) / s_fs s + a + b) + ph) by (rewrite !plus_INR, !mult_INR, !plus_INR, !mult_INR; change (INR 1) with 1; change (INR 2) with 2; field; exact F). ring.
Qed.
Lemma fair_spec mad i : (i + 1 < length mad)%nat -> (nth i (above_fair mad) false = true <-> INR (S i) * (lsum mad / INR (length mad)) < rsum (S i) (fun j => nth j mad 0)).
Proof.
  intros Hi. unfold above_fair. rewrite (nth_map_in _ _ _ 0%nat) by (rewrite seq_length; lia). rewrite seq_nth by lia. cbn [Nat.add]. rewrite running_nth by lia. rewrite Rplus_0_l. unfold Rltb, lmean. destruct (Rlt_dec _ _); split; intros; try assumption; try reflexivity; try discriminate; contradiction.
Qed.
(** One pass: channel 0 stays, every other code goes one down if the measures before its channel exceed their share and one up if
    not, unless that leaves the line. *)
Lemma c162_step s fin amp n rms hd3 u noise s' : sized s -> calibration_step s fin amp n rms hd3 u noise = Ok s' ->
  exists mad, (exists x, capture s fin amp n rms hd3 true u noise = Ok x /\ mad_of (s_M s) x = Ok mad) /\ length mad = Z.to_nat (s_M s) /\ sized s' /\ s_M s' = s_M s /\ s_fs s' = s_fs s /\ s_skew s' = s_skew s /\ s_vdls s' = s_vdls s /\ length (s_trim s') = length (s_trim s) /\
  nth 0 (s_trim s') 0%Z = nth 0 (s_trim s) 0%Z /\
  forall m, (0 < m < Z.to_nat (s_M s))%nat -> let share := INR m * (lsum mad / INR (length mad)) in let sum := rsum m (fun j => nth j mad 0) in
    (share < sum -> nth m (s_trim s') 0%Z = Z.min (Z.max (nth m (s_trim s) 0 - 1) 0)%Z (top_code s m)) /\ (sum <= share -> nth m (s_trim s') 0%Z = Z.min (Z.max (nth m (s_trim s) 0 + 1) 0)%Z (top_code s m)).
Proof.
  intros SZ E. unfold calibration_step in E. destruct (capture _ _ _ _ _ _ _ _ _) as [x |] eqn:EX; [| discriminate]. cbn [bind] in E. destruct (mad_of _ _) as [mad |] eqn:EM; [| discriminate]. cbn [bind] in E. apply Ok_inj in E. exists mad.
  split; [exists x; split; [reflexivity | exact EM] |]. assert (LM : length mad = Z.to_nat (s_M s)) by (unfold mad_of in EM; destruct (deinterleave _ _); [| discriminate]; cbn [bind] in EM; apply Ok_inj in EM; subst mad; rewrite map_length, seq_length; reflexivity). split; [exact LM |].
  assert (LT : length (s_trim s') = length (s_trim s)) by (subst s'; cbn [s_trim]; unfold update_trim; rewrite map_length, seq_length; reflexivity). destruct SZ as (PM & LS & LV & LT0).
  split; [unfold sized; rewrite LT; subst s'; cbn [s_M s_skew s_vdls]; repeat split; assumption |]. subst s'. cbn [s_M s_fs s_skew s_vdls s_trim] in *. do 4 (split; [reflexivity |]). split; [exact LT |].
  assert (U : forall m, (m < length (s_trim s))%nat -> nth m (update_trim (-1) (s_vdls s) (s_trim s) (above_fair mad)) 0%Z = if ((m =? 0) || (length (s_vdls s) <=? m))%nat then nth m (s_trim s) 0%Z
     else zclip 0 (v_codes (nth m (s_vdls s) (mkVdl 1 [] 0 0)) - 1) (nth m (s_trim s) 0 + -1 * (2 * (if nth (m - 1) (above_fair mad) false then 1 else 0) - 1))%Z).
  { intros m Hm. unfold update_trim. rewrite (nth_map_in _ _ _ 0%nat) by (rewrite seq_length; exact Hm). rewrite seq_nth by exact Hm. reflexivity. }
  split; [rewrite U by lia; reflexivity |]. intros m Hm. cbv zeta. set (share := INR m * _). set (sum := rsum m _). rewrite U by lia. destruct (Nat.eqb_spec m 0); [lia |]. destruct (Nat.leb_spec (length (s_vdls s)) m); [lia |]. cbn [orb]. pose proof (fair_spec mad (m - 1) ltac:(lia)) as FS. replace (S (m - 1)) with m in FS by lia. fold sum share in FS. unfold zclip, top_code.
  destruct (nth (m - 1) (above_fair mad) false); split; intros G.
  - lia.
  - pose proof (proj1 FS eq_refl). lra.
  - pose proof (proj2 FS G). discriminate.
  - lia.
Qed.
(** The whole run: as many code sets as passes, channel 0 never moves, all other codes stay on their lines and move by at most
    one, and by exactly one away from the ends. *)
Lemma c162_run sfdr us noises fin amp n rms hd3 : forall p i s best r hist, sized s -> (forall m, (m < Z.to_nat (s_M s))%nat -> (0 <= top_code s m)%Z) ->
  calibration_loop sfdr us noises fin amp n rms hd3 p i s best = Ok (r, hist) -> length hist = p /\
  forall k, (k < p)%nat -> let before := nth k (s_trim s :: hist) [] in let after := nth k hist [] in
    nth 0 after 0%Z = nth 0 (s_trim s) 0%Z /\ length after = length (s_trim s) /\
    forall m, (0 < m < Z.to_nat (s_M s))%nat -> (0 <= nth m after 0 <= top_code s m)%Z /\ ((0 < nth m before 0 < top_code s m)%Z -> Z.abs (nth m after 0%Z - nth m before 0%Z) = 1%Z) /\ ((0 <= nth m before 0 <= top_code s m)%Z -> (Z.abs (nth m after 0 - nth m before 0) <= 1)%Z).
Proof.
  induction p as [| p IH]; intros i s best r hist SZ TC E.
  - cbn [calibration_loop] in E. apply Ok_inj in E. injection E as <- <-. split; [reflexivity | intros; lia].
  - cbn [calibration_loop] in E. set (best' := match fst best with None => _ | Some b => _ end) in E. destruct (calibration_step _ _ _ _ _ _ _ _) as [s' |] eqn:ES; [| discriminate]. cbn [bind] in E.
    destruct (calibration_loop _ _ _ _ _ _ _ _ p (S i) s' best') as [[r' h'] |] eqn:EL; [| discriminate]. cbn [bind fst snd] in E. apply Ok_inj in E. injection E as <- <-.
    destruct (c162_step _ _ _ _ _ _ _ _ _ SZ ES) as (mad & _ & _ & SZ' & M' & _ & _ & V' & LT & C0' & ST). assert (TC' : forall m, top_code s' m = top_code s m) by (intros m; unfold top_code; rewrite V'; reflexivity).
    destruct (IH (S i) s' best' r' h' SZ' ltac:(intros m Hm; rewrite TC'; apply TC; rewrite <- M'; exact Hm) EL) as (LH & H). split; [cbn [length]; lia |]. intros [| k] Hk; cbv zeta.
    + cbn [nth]. split; [exact C0' |]. split; [exact LT |]. intros m Hm. destruct (ST m Hm) as [S1 S2]. cbv zeta in S1, S2. specialize (TC m ltac:(lia)).
      destruct (Rlt_le_dec (INR m * (lsum mad / INR (length mad))) (rsum m (fun j => nth j mad 0))) as [Q | Q]; [rewrite (S1 Q) | rewrite (S2 Q)]; lia.
    + specialize (H k ltac:(lia)). cbv zeta in H. destruct H as (H0 & H1 & H2). change (nth (S k) (s_trim s' :: h') []) with (nth k h' []). change (nth (S k) (s_trim s :: s_trim s' :: h') []) with (nth k (s_trim s' :: h') []). split; [congruence |]. split; [congruence |].
      intros m Hm. rewrite <- TC'. rewrite <- M' in Hm. exact (H2 m Hm).
Qed.
(** The code set returned is the one with the largest SFDR measured in any pass, the first of several. *)
Lemma best_from sfdr us noises fin amp n rms hd3 : forall p i s best r hist, calibration_loop sfdr us noises fin amp n rms hd3 p i s best = Ok (r, hist) ->
  let q k := sfdr (i + k)%nat (nth k (s_trim s :: hist) []) in
  (r = best /\ (forall k, (k < p)%nat -> exists b, fst best = Some b /\ q k <= b)) \/
  (exists j, (j < p)%nat /\ r = (Some (q j), nth j (s_trim s :: hist) []) /\ (forall k, (k < p)%nat -> q k <= q j) /\ (forall k, (k < j)%nat -> q k < q j) /\ (forall b, fst best = Some b -> b < q j)).
Proof.
  induction p as [| p IH]; intros i s best r hist E.
  - cbn [calibration_loop] in E. apply Ok_inj in E. injection E as <- <-. left. split; [reflexivity | intros; lia].
  - cbn [calibration_loop] in E. set (best' := match fst best with None => _ | Some b => _ end) in E. destruct (calibration_step _ _ _ _ _ _ _ _) as [s' |] eqn:ES; [| discriminate]. cbn [bind] in E.
    destruct (calibration_loop _ _ _ _ _ _ _ _ p (S i) s' best') as [[r' h'] |] eqn:EL; [| discriminate]. cbn [bind fst snd] in E. apply Ok_inj in E. injection E as <- <-.
    specialize (IH (S i) s' best' r' h' EL). cbv beta zeta in *. set (q0 := sfdr i (s_trim s)) in *.
    assert (Q0 : sfdr (i + 0)%nat (nth 0 (s_trim s :: s_trim s' :: h') []) = q0) by (rewrite Nat.add_0_r; reflexivity).
    assert (QS : forall k, sfdr (i + S k)%nat (nth (S k) (s_trim s :: s_trim s' :: h') []) = sfdr (S i + k)%nat (nth k (s_trim s' :: h') [])) by (intros k; rewrite Nat.add_succ_r; reflexivity).
    assert (B : (best' = (Some q0, s_trim s) /\ forall b, fst best = Some b -> b < q0) \/ (best' = best /\ exists b, fst best = Some b /\ q0 <= b)).
    { unfold best'. destruct (fst best) as [b |] eqn:EB; [| left; split; [reflexivity | discriminate]]. unfold Rltb. destruct (Rlt_dec b q0) as [X | X]; [left; split; [reflexivity |]; intros b' Hb; injection Hb as <-; exact X | right; split; [reflexivity |]; exists b; split; [reflexivity | lra]]. }
    destruct IH as [[-> H] | (j & J & -> & H1 & H2 & H3)].
    + destruct B as [[-> B] | [-> (b & EB & B)]].
      * right. exists 0%nat. cbv beta. rewrite Q0. split; [lia |]. split; [reflexivity |]. split; [| split; [intros; lia | exact B]].
        intros [| k] Hk; [rewrite Q0; lra |]. rewrite QS. destruct (H k ltac:(lia)) as (b & Eb & Lb). cbn [fst] in Eb. injection Eb as <-. exact Lb.
      * left. split; [reflexivity |]. intros [| k] Hk; [rewrite Q0; exists b; split; assumption |]. rewrite QS. apply H. lia.
    + right. exists (S j). rewrite QS. split; [lia |]. split; [reflexivity |]. assert (L0 : q0 < sfdr (S i + j)%nat (nth j (s_trim s' :: h') [])) by (destruct B as [[EB _] | [EB (b & E1 & E2)]]; [apply H3; rewrite EB; reflexivity | pose proof (H3 b ltac:(rewrite EB; exact E1)); lra]).
      split; [intros [| k] Hk; [rewrite Q0; lra | rewrite QS; apply H1; lia] |]. split; [intros [| k] Hk; [rewrite Q0; exact L0 | rewrite QS; apply H2; lia] |].
      intros b Eb. destruct B as [[EB B] | [EB (b' & E1 & E2)]]; [pose proof (B b Eb); lra | apply H3; rewrite EB; exact Eb].
Qed.
Lemma c162_best sfdr us noises fin amp n rms hd3 p s r hist : (0 < p)%nat -> calibration_loop sfdr us noises fin amp n rms hd3 p 0 s (None, s_trim s) = Ok (r, hist) ->
  let codes k := nth k (s_trim s :: hist) [] in exists j, (j < p)%nat /\ r = (Some (sfdr j (codes j)), codes j) /\
  (forall k, (k < p)%nat -> sfdr k (codes k) <= sfdr j (codes j)) /\ (forall k, (k < j)%nat -> sfdr k (codes k) < sfdr j (codes j)).
Proof.
  intros P E. destruct (best_from _ _ _ _ _ _ _ _ _ _ _ _ _ _ E) as [[_ H] | (j & J & R & H1 & H2 & _)]; cbv beta zeta in *; cbn [Nat.add] in *; [destruct (H 0%nat P) as (b & Q & _); discriminate Q |]. exists j. repeat split; assumption.
Qed.
(** The run never fails if the record is a whole number of rounds and, for a harmonic, the amplitude is not zero. *)
Lemma c162_total sfdr us noises fin amp (K : nat) rms hd3 : forall p i s best, sized s -> s_fs s <> 0 -> (hd3 <> None -> amp <> 0) ->
  exists r hist, calibration_loop sfdr us noises fin amp (K * Z.to_nat (s_M s)) rms hd3 p i s best = Ok (r, hist).
Proof.
  induction p as [| p IH]; intros i s best SZ F A; cbn [calibration_loop]; [eauto |]. set (best' := match fst best with None => _ | Some b => _ end).
  assert (MK : make_sampler (s_M s) (s_fs s) (s_skew s) (s_vdls s) (Some (s_trim s)) = Ok s) by (destruct SZ as (PM & LS & LV & LT); unfold make_sampler; destruct (Z.eqb_spec (Z.of_nat (length (s_skew s))) (s_M s)); [| lia]; destruct (Z.eqb_spec (Z.of_nat (length (s_vdls s))) (s_M s)); [| lia]; cbn; destruct s; reflexivity).
  destruct (proj2 (proj2 (proj2 (c161_errors (s_M s) (s_fs s) (s_skew s) (s_vdls s) (Some (s_trim s))))) s fin amp (K * Z.to_nat (s_M s))%nat rms hd3 true (us i) (noises i) MK (proj1 SZ)) as (_ & _ & _ & C). destruct (C F SZ) as (x & EX & LX); [intros [H1 H2]; exact (A H1 H2) |].
  assert (PM : (0 < Z.to_nat (s_M s))%nat) by (destruct SZ as (Q & _); lia). destruct (c162_mad (Z.to_nat (s_M s)) K x PM LX) as (mad & EM & _). rewrite Z2Nat.id in EM by lia.
  assert (ES : exists s', calibration_step s fin amp (K * Z.to_nat (s_M s)) rms hd3 (us i) (noises i) = Ok s') by (unfold calibration_step; rewrite EX; cbn [bind]; rewrite EM; cbn [bind]; eexists; reflexivity). destruct ES as (s' & ES). rewrite ES. cbn [bind].
  destruct (c162_step _ _ _ _ _ _ _ _ _ SZ ES) as (mad' & _ & _ & SZ' & M' & F' & _). rewrite <- M'. destruct (IH (S i) s' best' SZ' ltac:(rewrite F'; exact F) A) as (r & h & E). rewrite E. cbn [bind fst snd]. eauto.
Qed.
(** With decisions that are right about one channel, its code comes within one of the right code and stays there. *)
Lemma c162_locks (decide : nat -> list Z -> list bool) vdls m target (codes : nat -> list Z) : (0 < m < length vdls)%nat -> (forall k, (m < length (codes k))%nat) -> (0 <= target < v_codes (nth m vdls (mkVdl 1 [] 0 0)))%Z ->
  (forall k, codes (S k) = update_trim (-1) vdls (codes k) (decide k (codes k))) ->
  (forall k, (target < nth m (codes k) 0%Z)%Z -> nth (m - 1) (decide k (codes k)) false = true) -> (forall k, (nth m (codes k) 0%Z < target)%Z -> nth (m - 1) (decide k (codes k)) false = false) ->
  forall k, (Z.abs (nth m (codes 0%nat) 0 - target) <= Z.of_nat k)%Z -> (Z.abs (nth m (codes k) 0 - target) <= 1)%Z.
Proof.
  intros Hm LM TG STEP UP DN. set (c := fun k => nth m (codes k) 0%Z).
  assert (N : forall k, c (S k) = zclip 0 (v_codes (nth m vdls (mkVdl 1 [] 0 0)) - 1) (c k + -1 * (2 * (if nth (m - 1) (decide k (codes k)) false then 1 else 0) - 1))%Z).
  { intros k. unfold c. rewrite STEP. unfold update_trim. rewrite (nth_map_in _ _ _ 0%nat) by (rewrite seq_length; apply LM). rewrite seq_nth by apply LM. cbn [Nat.add]. destruct (Nat.eqb_spec m 0); [lia |]. destruct (Nat.leb_spec (length vdls) m); [lia |]. reflexivity. }
  set (top := (v_codes (nth m vdls (mkVdl 1 [] 0 0)) - 1)%Z) in *.
  assert (S1 : forall k, (Z.abs (c (S k) - target) <= Z.max 1 (Z.abs (c k - target) - 1))%Z).
  { intros k. rewrite N. unfold zclip. destruct (Z.lt_trichotomy (c k) target) as [Q | [Q | Q]]; [rewrite (DN k Q); lia | destruct (nth (m - 1) (decide k (codes k)) false); lia | rewrite (UP k Q); lia]. }
  assert (B : forall k, (Z.abs (c k - target) <= Z.max 1 (Z.abs (c 0%nat - target) - Z.of_nat k))%Z) by (induction k as [| k IH]; [lia |]; pose proof (S1 k); lia).
  intros k K. specialize (B k). unfold c in B. lia.
Qed.
Ltac codes := cbn -[Rabs]; change (Pos.to_nat 1) with 1%nat; change (Pos.to_nat 2) with 2%nat; cbn -[Rabs].
Lemma line3 : make_vdl 3 1 0 0 (fun _ => 0) = Ok (mkVdl 3 [-1; 0; 1] 1 1).
Proof.
  unfold make_vdl. change (3 <? 1)%Z with false. cbn [raise_if]. change (Z.to_nat (3 - 1)) with 2%nat. change (Z.to_nat (3 / 2)) with 1%nat. cbn [seq map running nth]. rewrite Rmult_0_l, Rplus_0_r, Rmax_left by lra. change (3 / 2)%Z with 1%Z. do 2 f_equal. repeat (f_equal; try lra).
Qed.
(** Aligned channels do not stay aligned: the codes move in every pass. *)
Lemma c162_rests_refuted : exists s s', sized s /\ (forall m, (m < Z.to_nat (s_M s))%nat -> channel_skew s m = 0) /\ calibration_step s (1 / 4) 1 8 0 None 0 (fun _ => 0) = Ok s' /\ Rabs (channel_skew s' 1 - channel_skew s' 0) = 1.
Proof.
  pose (v := mkVdl 3 [-1; 0; 1] 1 1). pose (s := mkSampler 2 1 [0; 0] [v; v] [1; 1]%Z). assert (SZ : sized s) by (unfold sized, s; cbn; repeat split; lia).
  destruct (c162_total (fun _ _ => 0) (fun _ => 0) (fun _ _ => 0) (1 / 4) 1 4 0 None 1 0 s (None, []) SZ ltac:(cbn; lra) ltac:(congruence)) as (r & hist & E). cbn [calibration_loop] in E. change (4 * Z.to_nat (s_M s))%nat with 8%nat in E. destruct (calibration_step s (1 / 4) 1 8 0 None 0 (fun _ => 0)) as [s' |] eqn:ES; [| discriminate].
  exists s, s'. split; [exact SZ |]. split; [intros [| [| m]] Hm; [unfold channel_skew, s, v, vdl_delay, zclip; codes; lra | unfold channel_skew, s, v, vdl_delay, zclip; codes; lra | cbn in Hm; lia] |]. split; [exact ES |].
  destruct (c162_step _ _ _ _ _ _ _ _ _ SZ ES) as (mad & _ & _ & _ & _ & _ & SK & VD & _ & C0' & ST). destruct (ST 1%nat ltac:(cbn; lia)) as [S1 S2]. cbv zeta in S1, S2. unfold channel_skew. rewrite SK, VD, C0'. cbn [s_skew s_vdls s_trim s nth] in *. unfold top_code in *. cbn [s_vdls s nth v_codes v] in *.
  destruct (Rlt_le_dec (INR 1 * (lsum mad / INR (length mad))) (rsum 1 (fun j => nth j mad 0))) as [Q | Q]; [rewrite (S1 Q) | rewrite (S2 Q)]; unfold vdl_delay, zclip, v; codes; match goal with |- Rabs ?t = _ => first [replace t with 1 by lra; apply Rabs_R1 | replace t with (-1) by lra; rewrite Rabs_left; lra] end.
Qed.

Example c160_steps_ex : exists v, make_vdl 3 1 0 0 (fun _ => 0) = Ok v /\ vdl_delay v (-5) = -1 /\ vdl_delay v 1 = 0 /\ vdl_delay v 7 = 1 /\ vdl_range v = 2.
Proof. exists (mkVdl 3 [-1; 0; 1] 1 1). split; [exact line3 |]. unfold vdl_delay, vdl_range, zclip; codes; repeat split; lra. Qed.
Example c160_ends_ex : make_vdl 0 1 0 0 (fun _ => 0) = Err ValueError.
Proof. exact (proj1 (proj2 (c160_ends 0 1 0 0 (fun _ => 0))) ltac:(lia)). Qed.
Example c160_nearest_ex : nearest_code (mkVdl 3 [-1; 0; 1] 1 1) 1 = Ok 2%Z.
Proof. pose proof (proj1 (proj2 (c160_nearest 3 1 0 0 (fun _ => 0) _ line3)) ltac:(lra) 2%Z ltac:(lia)) as H. unfold vdl_delay, zclip in H. cbn in H. change (Pos.to_nat 2) with 2%nat in H. cbn in H. exact H. Qed.
Example c161_samples_ex : exists x, capture (mkSampler 2 2 [0; 1 / 4] [mkVdl 3 [-1; 0; 1] 1 1; mkVdl 3 [-1; 0; 1] 1 1] [1; 1]%Z) (1 / 2) 1 2 0 None false 0 (fun _ => 0) = Ok x /\ nth 1 x 0 = cos (3 * (PI / 4)).
Proof.
  set (s := mkSampler _ _ _ _ _). destruct (c161_samples s (1 / 2) 1 2 0 false 0 (fun _ => 0) ltac:(unfold sized, s; cbn; repeat split; lia) ltac:(cbn; lra) ltac:(lra)) as (x & E & _ & V). exists x. split; [exact E |]. rewrite V by lia. change (1 mod Z.to_nat (s_M s))%nat with 1%nat.
  unfold channel_skew, vdl_delay, zclip, s. codes. rewrite Rmult_1_l. f_equal. field.
Qed.
Example c161_aligned_ex : exists x, capture (mkSampler 1 1 [0] [mkVdl 3 [-1; 0; 1] 1 1] [2]%Z) (1 / 8) 1 4 0 None false 0 (fun _ => 0) = Ok x /\ is_record x (sine 1 (1 / 8 / 1) (2 * PI * (1 / 8) * 1 + 0) 0).
Proof.
  set (s := mkSampler _ _ _ _ _). assert (SZ : sized s) by (unfold sized, s; cbn; repeat split; lia). destruct (c161_samples s (1 / 8) 1 4 0 false 0 (fun _ => 0) SZ ltac:(cbn; lra) ltac:(lra)) as (x & E & _). exists x. split; [exact E |].
  refine (c161_aligned s (1 / 8) 1 4 0 false 0 (fun _ => 0) 1 x SZ _ ltac:(lra) _ E); [cbn; lra |]. intros [| m] Hm; [unfold channel_skew, vdl_delay, zclip, s; codes; lra | cbn in Hm; lia].
Qed.
Example c161_common_ex : let v := mkVdl 3 [-1; 0; 1] 1 1 in capture (mkSampler 2 1 [0 + 5; 1 + 5] [v; v] [1; 1]%Z) (1 / 8) 1 4 0 None true 0 (fun _ => 0) = capture (mkSampler 2 1 [0; 1] [v; v] [1; 1]%Z) (1 / 8) 1 4 0 None true (0 + 2 * PI * (1 / 8) * 5) (fun _ => 0).
Proof. intros v. exact (c161_common (mkSampler 2 1 [0; 1] [v; v] [1; 1]%Z) (1 / 8) 1 4 0 None 0 (fun _ => 0) 5 ltac:(unfold sized; cbn; repeat split; lia) ltac:(cbn; lra)). Qed.
Example c161_hd3_ex : exists x, capture (mkSampler 1 1 [0] [mkVdl 3 [-1; 0; 1] 1 1] [1]%Z) 1 2 1 0 (Some 0) false 0 (fun _ => 0) = Ok x /\ nth 0 x 0 = 10.
Proof.
  set (s := mkSampler _ _ _ _ _). destruct (c161_hd3 s 1 2 1 0 0 false 0 (fun _ => 0) ltac:(unfold sized, s; cbn; repeat split; lia) ltac:(cbn; lra) ltac:(lra) ltac:(lra)) as (x & E & _ & V). exists x. split; [exact E |]. rewrite (V 0%nat ltac:(lia)). change (0 mod Z.to_nat (s_M s))%nat with 0%nat.
  replace (0 / 20) with 0 by field. rewrite Rpower_O by lra. unfold channel_skew, vdl_delay, zclip, s. codes. replace (2 * PI * 1 * (0 / 1 + (0 + 0)) + 0) with 0 by field. rewrite Rmult_0_r, cos_0. lra.
Qed.
Example c161_ideal_codes_ex : let v := mkVdl 3 [-1; 0; 1] 1 1 in exists d, (0 <= d < 3 - 1)%Z /\ Rabs (channel_skew (mkSampler 2 1 [0; -1 / 4] [v; v] [1; 1]%Z) 1 - channel_skew (mkSampler 2 1 [0; -1 / 4] [v; v] [1; 1]%Z) 0) <= (vdl_delay v (d + 1) - vdl_delay v d) / 2.
Proof.
  intros v. refine (c161_ideal_codes (mkSampler 2 1 [0; -1 / 4] [v; v] [1; 1]%Z) 1 v 1 3 1 0 0 (fun _ => 0) line3 eq_refl eq_refl _ _); [| unfold channel_skew, vdl_delay, zclip, v; codes; lra].
  unfold nearest_code, channel_skew, vdl_delay, zclip, v. codes. rewrite !Rplus_0_l. replace (-1 - (0 - -1 / 4)) with (- (5 / 4)) by field. replace (0 - (0 - -1 / 4)) with (- (1 / 4)) by field. replace (1 - (0 - -1 / 4)) with (3 / 4) by field. rewrite !Rabs_Ropp, !Rabs_right by lra.
  unfold Rltb. destruct (Rlt_dec (1 / 4) (5 / 4)); [| lra]. destruct (Rlt_dec (3 / 4) (1 / 4)); [lra |]. reflexivity.
Qed.
Example c161_errors_ex : make_sampler 2 1 [0] [] None = Err AssertionError.
Proof. exact (proj1 (proj2 (c161_errors 2 1 [0] [] None)) ltac:(cbn; lia)). Qed.
Example c162_mad_ex : exists mad, mad_of 2 [0; 1; 3; 6] = Ok mad /\ nth 0 mad 0 = 1 /\ nth 1 mad 0 = 2.
Proof.
  destruct (c162_mad 2 2 [0; 1; 3; 6] ltac:(lia) eq_refl) as (mad & E & _ & V). exists mad. split; [exact E |]. rewrite !V by lia. cbn [Nat.sub rsum Nat.mul Nat.add nth]. split; (rewrite Rabs_right; [| lra]; ring).
Qed.
Example c162_gap_ex : let v := mkVdl 3 [-1; 0; 1] 1 1 in exists x mad, capture (mkSampler 2 1 [0; 0] [v; v] [1; 1]%Z) (1 / 2) 1 (2 * 2) 0 None false 0 (fun _ => 0) = Ok x /\ mad_of 2 x = Ok mad /\ nth 0 mad 0 = 2.
Proof.
  intros v. set (s := mkSampler _ _ _ _ _). destruct (c162_gap s (1 / 2) 1 2 0 false 0 (fun _ => 0) ltac:(unfold sized, s; cbn; repeat split; lia) ltac:(cbn; lra) ltac:(lra)) as (x & mad & E & EM & V). exists x, mad. split; [exact E |]. split; [exact EM |]. rewrite V by (cbn; lia).
  change (1 mod Z.to_nat (s_M s))%nat with 1%nat. assert (C0 : channel_skew s 0 = 0) by (unfold channel_skew, s, v, vdl_delay, zclip; codes; lra). assert (C1 : channel_skew s 1 = 0) by (unfold channel_skew, s, v, vdl_delay, zclip; codes; lra). unfold gap. change (1 mod Z.to_nat (s_M s))%nat with 1%nat. rewrite C0, C1. change (s_fs s) with 1. cbn [Nat.sub rsum Nat.mul Nat.add INR].
  replace (PI * (1 / 2) * (1 / 1 + 0 - 0)) with (PI / 2) by field. replace (PI * (1 / 2) * (1 / 1 + 0 + 0) + 0) with (PI / 2) by field. rewrite sin_PI2, !Rabs_R1. ring.
Qed.
Example c162_step_ex : let v := mkVdl 3 [-1; 0; 1] 1 1 in forall s', calibration_step (mkSampler 2 1 [0; 0] [v; v] [1; 1]%Z) (1 / 4) 1 8 0 None 0 (fun _ => 0) = Ok s' -> nth 0 (s_trim s') 0%Z = 1%Z /\ (nth 1 (s_trim s') 0%Z = 0%Z \/ nth 1 (s_trim s') 0%Z = 2%Z).
Proof.
  intros v s' E. set (s := mkSampler _ _ _ _ _) in E. assert (SZ : sized s) by (unfold sized, s; cbn; repeat split; lia). destruct (c162_step _ _ _ _ _ _ _ _ _ SZ E) as (mad & _ & _ & _ & _ & _ & _ & _ & _ & C & ST). split; [exact C |]. destruct (ST 1%nat ltac:(cbn; lia)) as [S1 S2].
  destruct (Rlt_le_dec (INR 1 * (lsum mad / INR (length mad))) (rsum 1 (fun j => nth j mad 0))) as [Q | Q]; [left; rewrite (S1 Q) | right; rewrite (S2 Q)]; reflexivity.
Qed.
Example c162_run_ex : let v := mkVdl 3 [-1; 0; 1] 1 1 in exists r hist, calibration_loop (fun _ _ => 60) (fun _ => 0) (fun _ _ => 0) (1 / 4) 1 8 0 None 5 0 (mkSampler 2 1 [0; 0] [v; v] [1; 1]%Z) (None, [1; 1]%Z) = Ok (r, hist) /\ length hist = 5%nat /\ nth 0 (nth 4 hist []) 0%Z = 1%Z /\ r = (Some 60, [1; 1]%Z).
Proof.
  intros v. set (s := mkSampler _ _ _ _ _). assert (SZ : sized s) by (unfold sized, s; cbn; repeat split; lia).
  destruct (c162_total (fun _ _ => 60) (fun _ => 0) (fun _ _ => 0) (1 / 4) 1 4 0 None 5 0 s (None, [1; 1]%Z) SZ ltac:(cbn; lra) ltac:(congruence)) as (r & hist & E). exists r, hist. split; [exact E |].
  assert (TC : forall m, (m < Z.to_nat (s_M s))%nat -> (0 <= top_code s m)%Z) by (intros [| [| m]] Hm; [cbn; lia | cbn; lia | cbn in Hm; lia]). destruct (c162_run _ _ _ _ _ _ _ _ _ _ _ _ _ _ SZ TC E) as (LH & H). split; [exact LH |]. split; [exact (proj1 (H 4%nat ltac:(lia))) |].
  destruct (c162_best _ _ _ _ _ _ _ _ 5 s _ _ ltac:(lia) E) as (j & J & R & _ & ST). destruct j as [| j]; [exact R |]. specialize (ST 0%nat ltac:(lia)). cbv beta in ST. lra.
Qed.
Example c162_best_ex : let v := mkVdl 3 [-1; 0; 1] 1 1 in exists r hist, calibration_loop (fun i _ => if (i =? 2)%nat then 70 else 60) (fun _ => 0) (fun _ _ => 0) (1 / 4) 1 8 0 None 5 0 (mkSampler 2 1 [0; 0] [v; v] [1; 1]%Z) (None, [1; 1]%Z) = Ok (r, hist) /\ r = (Some 70, nth 1 hist []).
Proof.
  intros v. set (s := mkSampler _ _ _ _ _). assert (SZ : sized s) by (unfold sized, s; cbn; repeat split; lia). set (q := fun (i : nat) (_ : list Z) => if (i =? 2)%nat then 70 else 60).
  destruct (c162_total q (fun _ => 0) (fun _ _ => 0) (1 / 4) 1 4 0 None 5 0 s (None, [1; 1]%Z) SZ ltac:(cbn; lra) ltac:(congruence)) as (r & hist & E). exists r, hist. split; [exact E |].
  destruct (c162_best _ _ _ _ _ _ _ _ 5 s _ _ ltac:(lia) E) as (j & J & R & MX & ST). cbv beta in *. specialize (MX 2%nat ltac:(lia)). unfold q in MX at 1. cbn [Nat.eqb] in MX. unfold q in MX, R. destruct (Nat.eqb_spec j 2) as [-> | N]; [exact R | lra].
Qed.
Example c162_total_ex : let v := mkVdl 3 [-1; 0; 1] 1 1 in exists r hist, calibration_loop (fun _ _ => 60) (fun _ => 0) (fun _ _ => 0) (1 / 4) 1 (4 * 2) (1 / 2) (Some (-60)) 3 0 (mkSampler 2 1 [0; 0] [v; v] [1; 1]%Z) (None, [1; 1]%Z) = Ok (r, hist).
Proof. intros v. exact (c162_total (fun _ _ => 60) (fun _ => 0) (fun _ _ => 0) (1 / 4) 1 4 (1 / 2) (Some (-60)) 3 0 (mkSampler 2 1 [0; 0] [v; v] [1; 1]%Z) (None, [1; 1]%Z) ltac:(unfold sized; cbn; repeat split; lia) ltac:(cbn; lra) ltac:(intros; lra)). Qed.
Example c162_locks_ex : let v := mkVdl 9 [] 4 1 in let decide (k : nat) (t : list Z) := [(6 <? nth 1 t 0)%Z] in let step t := update_trim (-1) [v; v] t (decide 0%nat t) in
  let t3 := step (step (step [4; 3]%Z)) in t3 = [4; 6]%Z /\ step t3 = [4; 7]%Z /\ step (step t3) = [4; 6]%Z.
Proof. repeat split. Qed.
