(** * The MATLAB functions against their Python ports. *)
From Coq Require Import Znumtheory Zpow_facts.
From Verif Require Import Base BaseLemmas FreqModel FreqSpec FreqProofs CapModel TiModel Cplx SiggenModel RampModel SineHistModel BandModel BandSpec BandProofs DoutModel MatModel MatSpec.
Local Open Scope R_scope.

Lemma floor_split x : IZR (Zfloor x) <= x < IZR (Zfloor x) + 1.
Proof. split; [apply Zfloor_lb | apply Zfloor_ub]. Qed.
Lemma floor_is x k : IZR k <= x < IZR k + 1 -> Zfloor x = k.
Proof. intros H. apply Zfloor_imp. rewrite plus_IZR. exact H. Qed.

(** ** C163: alias and findbin *)
(** The two alias functions agree for every frequency; the MATLAB one refuses a sampling rate that is not positive. *)
Lemma c163_alias fin fs : (0 < fs -> m_alias fin fs = Ok (fold_frequency fin fs)) /\ (fs <= 0 -> m_alias fin fs = Err RuntimeError).
Proof.
  split; intros F; unfold m_alias, Rleb; destruct (Rle_dec fs 0); try lra; cbn [raise_if]; [| reflexivity]. f_equal. apply (nmd_unique fin fs); [| apply fold_nearest; exact F].
  set (x := fin / fs). set (q := Zfloor x). pose proof (floor_split x) as [L U]. fold q in L, U. assert (EF : fin = x * fs) by (unfold x; field; lra).
  assert (DM : forall k, Rabs (fin - IZR k * fs) = fs * Rabs (x - IZR k)) by (intros k; rewrite EF; replace (x * fs - IZR k * fs) with (fs * (x - IZR k)) by ring; rewrite Rabs_mult, (Rabs_pos_eq fs) by lra; reflexivity).
  assert (B : forall k, x - IZR q <= Rabs (x - IZR k) \/ IZR q + 1 - x <= Rabs (x - IZR k)).
  { intros k. destruct (Z_le_gt_dec k q) as [K | K]; [left | right].
    - apply IZR_le in K. rewrite Rabs_pos_eq; lra.
    - assert (K' : (q + 1 <= k)%Z) by lia. apply IZR_le in K'. rewrite plus_IZR in K'. rewrite Rabs_left1; lra. }
  destruct (Rlt_le_dec (x - IZR q) (1 / 2)) as [H | H].
  - assert (Z2 : Zfloor (x * 2) = (2 * q)%Z) by (apply floor_is; rewrite mult_IZR; lra). rewrite Z2. rewrite (Z.mul_comm 2 q), Z.mod_mul by lia. cbn [Z.eqb]. split.
    + exists q. rewrite DM, Rabs_pos_eq by lra. rewrite EF. ring.
    + intros k. rewrite DM. replace (fin - IZR q * fs) with (fs * (x - IZR q)) by (rewrite EF; ring). apply Rmult_le_compat_l; [lra |]. destruct (B k); lra.
  - assert (Z2 : Zfloor (x * 2) = (1 + q * 2)%Z) by (apply floor_is; rewrite plus_IZR, mult_IZR; lra). rewrite Z2. rewrite Z.mod_add by lia. cbn [Z.eqb Z.modulo]. change (1 mod 2 =? 0)%Z with false. cbv iota. split.
    + exists (q + 1)%Z. rewrite DM, plus_IZR, Rabs_left1 by lra. rewrite EF. ring.
    + intros k. rewrite DM. replace (fs - (fin - IZR q * fs)) with (fs * (IZR q + 1 - x)) by (rewrite EF; ring). apply Rmult_le_compat_l; [lra |]. destruct (B k); lra.
Qed.

Definition m_hit (start n e : Z) : Prop := Z.gcd (start + e) n = 1%Z \/ (0 < start - e)%Z /\ Z.gcd (start - e) n = 1%Z.
Lemma search_spec : forall fuel start n d,
  (exists e, (d <= e < d + Z.of_nat fuel)%Z /\ m_hit start n e) ->
  exists e b, m_search fuel start n d = Some b /\ (d <= e)%Z /\ (forall e', (d <= e' < e)%Z -> ~ m_hit start n e') /\
    ((b = (start + e)%Z /\ Z.gcd b n = 1%Z) \/ (b = (start - e)%Z /\ (0 < b)%Z /\ Z.gcd b n = 1%Z /\ Z.gcd (start + e) n <> 1%Z)).
Proof.
  induction fuel as [| fuel IH]; intros start n d (e & E & H); [lia |]. cbn [m_search]. destruct (Z.eqb_spec (Z.gcd (start + d) n) 1) as [G | G].
  - exists d, (start + d)%Z. split; [reflexivity |]. split; [lia |]. split; [intros; lia |]. left. split; [reflexivity | exact G].
  - destruct (Z.ltb_spec 0 (start - d)) as [P | P]; [destruct (Z.eqb_spec (Z.gcd (start - d) n) 1) as [G' | G'] |]; cbn [andb].
    + exists d, (start - d)%Z. split; [reflexivity |]. split; [lia |]. split; [intros; lia |]. right. repeat split; assumption.
    + assert (ND : ~ m_hit start n d) by (unfold m_hit; tauto). destruct (IH start n (d + 1)%Z) as (e1 & b & S1 & S2 & S3 & S4); [exists e; split; [destruct (Z.eq_dec e d) as [-> |]; [contradiction | lia] | exact H] |].
      exists e1, b. split; [exact S1 |]. split; [lia |]. split; [| exact S4]. intros e' E'. destruct (Z.eq_dec e' d) as [-> |]; [exact ND | apply S3; lia].
    + assert (ND : ~ m_hit start n d) by (unfold m_hit; intros [Q | [Q _]]; [tauto | lia]). destruct (IH start n (d + 1)%Z) as (e1 & b & S1 & S2 & S3 & S4); [exists e; split; [destruct (Z.eq_dec e d) as [-> |]; [contradiction | lia] | exact H] |].
      exists e1, b. split; [exact S1 |]. split; [lia |]. split; [| exact S4]. intros e' E'. destruct (Z.eq_dec e' d) as [-> |]; [exact ND | apply S3; lia].
Qed.
Lemma one_in_reach start n : (0 < n)%Z -> exists e, (0 <= e < n)%Z /\ Z.gcd (start + e) n = 1%Z.
Proof.
  intros N. exists ((1 - start) mod n)%Z. split; [apply Z.mod_pos_bound; exact N |]. rewrite Z.gcd_comm, <- Z.gcd_mod by lia. rewrite Z.add_mod_idemp_r by lia. replace (start + (1 - start))%Z with 1%Z by ring. rewrite Z.gcd_mod by lia. apply Z.gcd_1_r.
Qed.
Lemma gcd_one_fwd a n : Z.gcd a n = 1%Z -> Z.gcd n a = 1%Z.
Proof. rewrite Z.gcd_comm. auto. Qed.
(** findbin stops after at most n distances with a bin prime to n; for a frequency that is not negative it is positive (unless
    n = 1) and no positive bin prime to n is nearer to the rounded-down target, the upper of two. *)
Lemma c163_findbin fs fin n fuel : 0 < fs -> (0 < n)%Z -> (Z.to_nat n <= fuel)%nat -> let start := Zfloor (fin / fs * IZR n) in
  exists b, m_findbin fuel fs fin n = Ok (Some b) /\ Z.gcd b n = 1%Z /\ (0 <= fin -> (0 <= b)%Z /\ (n <> 1%Z -> (0 < b)%Z)) /\
  (forall c, (0 < c)%Z -> Z.gcd c n = 1%Z -> (Z.abs (b - start) < Z.abs (c - start) \/ b = c \/ (Z.abs (b - start) = Z.abs (c - start) /\ c < b))%Z).
Proof.
  intros F N FU start. destruct (one_in_reach start n N) as (e0 & E0 & G0). destruct (search_spec fuel start n 0) as (e & b & S1 & S2 & S3 & S4); [exists e0; split; [lia | left; exact G0] |].
  exists b. unfold m_findbin, Rleb. destruct (Rle_dec fs 0); [lra |]. destruct (Z.leb_spec n 0); [lia |]. cbn [raise_if]. fold start. rewrite S1. split; [reflexivity |].
  assert (GB : Z.gcd b n = 1%Z) by (destruct S4 as [[_ Q] | (_ & _ & Q & _)]; exact Q). split; [exact GB |]. split.
  - intros F0. assert (ST : (0 <= start)%Z). { apply Zfloor_lub. apply Rmult_le_pos; [apply Rdiv_le_0_compat; assumption | apply IZR_le; lia]. }
    assert (B0 : (0 <= b)%Z) by (destruct S4 as [[-> _] | (_ & Q & _)]; lia). split; [exact B0 |]. intros N1. destruct (Z.eq_dec b 0) as [-> |]; [| lia]. rewrite Z.gcd_0_l in GB. lia.
  - intros c C G. set (dc := Z.abs (c - start)). assert (HC : m_hit start n dc).
    { unfold m_hit, dc. destruct (Z_le_gt_dec start c); [left; replace (start + Z.abs (c - start))%Z with c by lia; exact G | right; replace (start - Z.abs (c - start))%Z with c by lia; split; assumption]. }
    assert (BE : Z.abs (b - start) = e) by (destruct S4 as [[-> _] | (-> & _)]; lia). rewrite BE. assert (LE : (e <= dc)%Z) by (destruct (Z_lt_ge_dec dc e) as [Q |]; [exfalso; apply (S3 dc); [unfold dc in *; lia | exact HC] | lia]).
    destruct (Z.eq_dec e dc) as [Q |]; [| left; lia]. right. unfold dc in Q. destruct S4 as [[-> _] | (-> & _ & _ & NG)]; [lia |]. destruct (Z_le_gt_dec start c); [| lia]. exfalso. apply NG. replace (start + e)%Z with c by lia. exact G.
Qed.
(** A negative frequency gives a negative bin. *)
Lemma c163_positive_refuted : m_findbin 8 1 (-3 / 8) 8 = Ok (Some (-3)%Z).
Proof.
  unfold m_findbin, Rleb. destruct (Rle_dec 1 0); [lra |]. change (8 <=? 0)%Z with false. cbn [raise_if]. replace (Zfloor (-3 / 8 / 1 * IZR 8)) with (-3)%Z by (symmetry; apply floor_is; lra). reflexivity.
Qed.
Lemma odd_coprime b m : (0 < m)%Z -> Z.gcd b (2 ^ m) = 1%Z <-> Z.Odd b.
Proof.
  intros M. split; intros H.
  - destruct (Z.Even_or_Odd b) as [[k ->] | O]; [exfalso | exact O]. assert (D : (2 | Z.gcd (2 * k) (2 ^ m))%Z). { apply Z.gcd_greatest; [exists k; ring |]. exists (2 ^ (m - 1))%Z. rewrite Z.mul_comm, <- Z.pow_succ_r by lia. f_equal. lia. } rewrite H in D. destruct D as [q Q]. lia.
  - apply Zgcd_1_rel_prime. apply rel_prime_Zpower_r; [lia |]. apply Zgcd_1_rel_prime. destruct H as [k ->]. replace (2 * k + 1)%Z with (1 + k * 2)%Z by ring. rewrite Z.gcd_comm, <- Z.gcd_mod by lia. rewrite Z.mod_add by lia. reflexivity.
Qed.
(** For record lengths that are powers of two the two searches agree unless the target is exactly an even bin, where the MATLAB
    one goes up and the Python one down. *)
Lemma c163_power_of_two fs fin m fo r f b b' : 0 < fs -> 0 <= fin -> (0 < m)%Z -> (1 <= r)%Z -> let n := (2 ^ m)%Z in let t := fin / fs * IZR n in
  m_findbin (Z.to_nat n) fs fin n = Ok (Some b) -> find_coherent_frequency fs fin n fo r = Ok (f, b') ->
  ((~ exists j, (0 < j)%Z /\ t = IZR (2 * j)) -> b = b') /\ (forall j, (0 < j)%Z -> t = IZR (2 * j) -> b = (2 * j + 1)%Z /\ b' = (2 * j - 1)%Z).
Proof.
  intros F F0 M RR n t EB EB'. assert (N2 : (2 <= n)%Z) by (unfold n; change 2%Z with (2 ^ 1)%Z at 1; apply Z.pow_le_mono_r; lia).
  assert (T0 : 0 <= t) by (unfold t; apply Rmult_le_pos; [apply Rdiv_le_0_compat; assumption | apply IZR_le; lia]).
  destruct (c163_findbin fs fin n (Z.to_nat n) F ltac:(lia) ltac:(lia)) as (b0 & E0 & G & P & NR). assert (b0 = b) by congruence. subst b0. specialize (P F0). destruct P as [_ P]. specialize (P ltac:(lia)). fold t in NR.
  destruct (c10_nearest_bin _ _ _ _ _ _ _ EB') as (_ & _ & (P' & O' & G') & W' & _ & NR' & TI'). fold t in W', NR', TI'.
  assert (ADM : forall c, (0 < c)%Z -> Z.Odd c -> admissible fo n c /\ Z.gcd c n = 1%Z) by (intros c C O; assert (GC : Z.gcd c n = 1%Z) by (apply odd_coprime; assumption); split; [split; [exact C | split; [intros; exact O | exact GC]] | exact GC]).
  apply (odd_coprime _ _ M) in G. apply (odd_coprime _ _ M) in G'. set (q := Zfloor t) in *. pose proof (floor_split t) as [L U]. fold q in L, U. assert (Q0 : (0 <= q)%Z) by (apply Zfloor_lub; exact T0).
  destruct (Z.Even_or_Odd q) as [[j Ej] | O].
  - (* even: the next odd bin above *)
    assert (O1 : Z.Odd (2 * j + 1)) by (exists j; reflexivity). destruct (ADM (2 * j + 1)%Z ltac:(lia) O1) as [A1 G1]. assert (EB1 : b = (2 * j + 1)%Z). { destruct (NR (2 * j + 1)%Z ltac:(lia) G1) as [Q | [Q | [Q Q']]]; [| exact Q |]; destruct G as [i Ei]; lia. }
    assert (L' : IZR (2 * j) <= t < IZR (2 * j) + 1) by (rewrite <- Ej; split; assumption). clear L U.
    pose proof (NR' _ A1) as D1. rewrite plus_IZR in D1.
    split.
    + intros NT. destruct G' as [i Ei]. destruct (Z.lt_trichotomy i j) as [C | [C | C]]; [exfalso | subst; reflexivity | exfalso].
      * assert (I1 : IZR b' <= IZR (2 * j) - 1) by (rewrite <- minus_IZR; apply IZR_le; lia). rewrite (Rabs_left1 (IZR b' - t)) in D1 by lra. rewrite Rabs_pos_eq in D1 by lra. assert (TE : t = IZR (2 * j)) by lra. apply NT. exists j. split; [| exact TE]. destruct (Z_le_gt_dec j 0); [| lia]. lia.
      * assert (I1 : IZR (2 * j) + 3 <= IZR b') by (rewrite <- plus_IZR; apply IZR_le; lia). rewrite (Rabs_pos_eq (IZR b' - t)) in D1 by lra. rewrite Rabs_pos_eq in D1 by lra. lra.
    + intros j' J' TE. assert (j' = j). { rewrite TE in L'. destruct L' as [L1 L2]. apply le_IZR in L1. rewrite <- plus_IZR in L2. apply lt_IZR in L2. lia. } subst j'. split; [exact EB1 |].
      destruct G' as [i Ei]. rewrite TE in D1, TI', W'. rewrite <- minus_IZR in D1. replace (IZR (2 * j) + 1 - IZR (2 * j)) with 1 in D1 by ring. rewrite Rabs_R1 in D1. rewrite <- abs_IZR in D1. apply le_IZR in D1.
      assert (O3 : Z.Odd (2 * j - 1)) by (exists (j - 1)%Z; lia). destruct (ADM (2 * j - 1)%Z ltac:(lia) O3) as [A3 _]. destruct (Z.eq_dec b' (2 * j - 1)) as [Q |]; [exact Q |]. assert (b' = (2 * j + 1)%Z) by lia. exfalso.
      assert (RI : round_he (IZR (2 * j)) = (2 * j)%Z) by (unfold round_he; apply Znearest_imp; rewrite Rminus_diag_eq, Rabs_R0; lra).
      pose proof (TI' (2 * j - 1)%Z A3 ltac:(rewrite RI; lia)) as TT. rewrite H, <- !minus_IZR, <- !abs_IZR in TT. replace (2 * j - 1 - 2 * j)%Z with (-1)%Z in TT by ring. replace (2 * j + 1 - 2 * j)%Z with 1%Z in TT by ring. specialize (TT eq_refl). lia.
  - (* odd: the bin itself *)
    destruct (Z.eq_dec q 0) as [Z0 |]; [destruct O as [i Ei]; lia |]. destruct (ADM q ltac:(lia) O) as [A1 G1]. assert (EB1 : b = q) by (destruct (NR q ltac:(lia) G1) as [Q | [Q | [Q Q']]]; lia). pose proof (NR' _ A1) as D1. rewrite (Rabs_left1 (IZR q - t)) in D1 by lra.
    assert (EQ : b' = q). { destruct (Z.lt_trichotomy b' q) as [C | [C | C]]; [| exact C |]; exfalso.
      - assert (C' : (b' <= q - 2)%Z) by (destruct G' as [i Ei]; destruct O as [i' Ei']; lia). apply IZR_le in C'. rewrite minus_IZR in C'. rewrite Rabs_left1 in D1 by lra. lra.
      - assert (C' : (q + 2 <= b')%Z) by (destruct G' as [i Ei]; destruct O as [i' Ei']; lia). apply IZR_le in C'. rewrite plus_IZR in C'. rewrite Rabs_pos_eq in D1 by lra. lra. }
    split; [intros _; congruence |]. intros j J TE. exfalso. destruct O as [i Ei]. assert (q = (2 * j)%Z) by (unfold q; rewrite TE; apply Zfloor_IZR). lia.
Qed.
(** For other lengths the rounding down can lose the nearest bin. *)
Lemma c163_nearest_refuted : exists f, m_findbin 5 1 (19 / 50) 5 = Ok (Some 1%Z) /\ find_coherent_frequency 1 (19 / 50) 5 false 10 = Ok (f, 2%Z).
Proof.
  assert (T : 19 / 50 / 1 * IZR 5 = 19 / 10) by lra. destruct (coherent_eval 1 (19 / 50) 5 false 10 ltac:(lra)) as [[_ H] | (b & A & W & MN & E)]; rewrite T in *.
  - exfalso. assert (RI : round_he (19 / 10) = 2%Z) by (unfold round_he; apply Znearest_imp; rewrite Rabs_left1; lra). apply (H 2%Z); [repeat split; discriminate | rewrite RI; lia].
  - change (5 =? 0)%Z with false in E. cbv iota in E. assert (RI : round_he (19 / 10) = 2%Z) by (unfold round_he; apply Znearest_imp; rewrite Rabs_left1; lra). rewrite RI in *.
    assert (b = 2%Z). { destruct (MN 2%Z ltac:(repeat split; discriminate) ltac:(lia)) as [D _]. rewrite (Rabs_pos_eq (2 - 19 / 10)) in D by lra. destruct (Z.lt_trichotomy b 2) as [C | [C | C]]; [exfalso | exact C | exfalso].
      - assert (C' : (b <= 1)%Z) by lia. apply IZR_le in C'. rewrite Rabs_left1 in D by lra. lra.
      - assert (C' : (3 <= b)%Z) by lia. apply IZR_le in C'. rewrite Rabs_pos_eq in D by lra. lra. }
    subst b. eexists. split; [| exact E]. unfold m_findbin, Rleb. destruct (Rle_dec 1 0); [lra |]. change (5 <=? 0)%Z with false. cbn [raise_if]. rewrite T. replace (Zfloor (19 / 10)) with 1%Z by (symmetry; apply floor_is; lra). reflexivity.
Qed.

(** ** C164: cdacwgt *)
Lemma cap_steps_agree l : forall st, 0 <= snd st -> Forall (fun c => 0 < fst (fst c) /\ 0 <= snd (fst c) /\ 0 <= snd c) l -> fold_left m_cap_step l st = fold_left cap_step l st.
Proof.
  induction l as [| [[cd cb] cp] l IH]; intros [ws Cl] S H; [reflexivity |]. cbn [fold_left]. inversion H as [| ? ? H1 H2]; subst. cbn [fst snd] in *. destruct H1 as (A & B & C).
  assert (E : m_cap_step (ws, Cl) (cd, cb, cp) = cap_step (ws, Cl) (cd, cb, cp) /\ 0 <= snd (m_cap_step (ws, Cl) (cd, cb, cp))).
  { unfold m_cap_step, cap_step. replace (cp + cd + Cl) with (cd + cp + Cl) by ring. set (Ct := cd + cp + Cl). assert (PC : 0 < Ct) by (unfold Ct; lra). unfold Reqb. destruct (Req_EM_T Ct 0); [lra |]. cbn [snd]. unfold Rltb. destruct (Req_EM_T cb 0) as [Z0 | NZ]; destruct (Rlt_dec 0 cb) as [P | P]; try lra.
    - split; [| lra]. f_equal. f_equal. apply map_ext. intros w. field. lra.
    - split.
      + f_equal; [f_equal; apply map_ext; intros w; field; lra | field; lra].
      + apply Rlt_le. apply Rdiv_lt_0_compat; [lra |]. apply Rplus_lt_0_compat; apply Rdiv_lt_0_compat; lra. }
  destruct E as [E P]. rewrite E in *. apply IH; assumption.
Qed.
Lemma existsb_false {A} (f : A -> bool) l : existsb f l = false <-> Forall (fun x => f x = false) l.
Proof. induction l as [| x l IH]; cbn [existsb]; [split; [constructor | reflexivity] |]. rewrite orb_false_iff, IH. split; [intros [A1 B1]; constructor; assumption | intros H; inversion H; subst; split; assumption]. Qed.
Lemma rev_app_comm {A} (l : list A) : length (rev l) = length l.
Proof. apply rev_length. Qed.
(** On everything the MATLAB function accepts (most significant bit first) the Python one (least significant first) gives the same
    weights and the same total capacitance. *)
Lemma c164_agree cd cb cp : (cap_valid cd cb cp -> exists w c, m_cdacwgt cd cb cp = Ok (w, c) /\ convert_cap_to_weight (rev cd) (rev cb) (rev cp) = Ok (rev w, c)) /\
  (~ cap_valid cd cb cp -> m_cdacwgt cd cb cp = Err RuntimeError).
Proof.
  unfold m_cdacwgt.
  assert (E1 : ((length cd =? 0) || (length cb =? 0) || (length cp =? 0))%nat = false <-> (length cd <> 0 /\ length cb <> 0 /\ length cp <> 0)%nat) by (rewrite !orb_false_iff, !Nat.eqb_neq; tauto).
  assert (E2 : negb ((length cb =? length cd) && (length cp =? length cd))%nat = false <-> length cb = length cd /\ length cp = length cd) by (rewrite negb_false_iff, andb_true_iff, !Nat.eqb_eq; tauto).
  assert (E3 : existsb (fun x => Rleb x 0) cd = false <-> Forall (fun x => 0 < x) cd) by (rewrite existsb_false, !Forall_forall; split; intros H x Hx; specialize (H x Hx); unfold Rleb in *; destruct (Rle_dec x 0); try discriminate; try reflexivity; lra).
  assert (E4 : forall l, existsb (fun x => Rltb x 0) l = false <-> Forall (fun x => 0 <= x) l) by (intros l; rewrite existsb_false, !Forall_forall; split; intros H x Hx; specialize (H x Hx); unfold Rltb in *; destruct (Rlt_dec x 0); try discriminate; try reflexivity; lra).
  split.
  - intros (L0 & L1 & L2 & P1 & P2 & P3). rewrite (proj2 E1) by lia. rewrite (proj2 E2) by tauto. rewrite (proj2 E3) by exact P1. rewrite (proj2 (E4 cb)), (proj2 (E4 cp)) by assumption. cbn [orb raise_if]. set (l := combine _ _).
    eexists _, _. split; [reflexivity |]. unfold convert_cap_to_weight. rewrite !rev_length, L1, L2, !Nat.eqb_refl. cbn [andb negb]. fold l. rewrite rev_involutive. rewrite (cap_steps_agree l); [destruct (fold_left cap_step l ([], 0)); reflexivity | cbn; lra |].
    apply Forall_forall. intros [[a b] c] Hin. apply in_combine_l in Hin as H1. apply in_combine_r in Hin as H3. apply in_combine_l in H1 as H2. apply in_combine_r in H1 as H4. apply in_rev in H2, H3, H4. rewrite Forall_forall in P1, P2, P3. cbn [fst snd]. repeat split; auto.
  - intros NV. destruct ((length cd =? 0) || (length cb =? 0) || (length cp =? 0))%nat eqn:B1; cbn [raise_if]; [reflexivity |]. destruct (negb _) eqn:B2; cbn [raise_if]; [reflexivity |]. destruct (existsb (fun x => Rleb x 0) cd) eqn:B3; cbn [raise_if]; [reflexivity |].
    destruct (existsb (fun x => Rltb x 0) cb) eqn:B4; cbn [orb raise_if]; [reflexivity |]. destruct (existsb (fun x => Rltb x 0) cp) eqn:B5; cbn [raise_if]; [reflexivity |]. exfalso. apply NV. pose proof (proj1 E1 eq_refl) as Q1. pose proof (proj1 E2 eq_refl) as Q2. pose proof (proj1 E3 eq_refl) as Q3. apply E4 in B4, B5. unfold cap_valid. repeat split; try tauto. lia.
Qed.

(** ** C165: ifilter *)
Lemma he_low x k : IZR k <= x < IZR k + 1 / 2 -> round_he x = k.
Proof. intros H. unfold round_he. apply Znearest_imp. rewrite Rabs_pos_eq; lra. Qed.
Lemma he_high x k : IZR k + 1 / 2 < x <= IZR k + 1 -> round_he x = (k + 1)%Z.
Proof. intros H. unfold round_he. apply Znearest_imp. rewrite plus_IZR, Rabs_left1; lra. Qed.
Lemma he_half k : round_he (IZR k + 1 / 2) = if Z.even k then k else (k + 1)%Z.
Proof.
  unfold round_he, Znearest. assert (EF : Zfloor (IZR k + 1 / 2) = k) by (apply floor_is; lra). rewrite EF. replace (IZR k + 1 / 2 - IZR k) with (/ 2) by lra. rewrite Rcompare_Eq by reflexivity. rewrite Zceil_floor_neq by (rewrite EF; lra). rewrite EF. destruct (Z.even k); reflexivity.
Qed.
Lemma round_same x : 0 <= x -> (m_round x = round_he x <-> ~ tie x).
Proof.
  intros X. unfold m_round, Rleb. destruct (Rle_dec 0 x); [| lra]. pose proof (floor_split x) as [L U]. set (k := Zfloor x) in *. destruct (Rtotal_order (x - IZR k) (1 / 2)) as [H | [H | H]].
  - rewrite (he_low x k) by lra. rewrite (floor_is (x + 1 / 2) k) by lra. split; [intros _ (j & _ & E) | reflexivity]. assert (JK : j = k) by (symmetry; apply floor_is; lra). rewrite JK in E. lra.
  - assert (EX : x = IZR k + 1 / 2) by lra. rewrite EX at 1 2. rewrite he_half. rewrite (floor_is (IZR k + 1 / 2 + 1 / 2) (k + 1)%Z) by (rewrite plus_IZR; lra). destruct (Z.even k) eqn:EK.
    + split; [lia | intros N; exfalso; apply N; exists k; split; [apply Z.even_spec; exact EK | exact EX]].
    + split; [intros _ (j & J & E) | reflexivity]. assert (JK : j = k) by (symmetry; apply floor_is; lra). rewrite JK in J. apply Z.even_spec in J. congruence.
  - rewrite (he_high x k) by lra. rewrite (floor_is (x + 1 / 2) (k + 1)%Z) by (rewrite plus_IZR; lra). split; [intros _ (j & _ & E) | reflexivity]. assert (JK : j = k) by (symmetry; apply floor_is; lra). rewrite JK in E. lra.
Qed.
Lemma fold_int (f : Z) N : (0 < N)%nat -> fold_frequency (IZR f) (INR N) = IZR (round_he (fold_frequency (IZR f) (INR N))).
Proof.
  intros PN. unfold fold_frequency at 1 2. rewrite INR_IZR_INZ, <- mult_IZR, <- minus_IZR, <- abs_IZR. set (z := Z.abs _). rewrite (he_low (IZR z) z) by lra. reflexivity.
Qed.
Lemma ids_agree N lo hi : (0 < N)%nat -> ~ tie (Rmin lo hi * INR N) -> ~ tie (Rmax lo hi * INR N) -> 0 <= lo -> 0 <= hi -> m_band_ids N lo hi = map IZR (band_ids N lo hi).
Proof.
  intros PN T1 T2 L H. assert (PN' : 0 < INR N) by (apply lt_0_INR; exact PN). unfold m_band_ids, band_ids. 
  assert (P1 : 0 <= Rmin lo hi * INR N) by (apply Rmult_le_pos; [unfold Rmin; destruct (Rle_dec lo hi); assumption | lra]). assert (P2 : 0 <= Rmax lo hi * INR N) by (apply Rmult_le_pos; [unfold Rmax; destruct (Rle_dec lo hi); assumption | lra]).
  rewrite (proj2 (round_same _ P1)), (proj2 (round_same _ P2)) by assumption. rewrite map_map. apply map_ext. intros f.
  rewrite (proj1 (c163_alias (IZR f) (INR N)) PN'). apply fold_int. exact PN.
Qed.
Lemma hits_agree N h b k : N = (2 * h)%nat -> (0 < N)%nat -> 0 <= fst b -> 0 <= snd b -> ~ tie (Rmin (fst b) (snd b) * INR N) -> ~ tie (Rmax (fst b) (snd b) * INR N) -> m_band_hits N b k = band_hits N b k.
Proof.
  intros EN PN L H T1 T2. unfold m_band_hits, band_hits. rewrite ids_agree by assumption. generalize (band_ids N (fst b) (snd b)) as l. assert (RE : forall a c, Reqb (IZR a) (IZR c) = (a =? c)%Z) by (intros a c; unfold Reqb; destruct (Req_EM_T (IZR a) (IZR c)) as [Q | Q]; destruct (Z.eqb_spec a c) as [P | P]; try reflexivity; [apply eq_IZR in Q; contradiction | exfalso; apply Q; f_equal; exact P]).
  assert (RL : forall a c, Rltb (IZR a) (IZR c) = (a <? c)%Z) by (intros a c; unfold Rltb; destruct (Rlt_dec (IZR a) (IZR c)) as [Q | Q]; destruct (Z.ltb_spec a c) as [P | P]; try reflexivity; [apply lt_IZR in Q; lia | exfalso; apply Q, IZR_lt, P]).
  assert (ND : (N / 2 = h)%nat) by (rewrite EN, Nat.mul_comm; apply Nat.div_mul; lia). rewrite ND. replace (INR N / 2) with (IZR (Z.of_nat h)) by (rewrite EN, mult_INR, <- INR_IZR_INZ; change (INR 2) with 2; field). rewrite (INR_IZR_INZ N), (INR_IZR_INZ k).
  induction l as [| a l IH]; [reflexivity |]. cbn [map existsb]. rewrite IH. rewrite RE, !RL, <- minus_IZR, RE. reflexivity.
Qed.
(** For an even number of samples and band edges that do not fall halfway above an even bin the two filters agree. *)
Lemma c165_agree sigin bands : let M0 := length (nth 0 sigin []) in let N := Nat.max (length sigin) M0 in Nat.Even N -> (0 < N)%nat -> (forall b, In b bands -> no_tie N b) ->
  m_ifilter sigin bands = match extract_freq_components sigin bands with Ok y => Ok y | Err _ => Err RuntimeError end.
Proof.
  intros M0 N EV PN NT. unfold m_ifilter, extract_freq_components. fold M0. set (d := if (length sigin <? M0)%nat then _ else _). assert (LD : length d = N).
  { unfold d, N. destruct (Nat.ltb_spec (length sigin) M0); [unfold transpose; rewrite map_length, seq_length; lia | lia]. }
  unfold check_bands. destruct bands as [| b0 bt]; [reflexivity |]. set (bands := b0 :: bt) in *. change (length bands =? 0)%nat with false. cbn [orb]. destruct (negb (forallb _ bands)) eqn:E1; cbn [raise_if bind]; [reflexivity |]. destruct (existsb _ bands) eqn:E2; cbn [raise_if bind]; [reflexivity |]. do 2 f_equal.
  set (bs := map _ bands). apply map_ext_in. intros x Hx.
  assert (LX : length x = N). { unfold transpose in Hx. apply in_map_iff in Hx. destruct Hx as (j & <- & _). rewrite map_length. exact LD. }
  unfold m_filter_col, filter_col. rewrite LX. destruct EV as [h EH]. apply map_ext_in. intros n Hn. do 2 f_equal. apply csum_ext. intros k Hk. do 2 f_equal. unfold m_mask_at, mask_at.
  assert (EB : existsb (fun b => m_band_hits N b k) bs = existsb (fun b => band_hits N b k) bs); [| rewrite EB; reflexivity].
  assert (AL : Forall (fun b => m_band_hits N b k = band_hits N b k) bs).
  { unfold bs. apply Forall_forall. intros b Hb. apply in_map_iff in Hb. destruct Hb as (r & <- & Hr). rewrite existsb_false, Forall_forall in E2. specialize (E2 r Hr). cbv beta in E2. rewrite negb_false_iff, forallb_forall in E1. specialize (E1 r Hr). apply Nat.eqb_eq in E1. destruct r as [| r0 [| r1 [|]]]; try discriminate E1. cbn [existsb] in E2. rewrite !orb_false_iff in E2. destruct E2 as ([A1 _] & [A2 _] & _).
    destruct (NT _ Hr) as [T1 T2]. apply (hits_agree N h); cbn [fst snd nth]; try assumption; [unfold Rltb in A1; destruct (Rlt_dec r0 0); [discriminate | lra] | unfold Rltb in A2; destruct (Rlt_dec r1 0); [discriminate | lra]]. }
  induction AL as [| b l HB _ IH]; [reflexivity |]. cbn [existsb]. rewrite HB, IH. reflexivity.
Qed.
Lemma fold_mod (f : Z) N : (0 < N)%nat -> let g := (f mod Z.of_nat N)%Z in fold_frequency (IZR f) (INR N) = IZR (Z.min g (Z.of_nat N - g)).
Proof.
  intros PN g. set (n := Z.of_nat N). assert (G : (0 <= g < n)%Z) by (apply Z.mod_pos_bound; unfold n; lia). assert (EF : f = (n * (f / n) + g)%Z) by (apply Z.div_mod; unfold n; lia). set (q := (f / n)%Z) in *.
  assert (PN' : 0 < INR N) by (apply lt_0_INR; exact PN). apply (nmd_unique (IZR f) (INR N)); [apply fold_nearest; exact PN' |]. rewrite INR_IZR_INZ. fold n.
  assert (D : forall k, Rabs (IZR f - IZR k * IZR n) = IZR (Z.abs (g + (q - k) * n))) by (intros k; rewrite <- mult_IZR, <- minus_IZR, <- abs_IZR; do 2 f_equal; rewrite EF; ring). split.
  - destruct (Z_le_gt_dec g (n - g)); [exists q | exists (q + 1)%Z]; rewrite D; f_equal; [replace (q - q)%Z with 0%Z by ring | replace (q - (q + 1))%Z with (-1)%Z by ring]; lia.
  - intros k. rewrite D. apply IZR_le. destruct (Z_le_gt_dec k q); [assert (0 <= (q - k) * n)%Z by (apply Z.mul_nonneg_nonneg; lia) | assert ((q - k) * n <= -1 * n)%Z by (apply Z.mul_le_mono_nonneg_r; lia)]; lia.
Qed.
Lemma neg_mod f n : (0 < n)%Z -> ((- f) mod n = if f mod n =? 0 then 0 else n - f mod n)%Z.
Proof. intros N. destruct (Z.eqb_spec (f mod n) 0) as [E | E]; [apply Z.mod_opp_l_z; lia | apply Z.mod_opp_l_nz; lia]. Qed.
(** The MATLAB mask passes exactly the bins of the band and their mirror images, for odd and even numbers of samples. *)
Lemma c165_mask N bands k : (0 < N)%nat -> (k < N)%nat -> (m_mask_at N bands k = 1 \/ m_mask_at N bands k = 0) /\
  (m_mask_at N bands k = 1 <-> exists b f, In b bands /\ (m_round (Rmin (fst b) (snd b) * INR N) <= f <= m_round (Rmax (fst b) (snd b) * INR N))%Z /\ (Z.of_nat k = f mod Z.of_nat N \/ Z.of_nat k = (- f) mod Z.of_nat N)%Z).
Proof.
  intros PN K. assert (PN' : 0 < INR N) by (apply lt_0_INR; exact PN). unfold m_mask_at. split; [destruct (existsb _ bands); [left | right]; reflexivity |].
  assert (HB : forall b, m_band_hits N b k = true <-> exists f, (m_round (Rmin (fst b) (snd b) * INR N) <= f <= m_round (Rmax (fst b) (snd b) * INR N))%Z /\ (Z.of_nat k = f mod Z.of_nat N \/ Z.of_nat k = (- f) mod Z.of_nat N)%Z).
  { intros b. unfold m_band_hits, m_band_ids. rewrite existsb_exists. set (lo := m_round (Rmin _ _ * _)). set (hi := m_round (Rmax _ _ * _)).
    assert (H1 : forall f, (Reqb (IZR (Z.min (f mod Z.of_nat N) (Z.of_nat N - f mod Z.of_nat N))) (INR k) || (Rltb 0 (IZR (Z.min (f mod Z.of_nat N) (Z.of_nat N - f mod Z.of_nat N))) && Rltb (IZR (Z.min (f mod Z.of_nat N) (Z.of_nat N - f mod Z.of_nat N))) (INR N / 2) && Reqb (INR N - IZR (Z.min (f mod Z.of_nat N) (Z.of_nat N - f mod Z.of_nat N))) (INR k))) = true <-> (Z.of_nat k = f mod Z.of_nat N \/ Z.of_nat k = (- f) mod Z.of_nat N)%Z).
    { intros f. rewrite neg_mod by lia. pose proof (Z.mod_pos_bound f (Z.of_nat N) ltac:(lia)) as G. set (g := (f mod Z.of_nat N)%Z) in *. set (a := Z.min g (Z.of_nat N - g)). rewrite (INR_IZR_INZ k). rewrite orb_true_iff, !andb_true_iff.
      assert (R1 : Reqb (IZR a) (IZR (Z.of_nat k)) = true <-> a = Z.of_nat k) by (unfold Reqb; destruct (Req_EM_T _ _) as [Q | Q]; split; intros; try discriminate; try reflexivity; [apply eq_IZR; exact Q | exfalso; apply Q; congruence]).
      assert (R2 : Rltb 0 (IZR a) = true <-> (0 < a)%Z) by (unfold Rltb; destruct (Rlt_dec _ _) as [Q | Q]; split; intros; try discriminate; try reflexivity; [apply lt_IZR; exact Q | exfalso; apply Q, IZR_lt; assumption]).
      assert (R3 : Rltb (IZR a) (INR N / 2) = true <-> (2 * a < Z.of_nat N)%Z). { rewrite INR_IZR_INZ. unfold Rltb; destruct (Rlt_dec _ _) as [Q | Q]; split; intros Q'; try discriminate; try reflexivity; [apply lt_IZR; rewrite mult_IZR; lra | exfalso; apply Q; apply IZR_lt in Q'; rewrite mult_IZR in Q'; lra]. }
      assert (R4 : Reqb (INR N - IZR a) (IZR (Z.of_nat k)) = true <-> (Z.of_nat N - a = Z.of_nat k)%Z). { rewrite INR_IZR_INZ, <- minus_IZR. unfold Reqb; destruct (Req_EM_T _ _) as [Q | Q]; split; intros; try discriminate; try reflexivity; [apply eq_IZR; exact Q | exfalso; apply Q; congruence]. }
      rewrite R1, R2, R3, R4. unfold a. destruct (Z.eqb_spec g 0); lia. }
    split.
    - intros (id & Hin & C). apply in_map_iff in Hin. destruct Hin as (f & <- & Hf). unfold BandModel.zrange in Hf. apply in_map_iff in Hf. destruct Hf as (i & <- & Hi). apply in_seq in Hi. rewrite (proj1 (c163_alias _ (INR N)) PN'), fold_mod in C by exact PN. apply H1 in C. exists (lo + Z.of_nat i)%Z. split; [lia | exact C].
    - intros (f & F & C). eexists. split; [apply in_map_iff; exists f; split; [reflexivity |]; unfold BandModel.zrange; apply in_map_iff; exists (Z.to_nat (f - lo)); split; [lia | apply in_seq; lia] |]. rewrite (proj1 (c163_alias _ (INR N)) PN'), fold_mod by exact PN. apply H1. exact C. }
  destruct (existsb (fun b => m_band_hits N b k) bands) eqn:E.
  - split; [intros _ | reflexivity]. apply existsb_exists in E. destruct E as (b & Hb & H). apply HB in H. destruct H as (f & F). exists b, f. tauto.
  - split; [intros Q; lra |]. intros (b & f & Hb & F). exfalso. rewrite existsb_false, Forall_forall in E. specialize (E b Hb). cbv beta in E. assert (X : m_band_hits N b k = true) by (apply HB; exists f; exact F). congruence.
Qed.
(** In particular it treats a bin and its mirror image alike, the top bin of an odd-length record included. *)
Lemma c165_symmetric N bands k : (0 < k < N)%nat -> m_mask_at N bands (N - k) = m_mask_at N bands k.
Proof.
  intros K. destruct (c165_mask N bands k ltac:(lia) ltac:(lia)) as [V1 I1]. destruct (c165_mask N bands (N - k) ltac:(lia) ltac:(lia)) as [V2 I2].
  assert (I3 : m_mask_at N bands (N - k) = 1 <-> m_mask_at N bands k = 1).
  { rewrite I1, I2. assert (Q : forall f, (Z.of_nat (N - k) = f mod Z.of_nat N \/ Z.of_nat (N - k) = (- f) mod Z.of_nat N)%Z <-> (Z.of_nat k = f mod Z.of_nat N \/ Z.of_nat k = (- f) mod Z.of_nat N)%Z).
    { intros f. rewrite neg_mod by lia. pose proof (Z.mod_pos_bound f (Z.of_nat N) ltac:(lia)) as G. destruct (Z.eqb_spec (f mod Z.of_nat N) 0); lia. }
    split; intros (b & f & Hb & F & C); exists b, f; (split; [exact Hb | split; [exact F | apply Q; exact C]]). }
  destruct V1 as [V1 | V1]; destruct V2 as [V2 | V2]; try congruence; [apply I3 in V1; lra | apply I3 in V2; lra].
Qed.
Lemma col0 N (F : nat -> R) x : (0 < N)%nat -> nth 0 (map (fun n0 => Re (Cscale (/ INR N) (csum N (fun k => Cmult (Cscale (F k) (rfft x k)) (cis (2 * PI * INR k * INR n0 / INR N)))))) (seq 0 N)) 0 = / INR N * rsum N (fun k => F k * Re (rfft x k)).
Proof.
  intros PN. rewrite (nth_map_in _ _ _ 0%nat) by (rewrite seq_length; exact PN). rewrite seq_nth by exact PN. cbn [Nat.add INR]. rewrite Re_scale, csum_Re. f_equal. apply rsum_ext. intros k _. replace (2 * PI * INR k * 0 / INR N) with 0 by (field; apply not_0_INR; lia). rewrite cis_0. unfold C1, Cmult, Cscale, Re. cbn [fst snd]. ring.
Qed.
Lemma rfft_re x k : Re (rfft x k) = rsum (length x) (fun n => nth n x 0 * cos (2 * PI * INR k * INR n / INR (length x))).
Proof. unfold rfft, rdft, dft. rewrite csum_Re. apply rsum_ext. intros n _. unfold Cmult, RtoC, cis, Re. cbn [fst snd]. rewrite cos_neg. ring. Qed.
Lemma m_mask_is N bands k (P : bool) : (0 < N)%nat -> (k < N)%nat -> ((exists b f, In b bands /\ (m_round (Rmin (fst b) (snd b) * INR N) <= f <= m_round (Rmax (fst b) (snd b) * INR N))%Z /\ (Z.of_nat k = f mod Z.of_nat N \/ Z.of_nat k = (- f) mod Z.of_nat N)%Z) <-> P = true) -> m_mask_at N bands k = if P then 1 else 0.
Proof. intros PN K I. destruct (c165_mask N bands k PN K) as [V W]. destruct P; [apply W, I; reflexivity |]. destruct V as [V | V]; [| exact V]. apply W, I in V. discriminate. Qed.
Lemma mask_is N bands k (P : bool) : (0 < N)%nat -> good_bands bands -> ((exists b f, In b bands /\ (round_he (Rmin (fst b) (snd b) * INR N) <= f <= round_he (Rmax (fst b) (snd b) * INR N))%Z /\
   (let id := Z.min f (Z.of_nat N - f) in id = Z.of_nat k \/ (0 < id < Z.of_nat (N / 2))%Z /\ (Z.of_nat N - id = Z.of_nat k)%Z)) <-> P = true) -> mask_at N bands k = if P then 1 else 0.
Proof. intros PN G I. pose proof (mask_iff N bands k PN G) as W. destruct P; [apply W, I; reflexivity |]. destruct (mask_01 N bands k) as [V | V]; [exact V |]. apply W, I in V. discriminate. Qed.
Lemma round_int k : (0 <= k)%Z -> m_round (IZR k) = k /\ round_he (IZR k) = k.
Proof. intros K. apply IZR_le in K. split; [unfold m_round, Rleb; destruct (Rle_dec 0 (IZR k)); [apply floor_is; lra | lra] | apply he_low; lra]. Qed.
(** An odd number of samples: of the top bin the Python filter keeps half (three samples, the band of bin 1 only). *)
Lemma c165_odd_refuted : exists y y', m_ifilter [[1]; [0]; [0]] [[1 / 3; 1 / 3]] = Ok y /\ extract_freq_components [[1]; [0]; [0]] [[1 / 3; 1 / 3]] = Ok y' /\ nth 0 (nth 0 y []) 0 = 2 / 3 /\ nth 0 (nth 0 y' []) 0 = 1 / 3.
Proof.
  assert (CK : existsb (fun r => existsb (fun v => Rltb v 0 || Rltb 0.5 v) r) [[1 / 3; 1 / 3]] = false). { cbn [existsb]. unfold Rltb. destruct (Rlt_dec (1 / 3) 0); [lra |]. destruct (Rlt_dec 0.5 (1 / 3)); [lra |]. reflexivity. }
  assert (I3 : INR 3 = 3) by (cbn; ring). assert (MM : Rmin (1 / 3) (1 / 3) * INR 3 = 1) by (unfold Rmin; destruct (Rle_dec _ _); rewrite I3; lra). assert (MX : Rmax (1 / 3) (1 / 3) * INR 3 = 1) by (unfold Rmax; destruct (Rle_dec _ _); rewrite I3; lra).
  eexists _, _. split; [unfold m_ifilter; cbn [length nth Nat.ltb Nat.leb Nat.eqb orb forallb andb negb raise_if]; rewrite CK; cbn [raise_if]; reflexivity |]. split; [unfold extract_freq_components, check_bands; cbn [length nth Nat.ltb Nat.leb Nat.eqb orb forallb andb negb raise_if]; rewrite CK; cbn [raise_if bind]; reflexivity |].
  assert (RF : forall k, Re (rfft [1; 0; 0] k) = 1). { intros k. rewrite rfft_re. cbn [length rsum nth]. replace (2 * PI * INR k * INR 0 / INR 3) with 0 by (cbn [INR]; field; lra). rewrite cos_0. ring. }
  destruct (round_int 1 ltac:(lia)) as [R1 R2].
  cbn [transpose map seq length nth]. change (map (fun n : nat => Re (Cscale (/ INR 3) (csum 3 (fun k => Cmult (Cscale (m_mask_at 3 [(1 / 3, 1 / 3)] k) (rfft [1; 0; 0] k)) (cis (2 * PI * INR k * INR n / INR 3)))))) (seq 0 3)) with (m_filter_col [(1 / 3, 1 / 3)] [1; 0; 0]).
  change (nth 0 (m_filter_col [(1 / 3, 1 / 3)] [1; 0; 0]) 0 = 2 / 3 /\ nth 0 (filter_col [(1 / 3, 1 / 3)] [1; 0; 0]) 0 = 1 / 3). unfold m_filter_col, filter_col. cbn [length]. rewrite !(col0 3) by lia. cbn [rsum]. rewrite !RF.
  assert (GB : good_bands [(1 / 3, 1 / 3)]) by (intros b [<- | []]; cbn [fst snd]; lra).
  assert (M : forall k, (k < 3)%nat -> m_mask_at 3 [(1 / 3, 1 / 3)] k = if (0 <? k)%nat then 1 else 0).
  { intros k K. apply m_mask_is; [lia | exact K |]. split.
    - intros (b & f & [<- | []] & F & C). cbn [fst snd] in F. rewrite MM, MX, R1 in F. assert (f = 1%Z) by lia. subst f. change (1 mod Z.of_nat 3)%Z with 1%Z in C. change (Z.opp 1 mod Z.of_nat 3)%Z with 2%Z in C. apply Nat.ltb_lt. lia.
    - intros K0. apply Nat.ltb_lt in K0. exists (1 / 3, 1 / 3), 1%Z. split; [left; reflexivity |]. cbn [fst snd]. rewrite MM, MX, R1. split; [lia |]. change (1 mod Z.of_nat 3)%Z with 1%Z. change (Z.opp 1 mod Z.of_nat 3)%Z with 2%Z. lia. }
  assert (P : forall k, (k < 3)%nat -> mask_at 3 [(1 / 3, 1 / 3)] k = if (k =? 1)%nat then 1 else 0).
  { intros k K. apply mask_is; [lia | exact GB |]. split.
    - intros (b & f & [<- | []] & F & C). cbn [fst snd] in F. rewrite MM, MX, R2 in F. assert (f = 1%Z) by lia. subst f. cbv zeta in C. change (Z.of_nat (3 / 2)) with 1%Z in C. apply Nat.eqb_eq. lia.
    - intros K0. apply Nat.eqb_eq in K0. subst k. exists (1 / 3, 1 / 3), 1%Z. split; [left; reflexivity |]. cbn [fst snd]. rewrite MM, MX, R2. split; [lia |]. cbv zeta. left. reflexivity. }
  rewrite !M, !P by lia. cbn [Nat.ltb Nat.leb Nat.eqb]. rewrite I3. split; lra.
Qed.
(** A band edge halfway between bins: the constant passes the Python filter and not the MATLAB one. *)
Lemma c165_tie_refuted : exists y y', m_ifilter [[1]; [1]] [[1 / 4; 1 / 2]] = Ok y /\ extract_freq_components [[1]; [1]] [[1 / 4; 1 / 2]] = Ok y' /\ nth 0 (nth 0 y []) 0 = 0 /\ nth 0 (nth 0 y' []) 0 = 1.
Proof.
  assert (CK : existsb (fun r => existsb (fun v => Rltb v 0 || Rltb 0.5 v) r) [[1 / 4; 1 / 2]] = false). { cbn [existsb]. unfold Rltb. destruct (Rlt_dec (1 / 4) 0); [lra |]. destruct (Rlt_dec 0.5 (1 / 4)); [lra |]. destruct (Rlt_dec (1 / 2) 0); [lra |]. destruct (Rlt_dec 0.5 (1 / 2)); [lra |]. reflexivity. }
  assert (I2 : INR 2 = 2) by (cbn; ring). assert (MM : Rmin (1 / 4) (1 / 2) * INR 2 = 0 + 1 / 2) by (unfold Rmin; destruct (Rle_dec _ _); rewrite I2; lra). assert (MX : Rmax (1 / 4) (1 / 2) * INR 2 = 1) by (unfold Rmax; destruct (Rle_dec _ _); rewrite I2; lra).
  eexists _, _. split; [unfold m_ifilter; cbn [length nth Nat.ltb Nat.leb Nat.eqb orb forallb andb negb raise_if]; rewrite CK; cbn [raise_if]; reflexivity |]. split; [unfold extract_freq_components, check_bands; cbn [length nth Nat.ltb Nat.leb Nat.eqb orb forallb andb negb raise_if]; rewrite CK; cbn [raise_if bind]; reflexivity |].
  change (nth 0 (m_filter_col [(1 / 4, 1 / 2)] [1; 1]) 0 = 0 /\ nth 0 (filter_col [(1 / 4, 1 / 2)] [1; 1]) 0 = 1). unfold m_filter_col, filter_col. cbn [length]. rewrite !(col0 2) by lia. cbn [rsum].
  assert (F0 : Re (rfft [1; 1] 0) = 2). { rewrite rfft_re. cbn [length rsum nth INR]. replace (2 * PI * 0 * 0 / (1 + 1)) with 0 by field. replace (2 * PI * 0 * 1 / (1 + 1)) with 0 by field. rewrite cos_0. ring. }
  assert (F1 : Re (rfft [1; 1] 1) = 0). { rewrite rfft_re. cbn [length rsum nth INR]. replace (2 * PI * 1 * 0 / (1 + 1)) with 0 by field. replace (2 * PI * 1 * 1 / (1 + 1)) with PI by field. rewrite cos_0, cos_PI. ring. }
  rewrite F0, F1. destruct (round_int 1 ltac:(lia)) as [R1 R2]. pose proof (he_half 0) as H0. cbn [Z.even] in H0. assert (A0 : m_round (0 + 1 / 2) = 1%Z) by (unfold m_round, Rleb; destruct (Rle_dec 0 (0 + 1 / 2)); [apply floor_is; lra | lra]).
  assert (GB : good_bands [(1 / 4, 1 / 2)]) by (intros b [<- | []]; cbn [fst snd]; lra).
  assert (M0 : m_mask_at 2 [(1 / 4, 1 / 2)] 0 = 0). { apply (m_mask_is 2 _ 0 false); [lia | lia |]. split; [| discriminate]. intros (b & f & [<- | []] & F & C). cbn [fst snd] in F. rewrite MM, MX, R1, A0 in F. assert (f = 1%Z) by lia. subst f. change (1 mod Z.of_nat 2)%Z with 1%Z in C. change (Z.opp 1 mod Z.of_nat 2)%Z with 1%Z in C. lia. }
  assert (P0 : mask_at 2 [(1 / 4, 1 / 2)] 0 = 1). { apply (mask_is 2 _ 0 true); [lia | exact GB |]. split; [reflexivity |]. intros _. exists (1 / 4, 1 / 2), 0%Z. split; [left; reflexivity |]. cbn [fst snd]. rewrite MM, MX, R2, H0. split; [lia |]. cbv zeta. left. reflexivity. }
  rewrite M0, P0, I2. split; lra.
Qed.

(** ** C166: inlsin *)
(** On integer data with an exclusion that is not rounded halfway above an even number the two agree, except where no code
    between the extremes is hit: there MATLAB reports -1 for each code and numpy nan. *)
Lemma c166_agree (codes : list Z) excl fl : codes <> [] -> 0 <= excl < 0.5 -> (fl = false \/ 2 < rmax_list (map IZR codes) - rmin_list (map IZR codes)) -> ~ tie (excl * IZR (zmax_list codes - zmin_list codes)) ->
  exists inl dnl c r, m_inlsin (map IZR codes) excl = Ok (inl, dnl, c) /\ compute_inl_from_sine fl (map IZR codes) None None excl = Ok r /\ s_codes r = c /\
  ((s_dnl r = map Fin dnl /\ s_inl r = map Fin inl) \/ (dnl <> [] /\ dnl = map (fun _ => -1) dnl /\ s_dnl r = map (fun _ => NaN) dnl /\ s_inl r = map (fun _ => NaN) dnl)).
Proof.
  intros NE EX FL NT. unfold m_inlsin. unfold Rltb at 1, Rleb at 1. destruct (Rlt_dec excl 0); [lra |]. destruct (Rle_dec 0.5 excl); [lra |]. cbn [orb raise_if]. rewrite map_length. destruct (Nat.eqb_spec (length codes) 0) as [Q | _]; [apply length_zero_iff_nil in Q; contradiction |]. cbn [raise_if].
  assert (MR : forall k, m_round (IZR k) = k). { intros k. unfold m_round, Rleb. destruct (Rle_dec 0 (IZR k)); [apply floor_is; lra |]. apply Zceil_imp. rewrite minus_IZR. lra. }
  assert (MC : map m_round (map IZR codes) = codes) by (rewrite map_map; etransitivity; [apply map_ext; exact MR | apply map_id]).
  assert (HC : map round_he (map IZR codes) = codes) by (rewrite map_map; etransitivity; [apply map_ext; intros k; apply (he_low _ k); lra | apply map_id]).
  assert (SC : sine_codes fl (map IZR codes) None None = codes). { unfold sine_codes. destruct FL as [-> | FL]; [exact HC |]. unfold Rleb. destruct (Rle_dec _ 2) as [Q | Q]; [lra |]. rewrite andb_false_r. exact HC. }
  rewrite MC. destruct (m_inl_codes codes excl) as [[inl dnl] c] eqn:E. exists inl, dnl, c. unfold compute_inl_from_sine. destruct (map IZR codes) as [| a l] eqn:EM; [destruct codes; [contradiction | discriminate] |]. rewrite SC. eexists. split; [reflexivity |]. split; [reflexivity |].
  assert (GE : (zmin_list codes <= zmax_list codes)%Z). { destruct codes as [| z zs]; [contradiction |]. unfold zmin_list, zmax_list. cbn [hd fold_right]. lia. }
  assert (P0 : 0 <= excl * IZR (zmax_list codes - zmin_list codes)) by (apply Rmult_le_pos; [lra | apply IZR_le; lia]). unfold m_inl_codes in E. rewrite (proj2 (round_same _ P0) NT) in E.
  unfold sine_histogram. set (ex := round_he _) in *. set (c0 := zmin_list codes) in *. set (c1 := zmax_list codes) in *. set (cmin := Z.min (c0 + ex) (c1 - ex)) in *. set (axis := arange cmin (c1 - ex + 1)) in *. set (counts := map (fun c => INR _) axis) in *. set (cdf := map _ (cumsum_from 0 counts)) in *. set (d := diffs (removelast cdf)) in *.
  injection E as E1 E2 E3. unfold Reqb in *. destruct (Req_EM_T (lsum d) 0) as [Z0 | NZ]; cbn [s_codes s_dnl s_inl].
  - split; [exact E3 |]. destruct (list_eq_dec Req_EM_T d []) as [D0 | D0].
    + left. rewrite D0 in *. cbn in E1, E2. subst inl dnl. split; reflexivity.
    + right. subst dnl. split; [intros Q; apply D0; apply map_eq_nil in Q; exact Q |]. rewrite !map_map. repeat split.
  - split; [exact E3 |]. left. assert (LA : INR (length axis) = IZR (c1 - ex - cmin + 1)). { unfold axis, arange. rewrite map_length, seq_length, INR_IZR_INZ, Z2Nat.id by (unfold cmin; lia). f_equal. lia. }
    rewrite LA. rewrite map_map in E2. cbv beta in E2. rewrite <- E1, <- E2. rewrite !map_map. split; reflexivity.
Qed.
Lemma arange_length a b : length (arange a b) = Z.to_nat (b - a).
Proof. unfold arange. rewrite map_length, seq_length. reflexivity. Qed.
Lemma removelast_length {A} (l : list A) : length (removelast l) = (length l - 1)%nat.
Proof. induction l as [| x [| y l] IH]; [reflexivity | reflexivity |]. change (removelast (x :: y :: l)) with (x :: removelast (y :: l)). cbn [length] in *. rewrite IH. lia. Qed.
(** A span of 50 codes with the default exclusion of one percent: MATLAB drops one code at each end, numpy none. *)
Lemma c166_tie_refuted : exists inl dnl c r, m_inlsin (map IZR [0; 50]%Z) (1 / 100) = Ok (inl, dnl, c) /\ compute_inl_from_sine false (map IZR [0; 50]%Z) None None (1 / 100) = Ok r /\ length c = 47%nat /\ length (s_codes r) = 49%nat.
Proof.
  unfold m_inlsin. unfold Rltb at 1, Rleb at 1. destruct (Rlt_dec (1 / 100) 0); [lra |]. destruct (Rle_dec 0.5 (1 / 100)); [lra |]. cbn [orb raise_if map length Nat.eqb]. destruct (round_int 0 ltac:(lia)) as [A1 A2]. destruct (round_int 50 ltac:(lia)) as [B1 B2]. rewrite A1, B1.
  destruct (m_inl_codes [0; 50]%Z (1 / 100)) as [[inl dnl] c] eqn:E. exists inl, dnl, c. eexists. split; [reflexivity |]. split; [reflexivity |]. assert (E3 : snd (m_inl_codes [0; 50]%Z (1 / 100)) = c) by (rewrite E; reflexivity). unfold m_inl_codes in E3. cbv zeta in E3. unfold snd in E3. replace (1 / 100 * IZR (zmax_list [0; 50]%Z - zmin_list [0; 50]%Z)) with (0 + 1 / 2) in E3 by (cbn; lra).
  assert (A0 : m_round (0 + 1 / 2) = 1%Z) by (unfold m_round, Rleb; destruct (Rle_dec 0 (0 + 1 / 2)); [apply floor_is; lra | lra]). rewrite A0 in E3. split; [rewrite <- E3; reflexivity |].
  unfold sine_codes. cbn [andb map]. rewrite A2, B2. unfold sine_histogram. replace (1 / 100 * IZR (zmax_list [0; 50]%Z - zmin_list [0; 50]%Z)) with (0 + 1 / 2) by (cbn; lra). pose proof (he_half 0) as H0. cbn [Z.even] in H0. rewrite H0. destruct (Reqb _ 0); reflexivity.
Qed.
Lemma c166_nan_refuted : exists inl r, m_inlsin (map IZR [0; 2]%Z) 0 = Ok (inl, [-1], [0%Z]) /\ compute_inl_from_sine false (map IZR [0; 2]%Z) None None 0 = Ok r /\ s_dnl r = [NaN].
Proof.
  assert (D : forall cnt, cnt = map (fun c => INR (count_code (map (zclip 0 2) [0; 2]%Z) c)) (arange 0 3) -> diffs (removelast (map (fun s => - cos (PI * s / lsum cnt)) (cumsum_from 0 cnt))) = [0]).
  { intros cnt ->. change (map (fun c => INR (count_code (map (zclip 0 2) [0; 2]%Z) c)) (arange 0 3)) with [1; 0; 1]. cbn [map cumsum_from removelast diffs]. f_equal. replace (0 + 1 + 0) with (0 + 1) by ring. ring. }
  destruct (round_int 0 ltac:(lia)) as [A1 A2]. destruct (round_int 2 ltac:(lia)) as [B1 B2]. eexists _, _.
  assert (Z0 : Reqb (lsum [0]) 0 = true) by (unfold Reqb, lsum; cbn; destruct (Req_EM_T _ 0); [reflexivity | lra]). split; [| split; [reflexivity |]].
  - unfold m_inlsin. unfold Rltb at 1, Rleb at 1. destruct (Rlt_dec 0 0); [lra |]. destruct (Rle_dec 0.5 0); [lra |]. cbn [orb raise_if map length Nat.eqb]. rewrite A1, B1. unfold m_inl_codes. rewrite Rmult_0_l, A1. change (zmax_list [0; 2]%Z - 0)%Z with 2%Z. change (Z.min (zmin_list [0; 2]%Z + 0) 2)%Z with 0%Z. change (2 + 1)%Z with 3%Z. rewrite (D _ eq_refl). rewrite Z0. reflexivity.
  - unfold sine_codes. cbn [andb map]. rewrite A2, B2. unfold sine_histogram. rewrite Rmult_0_l, A2. change (zmax_list [0; 2]%Z - 0)%Z with 2%Z. change (Z.min (zmin_list [0; 2]%Z + 0) 2)%Z with 0%Z. change (2 + 1)%Z with 3%Z. rewrite (D _ eq_refl). rewrite Z0. reflexivity.
Qed.

(** ** C167: bitchk *)
(** With at least as many samples as bits the statistics are those of analyze_overflow. *)
Lemma c167_agree codes m weight ofb : (0 < m <= length codes)%nat -> (forall r, In r codes -> length r = m) -> (forall b, ofb = Some b -> (1 <= b <= Z.of_nat m)%Z) ->
  m_bitchk codes weight ofb = match analyze_overflow codes m weight ofb with Ok y => Ok y | Err _ => Err RuntimeError end.
Proof.
  intros M R B. assert (M0 : length (nth 0 codes []) = m) by (apply R, nth_In; lia). unfold m_bitchk, analyze_overflow. rewrite M0. destruct (Nat.ltb_spec (length codes) m); [lia |]. rewrite M0.
  set (chk := match ofb with None => Z.of_nat m | Some c => c end). assert (CH : (1 <= chk <= Z.of_nat m)%Z) by (unfold chk; destruct ofb as [b |]; [apply B; reflexivity | lia]). destruct (Z.ltb_spec chk 1); [lia |]. destruct (Z.ltb_spec (Z.of_nat m) chk); [lia |]. cbn [orb raise_if].
  destruct (Nat.eqb_spec (length weight) m); cbn [negb raise_if]; [| reflexivity]. destruct (Nat.eqb_spec (length codes) 0); [lia |]. cbn [andb]. destruct (Z.ltb_spec (Z.of_nat m - chk) (- Z.of_nat m)); [lia |]. destruct (Z.leb_spec (Z.of_nat m) (Z.of_nat m - chk)); [lia |]. cbn [orb]. reflexivity.
Qed.
(** Check positions above the number of bits are refused by MATLAB and taken modulo by Python; fewer samples than bits are
    transposed by MATLAB. *)
Lemma c167_position codes m weight b : (0 < m <= length codes)%nat -> (forall r, In r codes -> length r = m) -> length weight = m -> (Z.of_nat m < b <= 2 * Z.of_nat m)%Z ->
  m_bitchk codes weight (Some b) = Err RuntimeError /\ analyze_overflow codes m weight (Some b) = analyze_overflow codes m weight None /\ exists y, analyze_overflow codes m weight None = Ok y.
Proof.
  intros M R LW B. assert (M0 : length (nth 0 codes []) = m) by (apply R, nth_In; lia). unfold m_bitchk, analyze_overflow. rewrite M0. destruct (Nat.ltb_spec (length codes) m); [lia |]. rewrite M0, LW, Nat.eqb_refl. destruct (Z.ltb_spec (Z.of_nat m) b); [| lia]. rewrite orb_true_r. split; [reflexivity |]. cbn [negb].
  destruct (Nat.eqb_spec (length codes) 0); [lia |]. cbn [andb]. destruct (Z.ltb_spec (Z.of_nat m - b) (- Z.of_nat m)); [lia |]. destruct (Z.leb_spec (Z.of_nat m) (Z.of_nat m - b)); [lia |]. destruct (Z.ltb_spec (Z.of_nat m - Z.of_nat m) (- Z.of_nat m)); [lia |]. destruct (Z.leb_spec (Z.of_nat m) (Z.of_nat m - Z.of_nat m)); [lia |]. cbn [orb]. split; [reflexivity |]. eexists. reflexivity.
Qed.
Lemma c167_wide_refuted : m_bitchk [[1; 0]] [2; 1] None = Err RuntimeError /\ exists y, analyze_overflow [[1; 0]] 2 [2; 1] None = Ok y /\ length y = 2%nat.
Proof. split; [reflexivity |]. eexists. split; reflexivity. Qed.

Example c163_alias_ex : m_alias 70 100 = Ok 30.
Proof.
  unfold m_alias, Rleb. destruct (Rle_dec 100 0); [lra |]. cbn [raise_if]. replace (Zfloor (70 / 100 * 2)) with 1%Z by (symmetry; apply floor_is; lra). replace (Zfloor (70 / 100)) with 0%Z by (symmetry; apply floor_is; lra). cbn. f_equal. lra.
Qed.
Example c163_findbin_ex : m_findbin 16 1 (3 / 8) 16 = Ok (Some 7%Z).
Proof.
  unfold m_findbin, Rleb. destruct (Rle_dec 1 0); [lra |]. change (16 <=? 0)%Z with false. cbn [raise_if]. replace (Zfloor (3 / 8 / 1 * 16)) with 6%Z by (symmetry; apply floor_is; lra). reflexivity.
Qed.
Example c163_power_of_two_ex : exists f, m_findbin 8 1 (1 / 2) 8 = Ok (Some 5%Z) /\ find_coherent_frequency 1 (1 / 2) 8 true 10 = Ok (f, 3%Z).
Proof.
  assert (E1 : m_findbin 8 1 (1 / 2) 8 = Ok (Some 5%Z)).
  { unfold m_findbin, Rleb. destruct (Rle_dec 1 0); [lra |]. change (8 <=? 0)%Z with false. cbn [raise_if]. replace (Zfloor (1 / 2 / 1 * 8)) with 4%Z by (symmetry; apply floor_is; lra). reflexivity. }
  destruct (c10_power_of_two 1 (1 / 2) 3 true 10 ltac:(lra) ltac:(lra) ltac:(lia) ltac:(lia)) as (f & b & E2 & _). change (2 ^ 3)%Z with 8%Z in E2. exists f. split; [exact E1 |].
  destruct (c163_power_of_two 1 (1 / 2) 3 true 10 f 5 b ltac:(lra) ltac:(lra) ltac:(lia) ltac:(lia) E1 E2) as [_ H]. destruct (H 2%Z ltac:(lia)) as [_ ->]; [change (2 ^ 3)%Z with 8%Z; change (2 * 2)%Z with 4%Z; lra | exact E2].
Qed.
Example c164_agree_ex : exists w, m_cdacwgt [2; 1] [0; 0] [0; 0] = Ok (w, 3) /\ convert_cap_to_weight [1; 2] [0; 0] [0; 0] = Ok (rev w, 3).
Proof.
  destruct (proj1 (c164_agree [2; 1] [0; 0] [0; 0])) as (w & c & E1 & E2); [unfold cap_valid; cbn [length]; repeat split; try lia; repeat constructor; lra |]. exists w. assert (c = 3); [| subst c; split; assumption]. unfold m_cdacwgt in E1. cbn [length Nat.eqb orb andb negb raise_if existsb] in E1. unfold Rleb, Rltb in E1. destruct (Rle_dec 2 0); [lra |]. destruct (Rle_dec 1 0); [lra |]. destruct (Rlt_dec 0 0); [lra |].
  cbn [length Nat.eqb orb andb negb raise_if existsb rev app combine fold_left m_cap_step fst snd map] in E1. unfold Reqb in E1. destruct (Req_EM_T 0 0); [| lra]. injection E1 as _ E1. lra.
Qed.
Example c165_agree_ex : m_ifilter [[1]; [3]] [[0; 1 / 10]] = match extract_freq_components [[1]; [3]] [[0; 1 / 10]] with Ok y => Ok y | Err _ => Err RuntimeError end.
Proof.
  apply c165_agree; [exists 1%nat; reflexivity | cbn; lia |]. intros b [<- | []]. unfold no_tie. cbn [nth length Nat.max INR]. rewrite Rmin_left, Rmax_right by lra. split; intros (k & K & E).
  - assert (H : IZR (2 * k) = -1) by (rewrite mult_IZR; lra). apply eq_IZR in H. lia.
  - assert (H : IZR (10 * k) = -3) by (rewrite mult_IZR; lra). apply eq_IZR in H. lia.
Qed.
Example c165_mask_ex : m_mask_at 5 [(2 / 5, 2 / 5)] 3 = 1.
Proof.
  apply (proj2 (c165_mask 5 [(2 / 5, 2 / 5)] 3 ltac:(lia) ltac:(lia))). exists (2 / 5, 2 / 5), 2%Z. split; [left; reflexivity |]. cbn [fst snd]. rewrite Rmin_left, Rmax_left by lra. replace (2 / 5 * INR 5) with 2 by (cbn; lra). rewrite (proj1 (round_int 2 ltac:(lia))). split; [lia |]. right. reflexivity.
Qed.
Example c165_symmetric_ex : m_mask_at 5 [(2 / 5, 2 / 5)] 2 = m_mask_at 5 [(2 / 5, 2 / 5)] 3.
Proof. exact (c165_symmetric 5 [(2 / 5, 2 / 5)] 3 ltac:(lia)). Qed.
Example c166_agree_ex : exists inl dnl c r, m_inlsin (map IZR [0; 1; 2; 1]%Z) 0 = Ok (inl, dnl, c) /\ compute_inl_from_sine false (map IZR [0; 1; 2; 1]%Z) None None 0 = Ok r /\ s_codes r = c.
Proof.
  destruct (c166_agree [0; 1; 2; 1]%Z 0 false) as (inl & dnl & c & r & E1 & E2 & E3 & _); [discriminate | lra | left; reflexivity | | exists inl, dnl, c, r; repeat split; assumption].
  intros (k & K & E). rewrite Rmult_0_l in E. assert (H : IZR (2 * k) = -1) by (rewrite mult_IZR; lra). apply eq_IZR in H. lia.
Qed.
Example c167_agree_ex : exists y, m_bitchk [[1; 0]; [0; 1]; [1; 1]] [2; 1] None = Ok y /\ analyze_overflow [[1; 0]; [0; 1]; [1; 1]] 2 [2; 1] None = Ok y.
Proof. eexists. split; reflexivity. Qed.
Example c167_position_ex : m_bitchk [[1; 0]; [0; 1]; [1; 1]] [2; 1] (Some 3%Z) = Err RuntimeError /\ exists y, analyze_overflow [[1; 0]; [0; 1]; [1; 1]] 2 [2; 1] (Some 3%Z) = Ok y.
Proof. split; [reflexivity |]. eexists. reflexivity. Qed.
