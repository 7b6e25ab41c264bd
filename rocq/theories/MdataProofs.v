(** * The scripts that generate digital test data: final lemmas c200_ - c203_. *)
From Coq Require Import Psatz.
From Verif Require Import Base BaseLemmas SiggenModel MdataModel.
Local Open Scope R_scope.

Lemma floor_add a x : (a + Zfloor x)%Z = Zfloor (IZR a + x).
Proof. symmetry. apply Zfloor_imp. pose proof (Zfloor_lb x). pose proof (Zfloor_ub x). rewrite !plus_IZR. split; lra. Qed.
Lemma pow2_pos n : 0 < 2 ^ n.
Proof. apply pow_lt. lra. Qed.
Lemma pow2_IZR n : 2 ^ n = IZR (2 ^ Z.of_nat n).
Proof. rewrite pow_IZR. reflexivity. Qed.
Lemma rz2_pos z : 0 < powerRZ 2 z.
Proof. apply powerRZ_lt. lra. Qed.
Lemma rz2_nat n : powerRZ 2 (Z.of_nat n) = 2 ^ n.
Proof. symmetry. apply pow_powerRZ. Qed.
Lemma rz2_add a b : powerRZ 2 (a + b) = powerRZ 2 a * powerRZ 2 b.
Proof. apply powerRZ_add. lra. Qed.
(** ** Bits *)
Definition bits (z : Z) (N : nat) : list R := map (fun i => IZR (z / 2 ^ (Z.of_nat N - 1 - Z.of_nat i) mod 2)) (seq 0 N).
Lemma bits_S z N : bits z (S N) = IZR (z / 2 ^ Z.of_nat N mod 2) :: bits z N.
Proof.
  unfold bits. cbn [seq map]. f_equal; [replace (Z.of_nat (S N) - 1 - Z.of_nat 0)%Z with (Z.of_nat N) by lia; reflexivity |]. rewrite <- seq_shift, map_map. apply map_ext_in. intros i I. apply in_seq in I. replace (Z.of_nat (S N) - 1 - Z.of_nat (S i))%Z with (Z.of_nat N - 1 - Z.of_nat i)%Z by lia. reflexivity.
Qed.
Lemma bits_length z N : length (bits z N) = N.
Proof. unfold bits. rewrite map_length, seq_length. reflexivity. Qed.
Lemma bits_bit z N b : In b (bits z N) -> b = 0 \/ b = 1.
Proof.
  unfold bits. intros H. apply in_map_iff in H. destruct H as (i & <- & _). pose proof (Z.mod_pos_bound (z / 2 ^ (Z.of_nat N - 1 - Z.of_nat i)) 2 ltac:(lia)) as B. assert (z / 2 ^ (Z.of_nat N - 1 - Z.of_nat i) mod 2 = 0 \/ z / 2 ^ (Z.of_nat N - 1 - Z.of_nat i) mod 2 = 1)%Z as [-> | ->] by lia; auto.
Qed.
Lemma powers_length hi lo : length (powers hi lo) = Z.to_nat (hi - lo + 1).
Proof. unfold powers. rewrite map_length, seq_length. reflexivity. Qed.
Lemma powers_S e N : powers (e + Z.of_nat (S N) - 1) e = powerRZ 2 (e + Z.of_nat N) :: powers (e + Z.of_nat N - 1) e.
Proof.
  unfold powers. replace (Z.to_nat (e + Z.of_nat (S N) - 1 - e + 1)) with (S N) by lia. replace (Z.to_nat (e + Z.of_nat N - 1 - e + 1)) with N by lia. cbn [seq map]. f_equal; [f_equal; lia |]. rewrite <- seq_shift, map_map. apply map_ext. intros i. f_equal. lia.
Qed.
Lemma bits_dot z e N : dot (bits z N) (powers (e + Z.of_nat N - 1) e) = IZR (z mod 2 ^ Z.of_nat N) * powerRZ 2 e.
Proof.
  induction N as [| N IH]; [cbn; rewrite Z.mod_1_r; ring |]. rewrite bits_S, powers_S. cbn [dot]. rewrite IH. replace (Z.of_nat (S N)) with (Z.of_nat N + 1)%Z by lia. rewrite Z.pow_add_r by lia. change (2 ^ 1)%Z with 2%Z.
  assert (P : (0 < 2 ^ Z.of_nat N)%Z) by (apply Z.pow_pos_nonneg; lia). rewrite Z.rem_mul_r by lia. rewrite plus_IZR, mult_IZR, <- pow2_IZR, rz2_add, rz2_nat. ring.
Qed.
Lemma sat_bits z N : (0 <= z < 2 ^ Z.of_nat N)%Z -> bin_saturate (IZR z) N = bits z N.
Proof. intros B. unfold bin_saturate. rewrite Zfloor_IZR. rewrite Z.max_l, Z.min_l by lia. reflexivity. Qed.
Lemma sat_length x N : length (bin_saturate x N) = N.
Proof. unfold bin_saturate. rewrite map_length, seq_length. reflexivity. Qed.
Lemma sat_bit x N b : In b (bin_saturate x N) -> b = 0 \/ b = 1.
Proof. apply bits_bit. Qed.
Lemma quant_code N v : quant N v * 2 ^ N = IZR (Zfloor (v * 2 ^ N)).
Proof. unfold quant. field. apply pow_nonzero. lra. Qed.
Lemma code_range N v : 0 <= v < 1 -> (0 <= Zfloor (v * 2 ^ N) < 2 ^ Z.of_nat N)%Z.
Proof.
  intros V. pose proof (pow2_pos N) as P. split; [apply Zfloor_lub; nra |]. apply lt_IZR. rewrite <- pow2_IZR. eapply Rle_lt_trans; [apply Zfloor_lb |]. nra.
Qed.
(** The bits of a stage, weighted. *)
Lemma stage_dot N v e : 0 <= v < 1 -> dot (bin_saturate (quant N v * 2 ^ N) N) (powers (e + Z.of_nat N - 1) e) = IZR (Zfloor (v * 2 ^ N)) * powerRZ 2 e.
Proof. intros V. pose proof (code_range N v V) as C. rewrite quant_code, sat_bits by exact C. rewrite bits_dot, Z.mod_small by exact C. reflexivity. Qed.
(** ** Any number of stages *)
Fixpoint gain_sum (st : list (nat * nat)) : nat := match st with [] => O | (_, g) :: t => (g + gain_sum t)%nat end.
Fixpoint chain (st : list (nat * nat)) (NL : nat) (v : R) : R :=
  match st with
  | [] => IZR (Zfloor (v * 2 ^ NL))
  | (N, g) :: t => IZR (Zfloor (v * 2 ^ N)) * powerRZ 2 (Z.of_nat (g + gain_sum t + NL) - Z.of_nat N) + chain t NL (2 ^ g * (v - quant N v) + stage_offset N g)
  end.
Fixpoint chain_k (st : list (nat * nat)) (NL : nat) : R :=
  match st with [] => 0 | (N, g) :: t => stage_offset N g * 2 ^ (gain_sum t + NL) + chain_k t NL end.
Fixpoint chain_ok (st : list (nat * nat)) (NL : nat) : Prop :=
  match st with [] => True | (N, g) :: t => (g <= N)%nat /\ (N <= g + gain_sum t + NL)%nat /\ chain_ok t NL end.
Lemma next_range N g v : (g <= N)%nat -> 0 <= v < 1 -> 0 <= 2 ^ g * (v - quant N v) + stage_offset N g < 1.
Proof.
  intros G V. unfold quant, stage_offset. pose proof (Zfloor_lb (v * 2 ^ N)) as A. pose proof (Zfloor_ub (v * 2 ^ N)) as B. set (c := IZR (Zfloor (v * 2 ^ N))) in *. pose proof (pow2_pos N) as P. pose proof (pow2_pos g) as Q.
  assert (R0 : 0 <= v - c / 2 ^ N < / 2 ^ N). { assert (E : v - c / 2 ^ N = (v * 2 ^ N - c) * / 2 ^ N) by (field; lra). rewrite E. pose proof (Rinv_0_lt_compat _ P). split; nra. }
  assert (GE : 2 ^ g * / 2 ^ N <= 1). { apply (Rmult_le_reg_r (2 ^ N)); [exact P |]. rewrite Rmult_assoc, Rinv_l, Rmult_1_r, Rmult_1_l by lra. apply Rle_pow; [lra | exact G]. }
  unfold Rdiv. set (i := / 2 ^ N) in *. assert (0 <= 2 ^ g * (v - c * i) < 2 ^ g * i) by (unfold Rdiv in R0; fold i in R0; split; nra). lra.
Qed.
Lemma chain_is st NL : forall v, chain_ok st NL -> 0 <= v < 1 -> chain st NL v = IZR (Zfloor (2 ^ (gain_sum st + NL) * v + chain_k st NL)).
Proof.
  induction st as [| (N, g) t IH]; intros v OK V; [cbn; do 2 f_equal; ring |]. destruct OK as (G & L & OK). cbn [chain gain_sum chain_k]. rewrite IH by (try exact OK; apply next_range; assumption).
  replace (Z.of_nat (g + gain_sum t + NL) - Z.of_nat N)%Z with (Z.of_nat (g + gain_sum t + NL - N)) by lia. rewrite rz2_nat, (pow2_IZR (g + gain_sum t + NL - N)), <- mult_IZR, <- plus_IZR. rewrite floor_add. do 2 f_equal. rewrite mult_IZR, <- pow2_IZR. unfold quant. set (c := IZR (Zfloor (v * 2 ^ N))).
  replace (g + gain_sum t + NL)%nat with (g + (gain_sum t + NL))%nat by lia. rewrite (pow_add 2 g (gain_sum t + NL)). assert (E : 2 ^ (g + (gain_sum t + NL) - N) * 2 ^ N = 2 ^ g * 2 ^ (gain_sum t + NL)) by (rewrite <- !pow_add; f_equal; lia). assert (E' : 2 ^ (g + (gain_sum t + NL) - N) = 2 ^ g * 2 ^ (gain_sum t + NL) / 2 ^ N) by (rewrite <- E; field; apply pow_nonzero; lra). rewrite E'. field. apply pow_nonzero. lra.
Qed.
Lemma chain2 N1 g1 N2 sig : (g1 <= N1)%nat -> 0 <= sig < 1 -> dot (pipeline2 N1 g1 N2 sig) (weights2 N1 g1 N2) = chain [(N1, g1)] N2 sig.
Proof.
  intros G V. unfold pipeline2, weights2. cbv zeta. assert (V2 := next_range N1 g1 sig G V).
  replace (Z.of_nat N1 + Z.of_nat N2 - (Z.of_nat N1 - Z.of_nat g1) - 1)%Z with (Z.of_nat N2 - (Z.of_nat N1 - Z.of_nat g1) + Z.of_nat N1 - 1)%Z by lia. rewrite dot_app by (rewrite sat_length, powers_length; lia). rewrite stage_dot by exact V. replace (Z.of_nat N2 - 1)%Z with (0 + Z.of_nat N2 - 1)%Z by lia. rewrite stage_dot by exact V2.
  cbn [chain gain_sum]. replace (powerRZ 2 0) with 1 by reflexivity. rewrite Rmult_1_r. do 2 f_equal. f_equal. lia.
Qed.
Lemma chain3 N1 g1 N2 g2 N3 sig : (g1 <= N1)%nat -> (g2 <= N2)%nat -> 0 <= sig < 1 -> dot (pipeline3 N1 g1 N2 g2 N3 sig) (weights3 N1 g1 N2 g2 N3) = chain [(N1, g1); (N2, g2)] N3 sig.
Proof.
  intros G G2 V. unfold pipeline3, weights3. cbv zeta. assert (V2 := next_range N1 g1 sig G V). assert (V3 := next_range N2 g2 _ G2 V2).
  set (e := (Z.of_nat N2 + Z.of_nat N3 - (Z.of_nat N2 - Z.of_nat g2) - (Z.of_nat N1 - Z.of_nat g1))%Z). replace (Z.of_nat N1 + Z.of_nat N2 + Z.of_nat N3 - (Z.of_nat N2 - Z.of_nat g2) - (Z.of_nat N1 - Z.of_nat g1) - 1)%Z with (e + Z.of_nat N1 - 1)%Z by (unfold e; lia). rewrite dot_app by (rewrite sat_length, powers_length; lia). rewrite stage_dot by exact V.
  set (f := (Z.of_nat N3 - (Z.of_nat N2 - Z.of_nat g2))%Z). replace (Z.of_nat N2 + Z.of_nat N3 - (Z.of_nat N2 - Z.of_nat g2) - 1)%Z with (f + Z.of_nat N2 - 1)%Z by (unfold f; lia). rewrite dot_app by (rewrite sat_length, powers_length; lia). rewrite stage_dot by exact V2. replace (Z.of_nat N3 - 1)%Z with (0 + Z.of_nat N3 - 1)%Z by lia. rewrite stage_dot by exact V3.
  cbn [chain gain_sum]. replace (powerRZ 2 0) with 1 by reflexivity. rewrite Rmult_1_r. replace (Z.of_nat (g1 + (g2 + 0) + N3) - Z.of_nat N1)%Z with e by (unfold e; lia). replace (Z.of_nat (g2 + 0 + N3) - Z.of_nat N2)%Z with f by (unfold f; lia). reflexivity.
Qed.
(** ** C200: two and three stages *)
(** Within the range the bits of two stages add up to the code of one converter of N2 + g1 bits, moved by the offset. *)
Lemma c200_two N1 g1 N2 sig : (g1 <= N1 <= g1 + N2)%nat -> 0 <= sig < 1 ->
  dot (pipeline2 N1 g1 N2 sig) (weights2 N1 g1 N2) = IZR (Zfloor (2 ^ (g1 + N2) * sig + (1 - 2 ^ g1 / 2 ^ N1) / 2 * 2 ^ N2)).
Proof.
  intros G V. rewrite chain2, chain_is by (try exact V; cbn; repeat split; lia). cbn [gain_sum chain_k]. rewrite Nat.add_0_r. cbn [Nat.add]. unfold stage_offset. do 2 f_equal. unfold Rdiv. ring.
Qed.
Lemma c200_three N1 g1 N2 g2 N3 sig : (g1 <= N1 <= g1 + g2 + N3)%nat -> (g2 <= N2 <= g2 + N3)%nat -> 0 <= sig < 1 ->
  dot (pipeline3 N1 g1 N2 g2 N3 sig) (weights3 N1 g1 N2 g2 N3) = IZR (Zfloor (2 ^ (g1 + g2 + N3) * sig + ((1 - 2 ^ g1 / 2 ^ N1) / 2 * 2 ^ (g2 + N3) + (1 - 2 ^ g2 / 2 ^ N2) / 2 * 2 ^ N3))).
Proof.
  intros G G2 V. rewrite chain3, chain_is by (try exact V; cbn; repeat split; lia). cbn [gain_sum chain_k]. rewrite Nat.add_0_r. cbn [Nat.add]. unfold stage_offset. do 2 f_equal. unfold Rdiv. ring.
Qed.
(** With the numbers in the scripts: the 11-bit code, and the 12-bit code plus 320. *)
Lemma c200_scripts sig : 0 <= sig < 1 -> dot (pipeline2 3 3 8 sig) (weights2 3 3 8) = IZR (Zfloor (2048 * sig)) /\ dot (pipeline3 3 2 3 2 8 sig) (weights3 3 2 3 2 8) = IZR (Zfloor (4096 * sig)) + 320.
Proof.
  intros V. rewrite c200_two, c200_three by (try exact V; lia). split; [do 2 f_equal; cbn; field |]. rewrite <- plus_IZR, Z.add_comm, floor_add. do 2 f_equal. cbn. field.
Qed.
(** The waveform scaled by the sum of the weights lies between 0 and 1 for every signal, in or out of range. *)
Lemma unit_dot b : forall w, (forall x, In x b -> x = 0 \/ x = 1) -> (forall x, In x w -> 0 < x) -> length b = length w -> 0 <= dot b w <= lsum w.
Proof.
  induction b as [| x b IH]; intros [| y w] B W L; try discriminate L; [cbn; lra |]. cbn [dot]. change (lsum (y :: w)) with (y + lsum w). assert (0 < y) by (apply W; left; reflexivity). destruct (IH w) as [P Q]; [intros; apply B; right; assumption | intros; apply W; right; assumption | injection L; auto |]. destruct (B x (or_introl eq_refl)) as [-> | ->]; lra.
Qed.
Lemma powers_pos hi lo x : In x (powers hi lo) -> 0 < x.
Proof. unfold powers. intros I. apply in_map_iff in I. destruct I as (i & <- & _). apply rz2_pos. Qed.
Lemma dot_normalised b w : dot b (normalised w) = dot b w / lsum w.
Proof. unfold normalised. unfold Rdiv at 2. rewrite Rmult_comm, <- dot_scale_r. f_equal. apply map_ext. intros x. unfold Rdiv. ring. Qed.
Lemma normalised_range b w : w <> [] -> (forall x, In x b -> x = 0 \/ x = 1) -> (forall x, In x w -> 0 < x) -> length b = length w -> 0 <= dot b (normalised w) <= 1.
Proof.
  intros N B W L. rewrite dot_normalised. destruct (unit_dot b w B W L) as [P Q]. assert (S : 0 < lsum w). { destruct w as [| y w]; [contradiction |]. change (lsum (y :: w)) with (y + lsum w). assert (0 < y) by (apply W; left; reflexivity). assert (0 <= lsum w) by (clear - W; induction w as [| u w IH]; [cbn; lra |]; change (lsum (u :: w)) with (u + lsum w); assert (0 < u) by (apply W; right; left; reflexivity); assert (0 <= lsum w) by (apply IH; intros x [<- | I]; apply W; [left | right; right]; auto); lra). lra. }
  split; [apply Rmult_le_pos; [exact P | left; apply Rinv_0_lt_compat; exact S] |]. apply (Rmult_le_reg_r (lsum w)); [exact S |]. unfold Rdiv. rewrite Rmult_assoc, Rinv_l by lra. lra.
Qed.
Lemma c200_normalised N1 g1 N2 g2 N3 sig : (1 <= N3)%nat ->
  0 <= dot (pipeline2 N1 g1 N3 sig) (normalised (weights2 N1 g1 N3)) <= 1 /\ 0 <= dot (pipeline3 N1 g1 N2 g2 N3 sig) (normalised (weights3 N1 g1 N2 g2 N3)) <= 1.
Proof.
  intros N. assert (NE : powers (Z.of_nat N3 - 1) 0 <> []) by (intros E; apply (f_equal (@length R)) in E; rewrite powers_length in E; cbn in E; lia). split; apply normalised_range.
  - unfold weights2. cbv zeta. intros E. apply app_eq_nil in E. tauto.
  - unfold pipeline2. cbv zeta. intros x I. apply in_app_or in I. destruct I as [I | I]; eapply sat_bit; exact I.
  - unfold weights2. cbv zeta. intros x I. apply in_app_or in I. destruct I as [I | I]; eapply powers_pos; exact I.
  - unfold pipeline2, weights2. cbv zeta. rewrite !app_length, !sat_length, !powers_length. lia.
  - unfold weights3. cbv zeta. intros E. apply app_eq_nil in E. destruct E as [_ E]. apply app_eq_nil in E. tauto.
  - unfold pipeline3. cbv zeta. intros x I. apply in_app_or in I. destruct I as [I | I]; [eapply sat_bit; exact I |]. apply in_app_or in I. destruct I as [I | I]; eapply sat_bit; exact I.
  - unfold weights3. cbv zeta. intros x I. apply in_app_or in I. destruct I as [I | I]; [eapply powers_pos; exact I |]. apply in_app_or in I. destruct I as [I | I]; eapply powers_pos; exact I.
  - unfold pipeline3, weights3. cbv zeta. rewrite !app_length, !sat_length, !powers_length. lia.
Qed.
(** Above the range the code falls back although the bits are saturated: the residue is taken against the unsaturated code. *)
Lemma c200_overload_refuted : exists a b, a < b /\ dot (pipeline2 3 3 8 b) (weights2 3 3 8) < dot (pipeline2 3 3 8 a) (weights2 3 3 8).
Proof.
  exists (2047 / 2048), 1. split; [lra |]. rewrite (proj1 (c200_scripts (2047 / 2048) ltac:(lra))). replace (2048 * (2047 / 2048)) with (IZR 2047) by field. rewrite Zfloor_IZR.
  unfold pipeline2, weights2. cbv zeta. assert (Q : quant 3 1 = 1) by (unfold quant; replace (1 * 2 ^ 3) with (IZR 8) by (cbn; field); rewrite Zfloor_IZR; cbn; field). rewrite Q. assert (Q2 : quant 8 (2 ^ 3 * (1 - 1) + stage_offset 3 3) = 0) by (unfold quant, stage_offset; replace ((2 ^ 3 * (1 - 1) + (1 - 2 ^ 3 * 1 / 2 ^ 3) / 2) * 2 ^ 8) with (IZR 0) by (cbn; field); rewrite Zfloor_IZR; cbn; field). rewrite Q2.
  replace (1 * 2 ^ 3) with (IZR 8) by (cbn; field). replace (0 * 2 ^ 8) with (IZR 0) by ring. assert (B : bin_saturate (IZR 8) 3 = bits 7 3) by (unfold bin_saturate; rewrite Zfloor_IZR; reflexivity). rewrite B, sat_bits by (cbn; lia). rewrite dot_app by reflexivity. change (Z.of_nat 3 + Z.of_nat 8 - (Z.of_nat 3 - Z.of_nat 3) - 1)%Z with (8 + Z.of_nat 3 - 1)%Z. change (Z.of_nat 8 - (Z.of_nat 3 - Z.of_nat 3))%Z with 8%Z. change (Z.of_nat 8 - 1)%Z with (0 + Z.of_nat 8 - 1)%Z. rewrite !bits_dot. rewrite !Z.mod_small by (cbn; lia). replace (powerRZ 2 8) with 256 by (cbv [powerRZ Pos.to_nat Pos.iter_op Nat.add pow]; lra). lra.
Qed.
Lemma bits_zero N : bits 0 N = repeat 0 N.
Proof. induction N as [| N IH]; [reflexivity |]. rewrite bits_S, IH, Z.div_0_l by (apply Z.pow_nonzero; lia). reflexivity. Qed.
Lemma bits_ones M : forall N, (N <= M)%nat -> bits (2 ^ Z.of_nat M - 1) N = repeat 1 N.
Proof.
  induction N as [| N IH]; intros L; [reflexivity |]. rewrite bits_S, IH by lia. cbn [repeat]. f_equal. f_equal. assert (P : (0 < 2 ^ Z.of_nat N)%Z) by (apply Z.pow_pos_nonneg; lia). assert (Q : (0 < 2 ^ Z.of_nat (M - S N))%Z) by (apply Z.pow_pos_nonneg; lia). assert (E : (2 ^ Z.of_nat M = 2 ^ Z.of_nat N * (2 * 2 ^ Z.of_nat (M - S N)))%Z) by (replace (Z.of_nat M) with (Z.of_nat N + (1 + Z.of_nat (M - S N)))%Z by lia; rewrite !Z.pow_add_r by lia; reflexivity). rewrite E. rewrite <- (Z.div_unique (2 ^ Z.of_nat N * (2 * 2 ^ Z.of_nat (M - S N)) - 1) (2 ^ Z.of_nat N) (2 * 2 ^ Z.of_nat (M - S N) - 1) (2 ^ Z.of_nat N - 1)) by (try left; lia). rewrite <- (Z.mod_unique (2 * 2 ^ Z.of_nat (M - S N) - 1) 2 (2 ^ Z.of_nat (M - S N) - 1) 1) by (try left; lia). reflexivity.
Qed.
(** Outside the range the first stage holds: all bits 0 below, all bits 1 above. *)
Lemma c200_saturates N1 g1 N2 sig : (sig <= 0 -> firstn N1 (pipeline2 N1 g1 N2 sig) = repeat 0 N1) /\ (1 <= sig -> firstn N1 (pipeline2 N1 g1 N2 sig) = repeat 1 N1).
Proof.
  assert (F : firstn N1 (pipeline2 N1 g1 N2 sig) = bin_saturate (quant N1 sig * 2 ^ N1) N1). { unfold pipeline2. cbv zeta. rewrite firstn_app, sat_length, Nat.sub_diag, firstn_O, app_nil_r. apply firstn_all2. rewrite sat_length. lia. }
  rewrite F, quant_code. unfold bin_saturate. rewrite Zfloor_IZR. set (z := Zfloor (sig * 2 ^ N1)). pose proof (pow2_pos N1) as P. pose proof (Zfloor_lb (sig * 2 ^ N1)) as L. pose proof (Zfloor_ub (sig * 2 ^ N1)) as U. fold z in L, U. assert (PZ : (0 < 2 ^ Z.of_nat N1)%Z) by (apply Z.pow_pos_nonneg; lia). split; intros H.
  - assert (Z0 : (z <= 0)%Z) by (apply le_IZR; nra). replace (Z.min (Z.max z 0) (2 ^ Z.of_nat N1 - 1)) with 0%Z by lia. apply bits_zero.
  - assert (Z1 : (2 ^ Z.of_nat N1 <= z)%Z). { apply Z.lt_succ_r. apply lt_IZR. rewrite <- pow2_IZR. rewrite succ_IZR. nra. } replace (Z.min (Z.max z 0) (2 ^ Z.of_nat N1 - 1)) with (2 ^ Z.of_nat N1 - 1)%Z by lia. apply bits_ones. lia.
Qed.
Example c200_scripts_ex : dot (pipeline2 3 3 8 (1 / 2)) (weights2 3 3 8) = 1024 /\ dot (pipeline3 3 2 3 2 8 (1 / 2)) (weights3 3 2 3 2 8) = 2368.
Proof. destruct (c200_scripts (1 / 2) ltac:(lra)) as [-> ->]. replace (2048 * (1 / 2)) with (IZR 1024) by field. replace (4096 * (1 / 2)) with (IZR 2048) by field. rewrite !Zfloor_IZR. lra. Qed.
Example c200_two_ex : pipeline2 2 2 2 (5 / 8) = [1; 0; 1; 0] /\ weights2 2 2 2 = [8; 4; 2; 1].
Proof.
  split.
  - unfold pipeline2. cbv zeta. assert (Q : quant 2 (5 / 8) = 1 / 2) by (unfold quant; replace (Zfloor (5 / 8 * 2 ^ 2)) with 2%Z by (symmetry; apply Zfloor_imp; cbn; lra); cbn; field). rewrite Q. assert (Q2 : quant 2 (2 ^ 2 * (5 / 8 - 1 / 2) + stage_offset 2 2) = 1 / 2) by (unfold quant, stage_offset; replace (Zfloor _) with 2%Z by (symmetry; match goal with |- Zfloor ?x = _ => replace x with (IZR 2) by (cbn; field) end; apply Zfloor_IZR); cbn; field). rewrite Q2. replace (1 / 2 * 2 ^ 2) with (IZR 2) by (cbn; field). rewrite !sat_bits by (cbn; lia). reflexivity.
  - unfold weights2, powers. cbv -[powerRZ IZR]. cbv [powerRZ Pos.to_nat Pos.iter_op Nat.add pow]. repeat (apply f_equal2; [lra |]). reflexivity.
Qed.
(** ** C201: many equal stages *)
Fixpoint right_weights (k N g NL : nat) : list R :=
  match k with O => powers (Z.of_nat NL - 1) 0 | S k' => let e := (Z.of_nat (g * k + NL) - Z.of_nat N)%Z in powers (e + Z.of_nat N - 1) e ++ right_weights k' N g NL end.
Lemma gain_repeat k (N g : nat) : gain_sum (repeat (N, g) k) = (g * k)%nat.
Proof. induction k as [| k IH]; cbn [repeat gain_sum]; [lia |]. rewrite IH. lia. Qed.
Lemma loop_length k N g : forall v, length (fst (pipe_loop k N g v)) = (N * k)%nat.
Proof. induction k as [| k IH]; intros v; cbn [pipe_loop fst]; [cbn; lia |]. rewrite app_length, sat_length, IH. lia. Qed.
Lemma loop_chain k N g NL : (g <= N)%nat -> forall v, 0 <= v < 1 -> let r := pipe_loop k N g v in 0 <= snd r < 1 /\ dot (fst r ++ bin_saturate (quant NL (snd r) * 2 ^ NL) NL) (right_weights k N g NL) = chain (repeat (N, g) k) NL v.
Proof.
  intros G. induction k as [| k IH]; intros v V r.
  - unfold r. cbn [pipe_loop fst snd app right_weights repeat chain]. split; [exact V |]. replace (Z.of_nat NL - 1)%Z with (0 + Z.of_nat NL - 1)%Z by lia. rewrite stage_dot by exact V. cbn. ring.
  - assert (V2 := next_range N g v G V). destruct (IH _ V2) as [P Q]. unfold r. cbn [pipe_loop fst snd right_weights repeat chain]. split; [exact P |]. cbv zeta. rewrite <- app_assoc. rewrite dot_app by (rewrite sat_length, powers_length; lia). rewrite stage_dot by exact V. rewrite Q, gain_repeat. do 2 f_equal. f_equal. lia.
Qed.
Lemma chain_k_repeat k N g NL : chain_k (repeat (N, g) k) NL = stage_offset N g * 2 ^ NL * rsum k (fun i => 2 ^ (g * i)).
Proof.
  induction k as [| k IH]; [cbn; ring |]. cbn [repeat chain_k rsum]. rewrite IH, gain_repeat, pow_add. ring.
Qed.
Lemma chain_ok_repeat k N g NL : (g <= N <= g + NL)%nat -> chain_ok (repeat (N, g) k) NL.
Proof. intros G. induction k as [| k IH]; cbn [repeat chain_ok]; [exact I |]. repeat split; try lia. exact IH. Qed.
Lemma stage_weights_shift S' N g NL i : stage_weights (S S') N g NL (S i) = stage_weights S' N g NL i.
Proof. unfold stage_weights. cbv zeta. replace (Z.of_nat (S S') - Z.of_nat (S i))%Z with (Z.of_nat S' - Z.of_nat i)%Z by lia. reflexivity. Qed.
Lemma head_weights k N g NL : map (fun x => 2 ^ g * x) (concat (map (fun i => stage_weights (S k) N g NL (i + 1)) (seq 0 k))) ++ powers (Z.of_nat NL - 1) 0 = right_weights k N g NL.
Proof.
  induction k as [| k IH]; [reflexivity |]. cbn [seq map concat right_weights]. rewrite map_app, <- app_assoc. f_equal.
  - unfold stage_weights. cbv zeta. set (e := (Z.of_nat (g * S k + NL) - Z.of_nat N)%Z).
    replace (Z.of_nat N * (Z.of_nat (S (S k)) - Z.of_nat (0 + 1)) - (Z.of_nat N - Z.of_nat g) * (Z.of_nat (S (S k)) - Z.of_nat (0 + 1) - 1) + (Z.of_nat NL - Z.of_nat N))%Z with (e - Z.of_nat g + Z.of_nat N)%Z by (unfold e; nia).
    unfold powers. rewrite map_map. replace (Z.to_nat (e - Z.of_nat g + Z.of_nat N - 1 - (e - Z.of_nat g + Z.of_nat N - Z.of_nat N) + 1)) with N by lia. replace (Z.to_nat (e + Z.of_nat N - 1 - e + 1)) with N by lia. apply map_ext. intros i. rewrite <- rz2_nat, <- rz2_add. f_equal. lia.
  - rewrite <- IH. f_equal. f_equal. f_equal. rewrite <- seq_shift, map_map. apply map_ext. intros i. exact (stage_weights_shift (S k) N g NL (i + 1)).
Qed.
(** The digits are right, the weights of all stages but the last are not: 2^g times as much makes the code of one converter. *)
Lemma c201_weights n N g NL sig : (1 <= n)%nat -> (g <= N <= g + NL)%nat -> 0 <= sig < 1 -> exists head low wh wl,
  pipeline_n n N g NL sig = head ++ low /\ weights_n n N g NL = wh ++ wl /\ length head = (N * (n - 1))%nat /\ length wh = length head /\ length low = NL /\ length wl = NL /\
  2 ^ g * dot head wh + dot low wl = IZR (Zfloor (2 ^ (g * (n - 1) + NL) * sig + (1 - 2 ^ g / 2 ^ N) / 2 * 2 ^ NL * rsum (n - 1) (fun i => 2 ^ (g * i)))).
Proof.
  intros P G V. unfold pipeline_n, weights_n. cbv zeta. set (r := pipe_loop (n - 1) N g sig). do 4 eexists. split; [reflexivity |]. split; [reflexivity |]. split; [apply loop_length |].
  destruct (loop_chain (n - 1) N g NL ltac:(lia) sig V) as [_ Q]. fold r in Q. rewrite <- head_weights in Q. replace (S (n - 1)) with n in Q by lia.
  assert (LW : length (concat (map (fun i => stage_weights n N g NL (i + 1)) (seq 0 (n - 1)))) = length (fst r)). { unfold r. rewrite loop_length. clear. assert (E : forall l, length (concat (map (fun i => stage_weights n N g NL (i + 1)) l)) = (N * length l)%nat) by (induction l as [| i l IH]; cbn [map concat]; [cbn; lia |]; rewrite app_length, IH; unfold stage_weights; cbv zeta; rewrite powers_length; cbn [length]; lia). rewrite E, seq_length. reflexivity. }
  split; [exact LW |]. split; [apply sat_length |]. split; [rewrite powers_length; lia |].
  rewrite dot_app in Q by (rewrite map_length; symmetry; exact LW). rewrite dot_scale_r in Q. rewrite Q, chain_is by (try exact V; apply chain_ok_repeat; exact G). rewrite gain_repeat, chain_k_repeat. unfold stage_offset. do 2 f_equal. unfold Rdiv. ring.
Qed.
Lemma app_tail (a : list R) : forall b c d, length a = length c -> a ++ b = c ++ d -> b = d.
Proof. induction a as [| x a IH]; intros b [| y c] d L E; try discriminate L; [exact E |]. injection E as _ E. injection L as L. exact (IH b c d L E). Qed.
Lemma weights_head n N g NL : length (concat (map (fun i => stage_weights n N g NL (i + 1)) (seq 0 (n - 1)))) = (N * (n - 1))%nat.
Proof.
  assert (E : forall l, length (concat (map (fun i => stage_weights n N g NL (i + 1)) l)) = (N * length l)%nat) by (induction l as [| i l IH]; cbn [map concat]; [cbn; lia |]; rewrite app_length, IH; unfold stage_weights; cbv zeta; rewrite powers_length; cbn [length]; lia). rewrite E, seq_length. reflexivity.
Qed.
Lemma last_step k x : 0 <= x < 1 / 8 -> snd (pipe_loop (S k) 3 2 (1 / 4 + x)) = snd (pipe_loop k 3 2 (1 / 4 + 4 * x)).
Proof.
  intros X. cbn [pipe_loop snd]. do 2 f_equal. unfold quant, stage_offset. replace (Zfloor ((1 / 4 + x) * 2 ^ 3)) with 2%Z by (symmetry; apply Zfloor_imp; cbn; lra). cbn. field.
Qed.
Lemma last_first k x : 0 <= x < 1 / 8 -> snd (pipe_loop (S k) 3 2 x) = snd (pipe_loop k 3 2 (1 / 4 + 4 * x)).
Proof.
  intros X. cbn [pipe_loop snd]. do 2 f_equal. unfold quant, stage_offset. replace (Zfloor (x * 2 ^ 3)) with 0%Z by (symmetry; apply Zfloor_imp; cbn; lra). cbn. field.
Qed.
(** With the numbers of the script (eight stages) a larger signal gets a smaller code. *)
Lemma c201_monotone_refuted : exists a b, 0 <= a /\ a < b /\ b < 1 /\ dot (pipeline_n 8 3 2 4 b) (weights_n 8 3 2 4) < dot (pipeline_n 8 3 2 4 a) (weights_n 8 3 2 4).
Proof.
  set (a := 7 / 2 ^ 18). set (b := 8 / 2 ^ 18). assert (PA : 0 <= a < 1) by (unfold a; cbn; lra). assert (PB : 0 <= b < 1) by (unfold b; cbn; lra). exists a, b. split; [lra |]. split; [unfold a, b; cbn; lra |]. split; [lra |].
  assert (SA : snd (pipe_loop 7 3 2 a) = 11 / 16). { unfold a. rewrite last_first by (cbn; lra). do 6 (rewrite last_step by (cbn; lra)). cbn. field. }
  assert (SB : snd (pipe_loop 7 3 2 b) = 1 / 4). { unfold b. rewrite last_first by (cbn; lra). do 5 (rewrite last_step by (cbn; lra)). cbn [pipe_loop snd]. unfold quant, stage_offset. replace (Zfloor _) with 3%Z by (symmetry; apply Zfloor_imp; cbn; lra). cbn. field. }
  assert (D : forall sig v c, 0 <= sig < 1 -> snd (pipe_loop 7 3 2 sig) = v -> v = IZR c / 16 -> (0 <= c < 16)%Z -> dot (pipeline_n 8 3 2 4 sig) (weights_n 8 3 2 4) = (IZR (Zfloor (2 ^ 18 * sig + 21844)) - IZR c) / 4 + IZR c).
  { intros sig v c V E EV C. destruct (c201_weights 8 3 2 4 sig ltac:(lia) ltac:(lia) V) as (head & low & wh & wl & E1 & E2 & L1 & L2 & L3 & L4 & Q). rewrite E1, E2, dot_app by congruence.
    assert (EL : low = bin_saturate (quant 4 v * 2 ^ 4) 4). { unfold pipeline_n in E1. cbv zeta in E1. change (8 - 1)%nat with 7%nat in E1. rewrite E in E1. apply app_tail in E1; [symmetry; exact E1 |]. rewrite loop_length, L1. reflexivity. }
    assert (EW : wl = powers (Z.of_nat 4 - 1) 0). { unfold weights_n in E2. apply app_tail in E2; [symmetry; exact E2 |]. rewrite weights_head, L2, L1. reflexivity. }
    assert (DL : dot low wl = IZR c). { rewrite EL, EW. change (Z.of_nat 4 - 1)%Z with (0 + Z.of_nat 4 - 1)%Z. assert (VV : 0 <= v < 1) by (rewrite EV; pose proof (IZR_le 0 c ltac:(lia)); pose proof (IZR_le c 15 ltac:(lia)); lra). rewrite stage_dot by exact VV. replace (v * 2 ^ 4) with (IZR c) by (rewrite EV; cbn; field). rewrite Zfloor_IZR. cbn. ring. }
    rewrite DL in Q |- *. replace (2 ^ (2 * (8 - 1) + 4) * sig + (1 - 2 ^ 2 / 2 ^ 3) / 2 * 2 ^ 4 * rsum (8 - 1) (fun i => 2 ^ (2 * i))) with (2 ^ 18 * sig + 21844) in Q by (cbn; field). rewrite <- Q. cbn. field. }
  rewrite (D a (11 / 16) 11%Z PA SA ltac:(lra) ltac:(lia)), (D b (1 / 4) 4%Z PB SB ltac:(lra) ltac:(lia)). replace (2 ^ 18 * a + 21844) with (IZR 21851) by (unfold a; cbn; field). replace (2 ^ 18 * b + 21844) with (IZR 21852) by (unfold b; cbn; field). rewrite !Zfloor_IZR. lra.
Qed.
Example c201_weights_ex : weights_n 3 2 1 2 = [4; 2; 2; 1; 2; 1] /\ right_weights 2 2 1 2 = [8; 4; 4; 2; 2; 1].
Proof. unfold weights_n, stage_weights, right_weights, powers. cbv -[powerRZ IZR]. cbv [powerRZ Pos.to_nat Pos.iter_op Nat.add pow]. split; repeat (apply f_equal2; [lra |]); reflexivity. Qed.
(** ** C202: the successive-approximation converter *)
Definition half_last (w : list R) : list R := removelast w ++ [last w 0 / 2].
Lemma half_last_cons c d t : half_last (c :: d :: t) = c :: half_last (d :: t).
Proof. reflexivity. Qed.
Definition covered (w : list R) : Prop := forall j, (S j < length w)%nat -> nth j w 0 <= lsum (skipn (S j) w).
Lemma covered_tail c t : covered (c :: t) -> covered t.
Proof. intros H j J. apply (H (S j)). cbn. lia. Qed.
Lemma lsum_cons c t : lsum (c :: t) = c + lsum t.
Proof. reflexivity. Qed.
Lemma sar_bits_cons c t r : sar_bits (c :: t) r = (if Rltb 0 r then 1 else 0) :: sar_bits t (r - (2 * (if Rltb 0 r then 1 else 0) - 1) * c).
Proof. reflexivity. Qed.
Lemma sar_core t : forall c res, covered (c :: t) -> - lsum (c :: t) <= res <= lsum (c :: t) ->
  let e := (res + lsum (c :: t)) / 2 - dot (sar_bits (c :: t) res) (half_last (c :: t)) in 0 <= e <= last (c :: t) 0 / 2 /\ (- lsum (c :: t) < res -> 0 < e).
Proof.
  induction t as [| d t IH]; intros c res C Rg; cbv zeta.
  - rewrite sar_bits_cons. cbn [sar_bits half_last removelast app last dot]. rewrite lsum_cons in *. change (lsum []) with 0 in *. destruct (Rltb_spec 0 res); lra.
  - rewrite half_last_cons, sar_bits_cons. cbn [dot]. change (last (c :: d :: t) 0) with (last (d :: t) 0). assert (C0 := C 0%nat ltac:(cbn; lia)). cbn [nth skipn] in C0. assert (Ct := covered_tail _ _ C). rewrite (lsum_cons c) in *. destruct (Rltb_spec 0 res) as [P | P].
    + destruct (IH d (res - (2 * 1 - 1) * c) Ct ltac:(lra)) as [[A B] D]. specialize (D ltac:(lra)). lra.
    + destruct (IH d (res - (2 * 0 - 1) * c) Ct ltac:(lra)) as [[A B] D]. split; [lra |]. intros Q. specialize (D ltac:(lra)). lra.
Qed.
Lemma lsum_div w T : lsum (map (fun c => c / T * 1) w) = lsum w / T.
Proof. induction w as [| c w IH]; [cbn; unfold Rdiv; ring |]. cbn [map]. rewrite !lsum_cons, IH. unfold Rdiv. ring. Qed.
Lemma last_map f (w : list R) : w <> [] -> last (map f w) 0 = f (last w 0).
Proof. induction w as [| c [| d w] IH]; intros N; [contradiction | reflexivity |]. change (last (map f (d :: w)) 0 = f (last (d :: w) 0)). apply IH. discriminate. Qed.
Lemma half_map w T : w <> [] -> half_last (map (fun c => c / T * 1) w) = map (fun x => / T * x) (half_last w).
Proof.
  induction w as [| c [| d w] IH]; intros N; [contradiction | cbn; f_equal; unfold Rdiv; ring |]. cbn [map]. rewrite !half_last_cons. cbn [map]. rewrite <- IH by discriminate. cbn [map]. f_equal. unfold Rdiv. ring.
Qed.
Lemma covered_div w T : 0 < T -> covered w -> covered (map (fun c => c / T * 1) w).
Proof.
  intros P C j J. rewrite map_length in J. rewrite skipn_map, lsum_div. rewrite (nth_indep _ 0 ((fun c => c / T * 1) 0)) by (rewrite map_length; lia). rewrite (map_nth (fun c => c / T * 1)). rewrite Rmult_1_r. apply Rmult_le_compat_r; [left; apply Rinv_0_lt_compat; exact P |]. apply C. exact J.
Qed.
(** If every capacitor but the last is at most the sum of those after it, the output is within half the last capacitor below the input (scaled to capacitors). *)
Lemma c202_error cdac sig : cdac <> [] -> 0 < lsum cdac -> (forall j, (S j < length cdac)%nat -> nth j cdac 0 <= lsum (skipn (S j) cdac)) -> -1 <= sig <= 1 ->
  0 <= lsum cdac * (sig + 1) / 2 - sar_aout cdac sig <= last cdac 0 / 2 /\ (-1 < sig -> sar_aout cdac sig < lsum cdac * (sig + 1) / 2).
Proof.
  intros N P C Sg. set (T := lsum cdac) in *. assert (C2 := covered_div cdac T P C). assert (L := lsum_div cdac T). fold T in L. replace (T / T) with 1 in L by (field; lra). assert (H := half_map cdac T N). assert (La := last_map (fun c => c / T * 1) cdac N). unfold sar_aout, sar_dout. fold T. change (sar_nominal cdac) with (half_last cdac).
  destruct (map (fun c => c / T * 1) cdac) as [| c t] eqn:E; [destruct cdac; [contradiction | discriminate E] |]. destruct (sar_core t c sig C2 ltac:(rewrite L; lra)) as [A B]. cbv zeta in A, B. rewrite L, H in A. rewrite L, H in B. rewrite dot_scale_r in A, B. rewrite La in A. set (D := dot _ _) in *. clearbody D. assert (I : T * / T = 1) by (field; lra).
  assert (S1 : T * ((sig + 1) / 2 - / T * D) = T * (sig + 1) / 2 - D) by (unfold Rdiv; rewrite Rmult_minus_distr_l, <- Rmult_assoc, <- Rmult_assoc, I; ring). assert (S2 : T * (last cdac 0 / T * 1 / 2) = last cdac 0 / 2) by (field; lra). repeat split.
  - rewrite <- S1. apply Rmult_le_pos; lra.
  - rewrite <- S1, <- S2. apply Rmult_le_compat_l; lra.
  - intros Q. specialize (B ltac:(lra)). assert (0 < T * ((sig + 1) / 2 - / T * D)) by (apply Rmult_lt_0_compat; assumption). lra.
Qed.
Lemma sar_bit w : forall r x, In x (sar_bits w r) -> x = 0 \/ x = 1.
Proof. induction w as [| c w IH]; intros r x I; [destruct I |]. rewrite sar_bits_cons in I. destruct I as [<- | I]; [destruct (Rltb 0 r); auto | eapply IH; exact I]. Qed.
Lemma whole_dot q b : forall w, (forall x, In x b -> x = 0 \/ x = 1) -> (forall x, In x w -> exists k, x = IZR k * q) -> exists k, dot b w = IZR k * q.
Proof.
  induction b as [| x b IH]; intros w B W; [exists 0%Z; cbn; ring |]. destruct w as [| y w]; [exists 0%Z; cbn; ring |]. destruct (IH w) as [k K]; [intros; apply B; right; assumption | intros; apply W; right; assumption |]. destruct (W y (or_introl eq_refl)) as [m M]. cbn [dot]. rewrite K, M. destruct (B x (or_introl eq_refl)) as [-> | ->]; [exists k; ring | exists (m + k)%Z; rewrite plus_IZR; ring].
Qed.
Lemma in_half w x : In x (half_last w) -> In x w \/ x = last w 0 / 2.
Proof. unfold half_last. intros I. apply in_app_or in I. destruct I as [I | [<- | []]]; [left | right; reflexivity]. clear - I. induction w as [| c [| d w] IH]; [destruct I | destruct I |]. change (In x (c :: removelast (d :: w))) in I. destruct I as [-> | I]; [left; reflexivity | right; apply IH; exact I]. Qed.
(** If moreover every capacitor is a whole number of the last, the output is that of an ideal quantiser with steps of half the last capacitor: redundancy costs nothing. *)
Lemma c202_ideal cdac sig : cdac <> [] -> 0 < last cdac 0 -> 0 < lsum cdac -> (forall j, (S j < length cdac)%nat -> nth j cdac 0 <= lsum (skipn (S j) cdac)) -> (forall c, In c cdac -> exists k, c = IZR k * last cdac 0) -> -1 < sig <= 1 ->
  sar_aout cdac sig = last cdac 0 / 2 * (IZR (Zceil (lsum cdac * (sig + 1) / last cdac 0)) - 1).
Proof.
  intros N L P C W Sg. destruct (c202_error cdac sig N P C ltac:(lra)) as [[A B] D]. specialize (D ltac:(lra)). set (q := last cdac 0 / 2).
  destruct (whole_dot q (sar_dout cdac sig) (sar_nominal cdac)) as [k K].
  - intros x I. unfold sar_dout in I. eapply sar_bit. exact I.
  - intros x I. apply in_half in I. destruct I as [I | ->]; [| exists 1%Z; unfold q; ring]. destruct (W x I) as [k ->]. exists (2 * k)%Z. rewrite mult_IZR. unfold q. field.
  - fold (sar_aout cdac sig) in K. rewrite K in *. assert (Z : Zceil (lsum cdac * (sig + 1) / last cdac 0) = (k + 1)%Z).
    { apply Zceil_imp. replace (k + 1 - 1)%Z with k by ring. rewrite plus_IZR. set (l := last cdac 0) in *. replace (lsum cdac * (sig + 1) / l) with (lsum cdac * (sig + 1) / 2 / q) by (unfold q; field; lra). assert (0 < q) by (unfold q; lra). split; [apply (Rmult_lt_reg_r q) | apply (Rmult_le_reg_r q)]; try assumption; unfold Rdiv at 1; rewrite Rmult_assoc, Rinv_l, Rmult_1_r by lra; [exact D |]. fold q in B. lra. }
    rewrite Z, plus_IZR. ring.
Qed.
(** The step 2 sum/last levels is the resolution the script prints. *)
Lemma c202_resolution cdac : 0 < lsum cdac -> 0 < last cdac 0 -> exp (sar_resolution cdac * ln 2) * (last cdac 0 / 2) = lsum cdac.
Proof.
  intros P L. unfold sar_resolution. assert (l2 : 0 < ln 2) by (rewrite <- ln_1; apply ln_increasing; lra). replace (ln (lsum cdac / last cdac 0 * 2) / ln 2 * ln 2) with (ln (lsum cdac / last cdac 0 * 2)) by (field; lra). rewrite exp_ln; [field; lra |]. apply Rmult_lt_0_compat; [| lra]. apply Rmult_lt_0_compat; [exact P | apply Rinv_0_lt_compat; exact L].
Qed.
(** Both capacitor lists of the script: 4096 and 3438 levels without a missing code. *)
Lemma c202_scripts sig : -1 < sig <= 1 ->
  sar_aout [1024; 512; 256; 128; 64; 32; 16; 8; 4; 2; 1; 1] sig = (IZR (Zceil (2048 * (sig + 1))) - 1) / 2 /\ sar_aout [800; 440; 230; 122; 63; 32; 16; 8; 4; 2; 1; 1] sig = (IZR (Zceil (1719 * (sig + 1))) - 1) / 2.
Proof.
  intros Sg. assert (W : forall (zs : list Z) c, In c (map IZR zs) -> exists k, c = IZR k * 1) by (intros zs c I; apply in_map_iff in I; destruct I as (k & <- & _); exists k; ring).
  split; rewrite c202_ideal; try exact Sg; try discriminate; try (cbn; lra).
  - change (last [1024; 512; 256; 128; 64; 32; 16; 8; 4; 2; 1; 1] 0) with 1. replace (lsum _ * (sig + 1) / 1) with (2048 * (sig + 1)) by (cbn; field). field.
  - intros j J. do 12 (destruct j as [| j]; [cbn in *; try lia; lra |]). cbn in J. lia.
  - exact (W [1024; 512; 256; 128; 64; 32; 16; 8; 4; 2; 1; 1]%Z).
  - change (last [800; 440; 230; 122; 63; 32; 16; 8; 4; 2; 1; 1] 0) with 1. replace (lsum _ * (sig + 1) / 1) with (1719 * (sig + 1)) by (cbn; field). field.
  - intros j J. do 12 (destruct j as [| j]; [cbn in *; try lia; lra |]). cbn in J. lia.
  - exact (W [800; 440; 230; 122; 63; 32; 16; 8; 4; 2; 1; 1]%Z).
Qed.
(** Without the condition on the capacitors the error is larger than the half step. *)
Lemma c202_missing_refuted : exists cdac sig, cdac <> [] /\ 0 < last cdac 0 /\ -1 <= sig <= 1 /\ last cdac 0 / 2 < sar_aout cdac sig - lsum cdac * (sig + 1) / 2.
Proof.
  exists [4; 1; 1], (1 / 100). split; [discriminate |]. split; [cbn; lra |]. split; [lra |]. unfold sar_aout, sar_dout, sar_nominal. cbn [map lsum fold_right sar_bits]. change (lsum [4; 1; 1]) with (4 + (1 + (1 + 0))).
  destruct (Rltb_spec 0 (1 / 100)) as [_ | H]; [| exfalso; lra]. match goal with |- context [Rltb 0 ?r] => destruct (Rltb_spec 0 r) as [H | _]; [exfalso; revert H; apply Rle_not_lt; lra |] end. match goal with |- context [Rltb 0 ?r] => destruct (Rltb_spec 0 r) as [H | _]; [exfalso; revert H; apply Rle_not_lt; lra |] end. cbn. lra.
Qed.
Example c202_error_ex : sar_dout [2; 1; 1] (3 / 8) = [1; 0; 1] /\ sar_aout [2; 1; 1] (3 / 8) = 5 / 2.
Proof.
  assert (E : sar_dout [2; 1; 1] (3 / 8) = [1; 0; 1]). { unfold sar_dout. change (lsum [2; 1; 1]) with (2 + (1 + (1 + 0))). cbn [map sar_bits]. destruct (Rltb_spec 0 (3 / 8)) as [_ | H]; [| exfalso; lra]. match goal with |- context [Rltb 0 ?r] => destruct (Rltb_spec 0 r) as [H | _]; [exfalso; lra |] end. match goal with |- context [Rltb 0 ?r] => destruct (Rltb_spec 0 r) as [_ | H]; [reflexivity | exfalso; lra] end. }
  split; [exact E |]. unfold sar_aout. rewrite E. cbn. lra.
Qed.
Example c202_scripts_ex : sar_aout [1024; 512; 256; 128; 64; 32; 16; 8; 4; 2; 1; 1] 0 = 2047 / 2 /\ sar_aout [800; 440; 230; 122; 63; 32; 16; 8; 4; 2; 1; 1] (1 / 1719) = 1719 / 2.
Proof. rewrite (proj1 (c202_scripts 0 ltac:(lra))), (proj2 (c202_scripts (1 / 1719) ltac:(lra))). replace (2048 * (0 + 1)) with (IZR 2048) by ring. replace (1719 * (1 / 1719 + 1)) with (IZR 1720) by field. rewrite !Zceil_IZR. lra. Qed.
(** ** C203: the two-step quantiser *)
(** The two steps together are one 12-bit quantiser, for every signal. *)
Lemma c203_two_step sig : fst (two_step sig) + snd (two_step sig) = IZR (Zfloor (sig * 4096)) / 4096 /\ (exists k, fst (two_step sig) = IZR k / 16) /\ fst (two_step sig) <= sig < fst (two_step sig) + 1 / 16 /\ 0 <= snd (two_step sig) < 1 / 16.
Proof.
  unfold two_step. cbn [fst snd]. unfold quant. replace (2 ^ 4) with 16 by (cbn; ring). replace (2 ^ 12) with 4096 by (cbn; ring). set (k := Zfloor (sig * 16)). assert (B1 := Zfloor_lb (sig * 16)). assert (B2 := Zfloor_ub (sig * 16)). fold k in B1, B2.
  assert (E : Zfloor ((sig - IZR k / 16) * 4096) = (Zfloor (sig * 4096) - 256 * k)%Z). { replace ((sig - IZR k / 16) * 4096) with (IZR (- (256 * k)) + sig * 4096) by (rewrite opp_IZR, mult_IZR; field). rewrite <- floor_add. lia. }
  assert (P : (0 <= Zfloor ((sig - IZR k / 16) * 4096) < 256)%Z). { split; [apply Zfloor_lub; lra |]. apply lt_IZR. eapply Rle_lt_trans; [apply Zfloor_lb |]. lra. } assert (P1 := IZR_le _ _ (proj1 P)). assert (P2 := IZR_lt _ _ (proj2 P)).
  split; [rewrite E, minus_IZR, mult_IZR; field |]. split; [exists k; reflexivity |]. split; lra.
Qed.
(** What the three scripts add to that: a scaled coarse code, an alternating multiple of it, and a share of the one before. *)
Lemma c203_errors sig g amp k : gain_error g sig = IZR (Zfloor (sig * 4096)) / 4096 + (g - 1) * fst (two_step sig) /\
  ref_error amp k sig = IZR (Zfloor (sig * 4096)) / 4096 + (if Nat.even k then 1 else -1) * amp * (fst (two_step sig) - 1 / 2).
Proof.
  destruct (c203_two_step sig) as [E _]. unfold gain_error, ref_error. rewrite <- E. split; [ring |]. assert (Pw : (-1) ^ k = if Nat.even k then 1 else -1). { induction k as [| k IH]; [reflexivity |]. rewrite Nat.even_succ, <- Nat.negb_even. cbn [pow]. rewrite IH. destruct (Nat.even k); cbn; ring. } rewrite Pw. lra.
Qed.
Lemma c203_kickback kb sig k : (k < length sig)%nat -> nth k (kickback kb sig) 0 = IZR (Zfloor (nth k sig 0 * 4096)) / 4096 + kb * fst (two_step (nth (k - 1) sig 0)).
Proof.
  intros K. unfold kickback. rewrite (nth_map_in _ _ k 0%nat) by (rewrite seq_length; exact K). rewrite seq_nth by exact K. rewrite Nat.add_0_l. rewrite (proj1 (c203_two_step (nth k sig 0))). reflexivity.
Qed.
Lemma roll1_nth l k : (1 <= k < length l)%nat -> nth k (roll1 l) 0 = nth (k - 1) l 0.
Proof.
  intros K. destruct k as [| k]; [lia |]. replace (S k - 1)%nat with k by lia. unfold roll1. destruct l as [| x l]; [cbn in K; lia |]. cbn [nth]. assert (H : forall (l : list R) k, (S k < length l)%nat -> nth k (removelast l) 0 = nth k l 0). { clear. induction l as [| x [| y l] IH]; intros [| k] H; cbn [length] in H; try lia; [reflexivity |]. change (nth k (removelast (y :: l)) 0 = nth k (y :: l) 0). apply IH. cbn [length]. lia. } apply H. lia.
Qed.
Lemma roll1_length (l : list R) : length (roll1 l) = length l.
Proof. destruct l as [| x l]; [reflexivity |]. unfold roll1. cbn [length]. f_equal. revert x. induction l as [| y l IH]; intros x; [reflexivity |]. change (S (length (removelast (y :: l))) = S (length l)). f_equal. apply IH. Qed.
(** The Python signal generator: the same samples from the second on; at the first it takes the coarse code of the last. *)
Lemma c203_memory_agrees g x kb k : (k < length x)%nat ->
  nth k (apply_memory_effect g (Some x) kb) 0 = IZR (Zfloor (nth k x 0 * 4096)) / 4096 + kb * fst (two_step (nth (if (k =? 0)%nat then length x - 1 else k - 1) x 0)) /\ ((1 <= k)%nat -> nth k (apply_memory_effect g (Some x) kb) 0 = nth k (kickback kb x) 0).
Proof.
  intros K. assert (LM : length (map (floor_bits 4) x) = length x) by apply map_length. assert (H : nth k (apply_memory_effect g (Some x) kb) 0 = IZR (Zfloor (nth k x 0 * 4096)) / 4096 + kb * fst (two_step (nth (if (k =? 0)%nat then length x - 1 else k - 1) x 0))).
  { unfold apply_memory_effect. cbn [resolve_signal]. cbv zeta. set (msb := map (floor_bits 4) x) in *. assert (L1 : length (map2 (fun v m => floor_bits 12 (v - m)) x msb) = length x) by (apply map2_length; symmetry; exact LM). set (lsb := map2 (fun v m => floor_bits 12 (v - m)) x msb) in *. assert (L2 : length (map2 (fun a b => a + b) msb lsb) = length x) by (rewrite map2_length; lia). rewrite (map2_nth _ _ _ k 0 0) by (rewrite ?L2, ?map_length, ?roll1_length; lia).
    rewrite (map2_nth _ _ _ k 0 0) by lia. unfold lsb. rewrite (map2_nth _ _ _ k 0 0) by lia. rewrite (nth_map_in _ _ k 0) by (rewrite roll1_length; lia).
    assert (N : forall i, (i < length x)%nat -> nth i msb 0 = fst (two_step (nth i x 0))) by (intros i I; unfold msb; rewrite (nth_map_in _ _ i 0) by exact I; reflexivity). rewrite N by exact K.
    change (floor_bits 12 (nth k x 0 - fst (two_step (nth k x 0)))) with (snd (two_step (nth k x 0))). rewrite (proj1 (c203_two_step (nth k x 0))). do 2 f_equal. destruct (Nat.eqb_spec k 0) as [-> | NZ].
    - rewrite <- N by lia. unfold roll1. destruct msb as [| m ms] eqn:E; [cbn in LM; lia |]. cbn [nth]. rewrite <- LM. clear. revert m. induction ms as [| y ms IH]; intros m; [reflexivity |]. transitivity (last (y :: ms) 0); [reflexivity |]. rewrite IH. cbn [length]. replace (S (S (length ms)) - 1)%nat with (S (S (length ms) - 1)) by lia. reflexivity.
    - rewrite roll1_nth by lia. apply N. lia. }
  split; [exact H |]. intros K1. rewrite H, c203_kickback by exact K. destruct (Nat.eqb_spec k 0); [lia | reflexivity].
Qed.
Lemma c203_first_refuted g : exists x, nth 0 (apply_memory_effect g (Some x) 1) 0 <> nth 0 (kickback 1 x) 0.
Proof.
  exists [0; 1 / 16]. rewrite (proj1 (c203_memory_agrees g [0; 1 / 16] 1 0%nat ltac:(cbn; lia))), c203_kickback by (cbn; lia). cbn [Nat.eqb length Nat.sub nth]. unfold two_step. cbn [fst]. unfold quant. replace (0 * 2 ^ 4) with (IZR 0) by (cbn; ring). replace (1 / 16 * 2 ^ 4) with (IZR 1) by (cbn; field). rewrite !Zfloor_IZR. cbn. lra.
Qed.
(** The coarse gain error of the Python generator is the script's, applied to the signal without its offset. *)
Lemma c203_gain_agrees g x gain : apply_ra_gain_error g (Some x) gain 4 12 CoarsePath = Ok (map (fun v => gain_error gain (v - g_DC g) + g_DC g) x).
Proof.
  unfold apply_ra_gain_error. cbn [resolve_signal]. cbv zeta. f_equal. rewrite <- (map_map (fun v => v - g_DC g) (fun v => gain_error gain v + g_DC g)). generalize (map (fun v => v - g_DC g) x). intros l. induction l as [| v l IH]; [reflexivity |]. cbn [map map2]. rewrite IH. reflexivity.
Qed.
Example c203_two_step_ex : two_step (1 / 8 + 3 / 4096 + 1 / 10000) = (1 / 8, 3 / 4096).
Proof.
  unfold two_step, quant. assert (E : Zfloor ((1 / 8 + 3 / 4096 + 1 / 10000) * 2 ^ 4) = 2%Z) by (apply Zfloor_imp; cbn; lra). rewrite E. assert (E2 : Zfloor ((1 / 8 + 3 / 4096 + 1 / 10000 - 2 / 2 ^ 4) * 2 ^ 12) = 3%Z) by (apply Zfloor_imp; cbn; lra). rewrite E2. f_equal; cbn; field.
Qed.
Example c203_errors_ex : gain_error 2 (1 / 8 + 3 / 4096 + 1 / 10000) = 1 / 4 + 3 / 4096 /\ ref_error (1 / 10) 1 (1 / 8 + 3 / 4096 + 1 / 10000) = 1 / 8 + 3 / 4096 + 3 / 80.
Proof. unfold gain_error, ref_error. rewrite c203_two_step_ex. cbn. split; lra. Qed.
