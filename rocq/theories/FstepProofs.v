(** * Two-step quantisers in double precision: final lemmas c211_. *)
From Flocq Require Import Core.Core IEEE754.BinarySingleNaN Mult_error.
From Coq Require Import Psatz.
From Verif Require Import Base BaseLemmas SiggenModel FltModel FltSpec FltLemmas FltProofs FfreqModel FfreqLemmas FfreqProofs FstepModel.
Local Open Scope R_scope.

Lemma bpow_pow b : bpow radix2 (Z.of_nat b) = 2 ^ b.
Proof. rewrite <- pow2_IZR. apply pow2_Z. Qed.
Lemma scale_up x m : double x -> (0 <= m)%Z -> double (x * bpow radix2 m).
Proof.
  intros D M. unfold double in *. apply FLT_format_generic in D; [| reflexivity]. destruct D as [[n e] E N X]. cbn [Fnum Fexp] in *. apply generic_format_FLT. exists (Float radix2 n (e + m)); cbn [Fnum Fexp]; [| exact N | lia]. rewrite E. unfold F2R. cbn [Fnum Fexp]. rewrite bpow_plus. ring.
Qed.
Lemma quant_fin (a : fl) b : is_finite a = true -> Rabs (val a) <= bpow radix2 200 -> (b <= 100)%nat -> let q := fdiv (ffloor (fmul a (fnum (2 ^ Z.of_nat b) 0))) (fnum (2 ^ Z.of_nat b) 0) in
  is_finite q = true /\ val q = IZR (Zfloor (val a * 2 ^ b)) / 2 ^ b.
Proof.
  intros F A B q. destruct (fnum_pow_fin (Z.of_nat b) ltac:(lia)) as (Fp & Vp). assert (P := bpow_gt_0 radix2 (Z.of_nat b)). assert (B1 : 1 <= bpow radix2 (Z.of_nat b) <= bpow radix2 100) by (split; [change 1 with (bpow radix2 0) |]; apply bpow_le; lia).
  assert (D : rnd (val a * bpow radix2 (Z.of_nat b)) = val a * bpow radix2 (Z.of_nat b)) by (apply rnd_id, scale_up; [apply val_double | lia]).
  destruct (fmul_fin a (fnum (2 ^ Z.of_nat b) 0) F Fp) as (Fm & Vm). { rewrite Vp. apply (rnd_fits _ 300); [lia |]. rewrite Rabs_mult, (Rabs_pos_eq (bpow radix2 (Z.of_nat b))) by lra. change 300%Z with (200 + 100)%Z. rewrite bpow_plus. apply Rmult_le_compat; try lra. apply Rabs_pos. } rewrite Vp, D in Vm.
  destruct (ffloor_fin _ Fm) as (Fk & Vk). rewrite Vm in Vk. set (K := Zfloor (val a * bpow radix2 (Z.of_nat b))) in *. set (k := ffloor _) in *.
  assert (DK : rnd (IZR K / bpow radix2 (Z.of_nat b)) = IZR K / bpow radix2 (Z.of_nat b)). { destruct (Z.eq_dec K 0) as [-> | NK]; [unfold Rdiv; rewrite Rmult_0_l; apply rnd_0 |]. apply rnd_id. unfold Rdiv. rewrite <- bpow_opp. unfold double. apply (mult_bpow_exact_FLT radix2 (-1074) 53); [rewrite <- Vk; apply val_double |]. assert (1 <= Rabs (IZR K)) by (rewrite <- abs_IZR; apply (IZR_le 1); lia). pose proof (mag_ge_bpow radix2 (IZR K) 1 H). lia. }
  assert (BK : Rabs (IZR K / bpow radix2 (Z.of_nat b)) <= bpow radix2 201). { pose proof (Zfloor_lb (val a * bpow radix2 (Z.of_nat b))) as L. pose proof (Zfloor_ub (val a * bpow radix2 (Z.of_nat b))) as U. fold K in L, U. assert (I : 0 < / bpow radix2 (Z.of_nat b) <= 1) by (split; [apply Rinv_0_lt_compat; lra | rewrite <- Rinv_1; apply Rinv_le; lra]). assert (E : val a = val a * bpow radix2 (Z.of_nat b) * / bpow radix2 (Z.of_nat b)) by (field; lra). assert (G : val a - 1 <= IZR K / bpow radix2 (Z.of_nat b) <= val a) by (unfold Rdiv; rewrite E; split; nra). apply Rabs_le_inv in A. change 201%Z with (200 + 1)%Z. rewrite bpow_plus. change (bpow radix2 1) with 2. assert (1 <= bpow radix2 200) by (change 1 with (bpow radix2 0); apply bpow_le; lia). apply Rabs_le. lra. }
  destruct (fdiv_fin k (fnum (2 ^ Z.of_nat b) 0) Fk Fp) as (Fq & Vq); [lra | rewrite Vp, Vk; apply (rnd_fits _ 201); [lia | exact BK] |]. rewrite Vp, Vk, DK in Vq. split; [exact Fq |]. fold q in Vq. rewrite Vq. unfold K. rewrite bpow_pow. reflexivity.
Qed.
(** The coarse code is exact for every sample. *)
Lemma c211_coarse (x : fl) m : is_finite x = true -> Rabs (val x) <= bpow radix2 200 -> (m <= 100)%nat -> is_finite (fcoarse m x) = true /\ val (fcoarse m x) = IZR (Zfloor (val x * 2 ^ m)) / 2 ^ m.
Proof. apply quant_fin. Qed.
Definition not_tiny (m : nat) (v : R) : Prop := 0 <= v \/ v <= - (/ 2 / 2 ^ m).
Lemma left_exact (x : fl) m : is_finite x = true -> Rabs (val x) <= bpow radix2 200 -> (m <= 100)%nat -> not_tiny m (val x) -> let c := IZR (Zfloor (val x * 2 ^ m)) / 2 ^ m in
  is_finite (fsub x (fcoarse m x)) = true /\ val (fsub x (fcoarse m x)) = val x - c /\ 0 <= val x - c <= / 2 ^ m.
Proof.
  intros F A M T c. destruct (c211_coarse x m F A M) as (Fc & Vc). fold c in Vc. assert (P := pow_lt 2 m ltac:(lra)). pose proof (Zfloor_lb (val x * 2 ^ m)) as L. pose proof (Zfloor_ub (val x * 2 ^ m)) as U. assert (I : 0 < / 2 ^ m) by (apply Rinv_0_lt_compat; exact P). assert (E : val x = val x * 2 ^ m * / 2 ^ m) by (field; lra). assert (G : 0 <= val x - c <= / 2 ^ m) by (unfold c, Rdiv; split; nra).
  assert (I1 : / 2 ^ m <= 1) by (rewrite <- Rinv_1; apply Rinv_le; [lra | apply pow_R1_Rle; lra]).
  assert (D : rnd (val x - c) = val x - c).
  { destruct (Rlt_or_le (Rabs (val x)) (/ 2 / 2 ^ m)) as [S | S].
    - assert (X0 : 0 <= val x < / 2 / 2 ^ m) by (destruct T as [T | T]; [rewrite Rabs_pos_eq in S by exact T; lra | exfalso; rewrite Rabs_left in S by (unfold Rdiv in *; nra); lra]). assert (Z0 : Zfloor (val x * 2 ^ m) = 0%Z). { apply Zfloor_imp. cbn. assert (/ 2 / 2 ^ m * 2 ^ m = / 2) by (field; lra). split; nra. } unfold c. rewrite Z0. unfold Rdiv. rewrite Rmult_0_l, Rminus_0_r. apply rnd_id, val_double.
    - assert (BM : bpow radix2 (- Z.of_nat m - 1) = / 2 / 2 ^ m). { unfold Z.sub. rewrite bpow_plus, bpow_opp, bpow_pow. change (bpow radix2 (- (1))) with (/ 2). unfold Rdiv. ring. } destruct (double_multiple (val x) (- Z.of_nat m - 1) (val_double x) ltac:(lia)) as (j & J); [rewrite BM; exact S |].
      set (e := (- Z.of_nat m - 1 - 52)%Z) in *. assert (PE := bpow_gt_0 radix2 e). assert (CE : c = IZR (Zfloor (val x * 2 ^ m) * 2 ^ 53) * bpow radix2 e). { unfold c. rewrite mult_IZR, (pow2_bpow 53) by lia. unfold e. replace (- Z.of_nat m - 1 - 52)%Z with (- (53) + - Z.of_nat m)%Z by lia. rewrite bpow_plus, !bpow_opp, bpow_pow. field. split; [lra | pose proof (bpow_gt_0 radix2 53); lra]. }
      assert (DE : val x - c = IZR (j - Zfloor (val x * 2 ^ m) * 2 ^ 53) * bpow radix2 e) by (rewrite minus_IZR, Rmult_minus_distr_r, <- CE, <- J; reflexivity). rewrite DE. apply dyadic_id; [| unfold e; lia]. assert (IM : / 2 ^ m = IZR (2 ^ 53) * bpow radix2 e). { rewrite (pow2_bpow 53) by lia. unfold e. rewrite <- bpow_plus. replace (53 + (- Z.of_nat m - 1 - 52))%Z with (- Z.of_nat m)%Z by lia. rewrite bpow_opp, bpow_pow. reflexivity. } rewrite DE, IM in G. assert (0 <= j - Zfloor (val x * 2 ^ m) * 2 ^ 53 <= 2 ^ 53)%Z; [| lia]. split; apply le_IZR; apply Rmult_le_reg_r with (bpow radix2 e); lra. }
  destruct (fsub_fin x (fcoarse m x) F Fc) as (Fs & Vs). { rewrite Vc, D, Rabs_pos_eq by lra. apply Rle_lt_trans with 1; [lra |]. change 1 with (bpow radix2 0). apply bpow_lt. lia. } rewrite Vc, D in Vs. split; [exact Fs |]. split; [exact Vs | exact G].
Qed.
(** So is the fine code, unless the sample is negative and smaller than half a coarse step. *)
Lemma c211_fine (x : fl) m l : is_finite x = true -> Rabs (val x) <= bpow radix2 200 -> (m <= 100)%nat -> (l <= 100)%nat -> 0 <= val x \/ val x <= - (/ 2 / 2 ^ m) ->
  is_finite (ffine m l x) = true /\ val (ffine m l x) = IZR (Zfloor ((val x - val (fcoarse m x)) * 2 ^ l)) / 2 ^ l.
Proof.
  intros F A M L T. destruct (left_exact x m F A M T) as (Fs & Vs & G). destruct (c211_coarse x m F A M) as (_ & Vc). assert (I1 : / 2 ^ m <= 1) by (rewrite <- Rinv_1; apply Rinv_le; [lra | apply pow_R1_Rle; lra]). unfold ffine. rewrite Vc, <- Vs. apply quant_fin; [exact Fs | | exact L]. rewrite Vs, Rabs_pos_eq by lra. apply Rle_trans with (bpow radix2 0); [cbn; lra | apply bpow_le; lia].
Qed.
Lemma two_floors v m l : (m <= l)%nat -> IZR (Zfloor (v * 2 ^ m)) / 2 ^ m + IZR (Zfloor ((v - IZR (Zfloor (v * 2 ^ m)) / 2 ^ m) * 2 ^ l)) / 2 ^ l = IZR (Zfloor (v * 2 ^ l)) / 2 ^ l.
Proof.
  intros L. set (K := Zfloor (v * 2 ^ m)). assert (P := pow_lt 2 m ltac:(lra)). assert (Q := pow_lt 2 l ltac:(lra)). assert (E : 2 ^ l = 2 ^ m * IZR (2 ^ Z.of_nat (l - m))) by (rewrite pow2_Z, <- pow_add; f_equal; lia). assert (W := pow_lt 2 (l - m) ltac:(lra)). rewrite <- pow2_Z in W.
  assert (F : Zfloor ((v - IZR K / 2 ^ m) * 2 ^ l) = (Zfloor (v * 2 ^ l) - K * 2 ^ Z.of_nat (l - m))%Z). { apply Zfloor_imp. replace ((v - IZR K / 2 ^ m) * 2 ^ l) with (v * 2 ^ l - IZR (K * 2 ^ Z.of_nat (l - m))) by (rewrite mult_IZR, E; field; lra). rewrite plus_IZR, minus_IZR. pose proof (Zfloor_lb (v * 2 ^ l)). pose proof (Zfloor_ub (v * 2 ^ l)). lra. }
  rewrite F, minus_IZR, mult_IZR, E. field. split; lra.
Qed.
Lemma sum_exact (x : fl) m l : is_finite x = true -> Rabs (val x) <= bpow radix2 200 -> (m <= l <= 100)%nat -> not_tiny m (val x) -> is_finite (fadd (fcoarse m x) (ffine m l x)) = true /\ val (fadd (fcoarse m x) (ffine m l x)) = IZR (Zfloor (val x * 2 ^ l)) / 2 ^ l.
Proof.
  intros F A L T. destruct (c211_coarse x m F A ltac:(lia)) as (Fc & Vc). destruct (c211_fine x m l F A ltac:(lia) ltac:(lia) T) as (Ff & Vf). rewrite Vc in Vf. destruct (quant_fin x l F A ltac:(lia)) as (Fq & Vq). assert (S : val (fcoarse m x) + val (ffine m l x) = IZR (Zfloor (val x * 2 ^ l)) / 2 ^ l) by (rewrite Vc, Vf; apply two_floors; lia). assert (D : rnd (val (fcoarse m x) + val (ffine m l x)) = IZR (Zfloor (val x * 2 ^ l)) / 2 ^ l) by (rewrite S, <- Vq; apply rnd_id, val_double).
  destruct (fadd_fin _ _ Fc Ff) as (Fa & Va); [rewrite D, <- Vq; apply val_range; exact Fq |]. split; [exact Fa | rewrite Va; exact D].
Qed.
(** Coarse and fine code then add up, without rounding, to the code of one quantiser of all bits. *)
Lemma c211_quantiser (x : fl) m l : is_finite x = true -> Rabs (val x) <= bpow radix2 200 -> (m <= l <= 100)%nat -> 0 <= val x \/ val x <= - (/ 2 / 2 ^ m) ->
  is_finite (fadd (fcoarse m x) (ffine m l x)) = true /\ val (fadd (fcoarse m x) (ffine m l x)) = IZR (Zfloor (val x * 2 ^ l)) / 2 ^ l.
Proof. apply sum_exact. Qed.
(** The memory effect rounds twice only: the product and the sum. *)
Lemma c211_memory (s x prev : fl) : is_finite x = true -> is_finite prev = true -> is_finite s = true -> Rabs (val x) <= bpow radix2 200 -> Rabs (val prev) <= bpow radix2 200 -> Rabs (val s) <= bpow radix2 200 -> 0 <= val x \/ val x <= - (1 / 32) ->
  is_finite (fmemory s x prev) = true /\ val (fmemory s x prev) = rnd (IZR (Zfloor (val x * 4096)) / 4096 + rnd (val s * (IZR (Zfloor (val prev * 16)) / 16))).
Proof.
  intros F Fp Fs A Ap As T. assert (T' : not_tiny 4 (val x)) by (unfold not_tiny; destruct T; [left; lra | right; cbn; lra]). destruct (sum_exact x 4 12 F A ltac:(lia) T') as (Fa & Va). destruct (c211_coarse prev 4 Fp Ap ltac:(lia)) as (Fc & Vc). replace (2 ^ 12) with 4096 in Va by (cbn; lra). replace (2 ^ 4) with 16 in Vc by (cbn; lra).
  assert (G : forall v b, Rabs v <= bpow radix2 200 -> 1 <= b -> Rabs (IZR (Zfloor (v * b)) / b) <= bpow radix2 201). { intros v b V B. pose proof (Zfloor_lb (v * b)) as L. pose proof (Zfloor_ub (v * b)) as U. assert (I : 0 < / b <= 1) by (split; [apply Rinv_0_lt_compat; lra | rewrite <- Rinv_1; apply Rinv_le; lra]). assert (E : v = v * b * / b) by (field; lra). assert (Q : v - 1 <= IZR (Zfloor (v * b)) / b <= v). { unfold Rdiv. set (k := Zfloor (v * b)) in *. rewrite E. split; nra. } apply Rabs_le_inv in V. change 201%Z with (200 + 1)%Z. rewrite bpow_plus. change (bpow radix2 1) with 2. assert (1 <= bpow radix2 200) by (change 1 with (bpow radix2 0); apply bpow_le; lia). apply Rabs_le. lra. }
  pose proof (G (val prev) 16 Ap ltac:(lra)) as Gp. pose proof (G (val x) 4096 A ltac:(lra)) as Gx. assert (PB : Rabs (val s * (IZR (Zfloor (val prev * 16)) / 16)) <= bpow radix2 401). { rewrite Rabs_mult. change 401%Z with (200 + 201)%Z. rewrite bpow_plus. apply Rmult_le_compat; try (exact As || exact Gp); apply Rabs_pos. }
  destruct (fmul_fin s (fcoarse 4 prev) Fs Fc) as (Fm & Vm); [rewrite Vc; apply (rnd_fits _ 401); [lia | exact PB] |]. rewrite Vc in Vm. pose proof (rnd_abs_le _ 401 ltac:(lia) PB) as PR.
  destruct (fadd_fin _ _ Fa Fm) as (Fr & Vr). { rewrite Va, Vm. apply (rnd_fits _ 402); [lia |]. eapply Rle_trans; [apply Rabs_triang |]. change 402%Z with (401 + 1)%Z. rewrite bpow_plus. change (bpow radix2 1) with 2. assert (bpow radix2 201 <= bpow radix2 401) by (apply bpow_le; lia). lra. } rewrite Va, Vm in Vr. split; [exact Fr | exact Vr].
Qed.
Lemma floor_bound v b : Rabs v <= bpow radix2 200 -> 1 <= b -> Rabs (IZR (Zfloor (v * b)) / b) <= bpow radix2 201.
Proof.
  intros V B. pose proof (Zfloor_lb (v * b)) as L. pose proof (Zfloor_ub (v * b)) as U. assert (I : 0 < / b <= 1) by (split; [apply Rinv_0_lt_compat; lra | rewrite <- Rinv_1; apply Rinv_le; lra]). assert (E : v = v * b * / b) by (field; lra). assert (Q : v - 1 <= IZR (Zfloor (v * b)) / b <= v). { unfold Rdiv. set (k := Zfloor (v * b)) in *. rewrite E. split; nra. } apply Rabs_le_inv in V. change 201%Z with (200 + 1)%Z. rewrite bpow_plus. change (bpow radix2 1) with 2. assert (1 <= bpow radix2 200) by (change 1 with (bpow radix2 0); apply bpow_le; lia). apply Rabs_le. lra.
Qed.
Lemma add_bounded (a b : fl) : is_finite a = true -> is_finite b = true -> Rabs (val a) <= bpow radix2 403 -> Rabs (val b) <= bpow radix2 403 -> is_finite (fadd a b) = true /\ val (fadd a b) = rnd (val a + val b) /\ Rabs (val (fadd a b)) <= bpow radix2 404.
Proof.
  intros A B HA HB. assert (S : Rabs (val a + val b) <= bpow radix2 404). { eapply Rle_trans; [apply Rabs_triang |]. change 404%Z with (403 + 1)%Z. rewrite bpow_plus. change (bpow radix2 1) with 2. lra. }
  destruct (fadd_fin a b A B) as (F & V); [apply (rnd_fits _ 404); [lia | exact S] |]. split; [exact F |]. split; [exact V |]. rewrite V. apply rnd_abs_le; [lia | exact S].
Qed.
Lemma mul_bounded (a b : fl) : is_finite a = true -> is_finite b = true -> Rabs (val a) <= bpow radix2 201 -> Rabs (val b) <= bpow radix2 200 -> is_finite (fmul a b) = true /\ val (fmul a b) = rnd (val a * val b) /\ Rabs (val (fmul a b)) <= bpow radix2 401.
Proof.
  intros A B HA HB. assert (S : Rabs (val a * val b) <= bpow radix2 401). { rewrite Rabs_mult. change 401%Z with (201 + 200)%Z. rewrite bpow_plus. apply Rmult_le_compat; try assumption; apply Rabs_pos. }
  destruct (fmul_fin a b A B) as (F & V); [apply (rnd_fits _ 401); [lia | exact S] |]. split; [exact F |]. split; [exact V |]. rewrite V. apply rnd_abs_le; [lia | exact S].
Qed.
(** Any gain and offset: the offset is taken off and put back, the gain multiplies one path; four roundings. *)
Lemma c211_gain (signal dc g : fl) m l : is_finite signal = true -> is_finite dc = true -> is_finite g = true -> Rabs (val signal) <= bpow radix2 199 -> Rabs (val dc) <= bpow radix2 199 -> Rabs (val g) <= bpow radix2 200 -> (m <= 100)%nat -> (l <= 100)%nat ->
  let v := rnd (val signal - val dc) in 0 <= v \/ v <= - (/ 2 / 2 ^ m) ->
  let c := IZR (Zfloor (v * 2 ^ m)) / 2 ^ m in let f := IZR (Zfloor ((v - c) * 2 ^ l)) / 2 ^ l in
  (exists y, fgain dc g m l CoarsePath signal = Ok y /\ val y = rnd (rnd (rnd (c * val g) + f) + val dc)) /\
  (exists y, fgain dc g m l ResiduePath signal = Ok y /\ val y = rnd (rnd (c + rnd (f * val g)) + val dc)).
Proof.
  intros Fs Fd Fg As Ad Ag M L v T c f. assert (SB : Rabs (val signal - val dc) <= bpow radix2 200). { unfold Rminus. eapply Rle_trans; [apply Rabs_triang |]. rewrite Rabs_Ropp. change 200%Z with (199 + 1)%Z. rewrite bpow_plus. change (bpow radix2 1) with 2. lra. }
  destruct (fsub_fin signal dc Fs Fd) as (Fx & Vx); [apply (rnd_fits _ 200); [lia | exact SB] |]. fold v in Vx. assert (A : Rabs v <= bpow radix2 200) by (apply rnd_abs_le; [lia | exact SB]). rewrite <- Vx in A, T. destruct (c211_coarse _ m Fx A M) as (Fc & Vc). destruct (c211_fine _ m l Fx A M L T) as (Ff & Vf). destruct (left_exact _ m Fx A M T) as (_ & _ & G). rewrite Vc in Vf. rewrite Vx in *. fold c in Vc, Vf, G. fold f in Vf. pose proof (floor_bound v (2 ^ m) A ltac:(apply pow_R1_Rle; lra)) as Bc. fold c in Bc.
  assert (I1 : / 2 ^ m <= 1) by (rewrite <- Rinv_1; apply Rinv_le; [lra | apply pow_R1_Rle; lra]). assert (Bf : Rabs f <= bpow radix2 201). { apply floor_bound; [| apply pow_R1_Rle; lra]. rewrite Rabs_pos_eq by lra. apply Rle_trans with (bpow radix2 0); [cbn; lra | apply bpow_le; lia]. }
  assert (W : forall a b x, Rabs x <= bpow radix2 a -> (a <= b)%Z -> Rabs x <= bpow radix2 b) by (intros a b x Hx Hb; eapply Rle_trans; [exact Hx | apply bpow_le; exact Hb]). rewrite <- Vc in Bc. rewrite <- Vf in Bf.
  assert (Q : forall a b : fl, is_finite a = true -> is_finite b = true -> Rabs (val a) <= bpow radix2 401 -> Rabs (val b) <= bpow radix2 401 -> val (fadd (fadd a b) dc) = rnd (rnd (val a + val b) + val dc)).
  { intros a b Ha Hb Ba Bb. assert (S : Rabs (val a + val b) <= bpow radix2 402) by (eapply Rle_trans; [apply Rabs_triang |]; change 402%Z with (401 + 1)%Z; rewrite bpow_plus; change (bpow radix2 1) with 2; lra). destruct (add_bounded a b Ha Hb (W _ 403%Z _ Ba ltac:(lia)) (W _ 403%Z _ Bb ltac:(lia))) as (F1 & V1 & _). assert (B1 : Rabs (val (fadd a b)) <= bpow radix2 402) by (rewrite V1; apply rnd_abs_le; [lia | exact S]). destruct (add_bounded _ dc F1 Fd (W _ 403%Z _ B1 ltac:(lia)) (W _ 403%Z _ Ad ltac:(lia))) as (_ & V2 & _). rewrite V2, V1. reflexivity. }
  destruct (mul_bounded _ g Fc Fg Bc Ag) as (F1 & V1 & B1). destruct (mul_bounded _ g Ff Fg Bf Ag) as (F2 & V2 & B2).
  split; (eexists; split; [reflexivity |]); rewrite Q; [rewrite V1, Vc, Vf; reflexivity | exact F1 | exact Ff | exact B1 | apply (W _ 401%Z _ Bf); lia | rewrite V2, Vc, Vf; reflexivity | exact Fc | exact F2 | apply (W _ 401%Z _ Bc); lia | exact B2].
Qed.
(** With relative gain 1 and no offset both modes are that quantiser; a mode that is neither is refused. *)
Lemma c211_unit_gain (x : fl) m l mode : is_finite x = true -> Rabs (val x) <= bpow radix2 200 -> (m <= l <= 100)%nat -> 0 <= val x \/ val x <= - (/ 2 / 2 ^ m) ->
  match mode with
  | OtherMode => fgain fzero (fnum 1 0) m l mode x = Err ValueError
  | _ => exists y, fgain fzero (fnum 1 0) m l mode x = Ok y /\ val y = IZR (Zfloor (val x * 2 ^ l)) / 2 ^ l
  end.
Proof.
  intros F A L T. assert (F0 : is_finite fzero = true) by reflexivity. assert (V0 : val fzero = 0) by reflexivity. destruct (fsub_fin x fzero F F0) as (Fx & Vx); [rewrite V0, Rminus_0_r, (rnd_id _ (val_double x)); apply val_range; exact F |]. rewrite V0, Rminus_0_r, (rnd_id _ (val_double x)) in Vx. set (x' := fsub x fzero) in *. rewrite <- Vx in A, T.
  destruct (c211_coarse x' m Fx A ltac:(lia)) as (Fc & _). destruct (c211_fine x' m l Fx A ltac:(lia) ltac:(lia) T) as (Ff & _). destruct (sum_exact x' m l Fx A L T) as (Fa & Va). destruct (fadd_fin _ _ Fc Ff) as (_ & Ea); [|]. { destruct (quant_fin x' l Fx A ltac:(lia)) as (Fq & Vq). pose proof (val_range _ Fa) as VR. destruct (c211_coarse x' m Fx A ltac:(lia)) as (_ & Vc). destruct (c211_fine x' m l Fx A ltac:(lia) ltac:(lia) T) as (_ & Vf). rewrite Vc in Vf. rewrite Vc, Vf, two_floors by lia. rewrite <- Vq, (rnd_id _ (val_double _)). apply val_range. exact Fq. }
  destruct (fnum_fin 1 0) as (F1 & V1); [lia.. |]. cbn [bpow] in V1. rewrite Rmult_1_r in V1. assert (M1 : forall a : fl, is_finite a = true -> is_finite (fmul a (fnum 1 0)) = true /\ val (fmul a (fnum 1 0)) = val a). { intros a Ha. destruct (fmul_fin a (fnum 1 0) Ha F1) as (G & H); rewrite V1, Rmult_1_r, (rnd_id _ (val_double a)) in *; [apply val_range; exact Ha |]. split; [exact G | exact H]. }
  destruct (M1 _ Fc) as (F2 & V2). destruct (M1 _ Ff) as (F3 & V3). assert (BR : Rabs (rnd (val (fcoarse m x') + val (ffine m l x'))) < big) by (rewrite <- Ea; apply val_range; exact Fa). assert (Z : forall a : fl, is_finite a = true -> val (fadd a fzero) = val a). { intros a Ha. destruct (fadd_fin a fzero Ha F0) as (_ & H); rewrite V0, Rplus_0_r, (rnd_id _ (val_double a)) in *; [apply val_range; exact Ha | exact H]. }
  destruct mode; [| | reflexivity]; unfold fgain; cbv zeta; fold x'; (eexists; split; [reflexivity |]).
  - destruct (fadd_fin (fmul (fcoarse m x') (fnum 1 0)) (ffine m l x') F2 Ff) as (F4 & V4); [rewrite V2; exact BR |]. rewrite Z by exact F4. rewrite V4, V2, <- Ea, Va, Vx. reflexivity.
  - destruct (fadd_fin (fcoarse m x') (fmul (ffine m l x') (fnum 1 0)) Fc F3) as (F4 & V4); [rewrite V3; exact BR |]. rewrite Z by exact F4. rewrite V4, V3, <- Ea, Va, Vx. reflexivity.
Qed.
(** A small negative sample is quantised to 0 instead of one step below: the difference to the coarse code rounds to a full step. *)
Lemma c211_tiny_refuted : exists x : fl, is_finite x = true /\ val x = - bpow radix2 (-100) /\ val (fadd (fcoarse 4 x) (ffine 4 12 x)) = 0 /\ Zfloor (val x * 4096) = (-1)%Z.
Proof.
  destruct (fnum_fin (-1) (-100)) as (F & V); [lia.. |]. exists (fnum (-1) (-100)). assert (VE : val (fnum (-1) (-100)) = - bpow radix2 (-100)) by (rewrite V; ring). split; [exact F |]. split; [exact VE |]. split.
  - destruct (val_SF0 (fadd (fcoarse 4 (fnum (-1) (-100))) (ffine 4 12 (fnum (-1) (-100)))) false ltac:(vm_compute; reflexivity)) as (_ & E). exact E.
  - rewrite VE. apply Zfloor_imp. assert (P := bpow_gt_0 radix2 (-100)). assert (Q : bpow radix2 (-100) <= bpow radix2 (-20)) by (apply bpow_le; lia). change (bpow radix2 (-20)) with (/ 1048576) in Q. cbn [Z.add Z.pos_sub]. lra.
Qed.
(** 0.3 in 4 and 12 bits: 1228/4096. *)
Example c211_quantiser_ex : B2SF (fadd (fcoarse 4 (fdiv (fnum 3 0) (fnum 10 0))) (ffine 4 12 (fdiv (fnum 3 0) (fnum 10 0)))) = B2SF (fnum 1228 (-12)) /\ B2SF (fadd (fcoarse 4 (fdiv (fnum (-3) 0) (fnum 10 0))) (ffine 4 12 (fdiv (fnum (-3) 0) (fnum 10 0)))) = B2SF (fnum (-1229) (-12)).
Proof. vm_compute. split; reflexivity. Qed.
