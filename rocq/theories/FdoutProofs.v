(** * Overflow check and unit conversions in double precision: final lemmas c208_ - c210_. *)
From Flocq Require Import Core.Core IEEE754.BinarySingleNaN Mult_error.
From Coq Require Import Psatz Permutation.
From Verif Require Import Base BaseLemmas FreqModel FltModel FltSpec FltLemmas FltProofs FfreqModel FfreqLemmas FfreqProofs FdoutModel.
Local Open Scope R_scope.

(** ** C208: overflow *)
Lemma multiple_zero x : is_finite x = true -> val x = 0 -> multiple 0 x.
Proof. intros F V. split; [exact F |]. exists 0%Z. split; [lia |]. rewrite V. ring. Qed.
Lemma zero_products : forall row (w : list fl), (forall c, In c row -> c = 0%Z) -> (forall x, In x w -> is_finite x = true) -> Forall (fun x => is_finite x = true /\ val x = 0) (map2 (fun c x => fmul (fnum c 0) x) row w).
Proof.
  induction row as [| c row IH]; intros [| x w] Z F; try constructor.
  - rewrite (Z c) by (left; reflexivity). destruct (bit_product 0 x ltac:(left; reflexivity) (F x ltac:(left; reflexivity))) as (A & B). split; [exact A |]. rewrite B. ring.
  - apply IH; [intros d D; apply Z; right; exact D | intros d D; apply F; right; exact D].
Qed.
Lemma lsum_zeros (l : list fl) : Forall (fun x => is_finite x = true /\ val x = 0) l -> lsum (map val l) = 0.
Proof. induction 1 as [| x l [_ V] _ IH]; [reflexivity |]. cbn. rewrite V. change (fold_right Rplus 0 (map val l)) with (lsum (map val l)). rewrite IH. ring. Qed.
(** A sample whose remaining bits are all 0 is counted as low, whatever the orders of addition. *)
Lemma c208_low product total row (w : list fl) ii : summation product -> (forall c, In c (skipn ii row) -> c = 0%Z) -> (forall x, In x w -> is_finite x = true) ->
  is_finite (total (skipn ii w)) = true -> 0 < val (total (skipn ii w)) -> flow (fresidue product total row w ii) = true /\ fhigh (fresidue product total row w ii) = false.
Proof.
  intros S Z F FT P. assert (FW : forall x, In x (skipn ii w) -> is_finite x = true). { intros x I. apply F. rewrite <- (firstn_skipn ii w). apply in_or_app. right. exact I. }
  pose proof (zero_products _ _ Z FW) as ZP. set (l := map2 _ _ _) in *. destruct (sums_exact 0 l (product l) (S l) ltac:(lia)) as ((FP & _) & VP).
  - apply Forall_impl with (2 := ZP). intros x [A B]. apply multiple_zero; assumption.
  - rewrite lsum_zeros by exact ZP. cbn. lra.
  - rewrite lsum_zeros in VP by exact ZP. unfold fresidue. fold l. destruct (fdiv_fin (product l) (total (skipn ii w)) FP FT ltac:(lra)) as (FD & VD). { rewrite VP. unfold Rdiv. rewrite Rmult_0_l, rnd_0, Rabs_R0. apply big_pos. } rewrite VP in VD. unfold Rdiv in VD. rewrite Rmult_0_l, rnd_0 in VD. destruct fone_fin as [F1 V1]. unfold fone in F1, V1. unfold flow, fhigh. rewrite !fle_ev by (apply fin_not_nan; assumption || reflexivity). rewrite !ev_fin by (assumption || reflexivity). rewrite VD, V1. change (val fzero) with 0. unfold Rleb. split; destruct (Rle_dec _ _); (reflexivity || lra).
Qed.
Lemma one_times (x : fl) : is_finite x = true -> 0 < val x -> fmul (fnum 1 0) x = x.
Proof.
  intros F P. destruct (bit_product 1 x ltac:(right; reflexivity) F) as (A & B). rewrite Rmult_1_l in B. apply B2R_inj.
  - destruct (fmul (fnum 1 0) x); try discriminate; [exfalso; unfold val in *; cbn in B; lra | reflexivity].
  - destruct x; try discriminate; [exfalso; unfold val in P; cbn in P; lra | reflexivity].
  - exact B.
Qed.
Lemma one_products : forall row (w : list fl), length row = length w -> (forall c, In c row -> c = 1%Z) -> (forall x, In x w -> is_finite x = true /\ 0 < val x) -> map2 (fun c x => fmul (fnum c 0) x) row w = w.
Proof.
  induction row as [| c row IH]; intros [| x w] L O F; try discriminate; [reflexivity |]. cbn [map2]. rewrite (O c) by (left; reflexivity). destruct (F x ltac:(left; reflexivity)) as [A B]. rewrite one_times by assumption. f_equal. apply IH; [injection L; auto | intros d D; apply O; right; exact D | intros d D; apply F; right; exact D].
Qed.
(** A sample whose remaining bits are all 1 is counted as high if the product and the total add in the same order. *)
Lemma c208_high sum row (w : list fl) ii : length row = length w -> (forall c, In c (skipn ii row) -> c = 1%Z) -> (forall x, In x w -> is_finite x = true /\ 0 < val x) ->
  is_finite (sum (skipn ii w)) = true -> 0 < val (sum (skipn ii w)) -> fhigh (fresidue sum sum row w ii) = true /\ val (fresidue sum sum row w ii) = 1.
Proof.
  intros L O F FT P. assert (FW : forall x, In x (skipn ii w) -> is_finite x = true /\ 0 < val x). { intros x I. apply F. rewrite <- (firstn_skipn ii w). apply in_or_app. right. exact I. }
  unfold fresidue. rewrite one_products by (rewrite ?skipn_length, ?L; auto). set (s := sum (skipn ii w)) in *. assert (R1 : rnd (val s / val s) = 1). { replace (val s / val s) with (IZR 1 * bpow radix2 0) by (cbn; field; lra). rewrite dyadic_id by lia. cbn. lra. } destruct (fdiv_fin s s FT FT ltac:(lra)) as (FD & VD). { rewrite R1, Rabs_R1. change 1 with (bpow radix2 0). apply bpow_lt. lia. } rewrite R1 in VD. split; [| exact VD]. destruct fone_fin as [F1 V1]. unfold fone in F1, V1. unfold fhigh. rewrite fle_ev by (apply fin_not_nan; assumption). rewrite !ev_fin by assumption. rewrite VD, V1. unfold Rleb. destruct (Rle_dec 1 1); [reflexivity | lra].
Qed.
(** Addition from the left, the other usual order. *)
Definition left_sum (l : list fl) : fl := fold_left fadd l fzero.
Lemma left_sum_summation : summation left_sum.
Proof.
  assert (H : forall l k a, sums k a -> sums (k ++ l) (fold_left fadd l a)). { induction l as [| x l IH]; intros k a S; [rewrite app_nil_r; exact S |]. cbn. replace (k ++ x :: l) with ((k ++ [x]) ++ l) by (rewrite <- app_assoc; reflexivity). apply IH. apply sums_add; [exact S | constructor]. }
  intros l. apply (H l []). constructor.
Qed.
(** With two orders of addition a sample at full scale need not be counted: weights 1, 2^-53, 2^-53. *)
Lemma c208_orders_refuted : exists product total row (w : list fl), summation product /\ summation total /\ row = [1; 1; 1]%Z /\ length w = 3%nat /\ (forall x, In x w -> is_finite x = true /\ 0 < val x) /\
  fhigh (fresidue product total row w 0) = false /\ val (fresidue product total row w 0) < 1.
Proof.
  exists left_sum, fold_sum, [1; 1; 1]%Z, [fnum 1 0; fnum 1 (-53); fnum 1 (-53)]. split; [apply left_sum_summation |]. split; [apply fold_sum_summation |]. split; [reflexivity |]. split; [reflexivity |]. split.
  - destruct (fnum_fin 1 0) as (A & B); [lia.. |]. destruct (fnum_fin 1 (-53)) as (C & D); [lia.. |]. intros x [<- | [<- | [<- | []]]]; (split; [assumption |]; rewrite ?B, ?D; cbn; lra).
  - split; [vm_compute; reflexivity |]. destruct (val_SF (fresidue left_sum fold_sum [1; 1; 1]%Z [fnum 1 0; fnum 1 (-53); fnum 1 (-53)] 0) false 9007199254740990 (-53) ltac:(vm_compute; reflexivity)) as (_ & ->). cbn. lra.
Qed.
Fixpoint zdot (a b : list Z) : Z := match a, b with x :: a', y :: b' => (x * y + zdot a' b')%Z | _, _ => 0%Z end.
Lemma zdot_val e : forall row ks (w : list fl), Forall2 (fun k x => is_finite x = true /\ val x = IZR k * bpow radix2 e) ks w -> dot (map IZR row) (map val w) = IZR (zdot row ks) * bpow radix2 e.
Proof.
  induction row as [| c row IH]; intros ks w W; [cbn; ring |]. destruct W as [| k x ks w [F V] W]; [cbn; ring |]. cbn [map dot zdot]. rewrite (IH ks w W), V, plus_IZR, mult_IZR. ring.
Qed.
Lemma zdot_bounds : forall row ks, length row = length ks -> (forall c, In c row -> c = 0%Z \/ c = 1%Z) -> Forall (fun k => (1 <= k)%Z) ks ->
  (0 <= zdot row ks <= zsum ks)%Z /\ (zdot row ks = zsum ks <-> forall c, In c row -> c = 1%Z) /\ (zdot row ks = 0%Z <-> forall c, In c row -> c = 0%Z).
Proof.
  induction row as [| c row IH]; intros [| k ks] L B P; try discriminate; [cbn; repeat split; (lia || (intros; contradiction)) |]. inversion_clear P as [| ? ? K P']. destruct (IH ks ltac:(injection L; auto) ltac:(intros; apply B; right; assumption) P') as (I & H1 & H0). cbn [zdot]. change (zsum (k :: ks)) with (k + zsum ks)%Z. destruct (B c (or_introl eq_refl)) as [-> | ->].
  - split; [lia |]. split; split; intros H.
    + lia.
    + specialize (H 0%Z (or_introl eq_refl)). discriminate.
    + intros d [<- | D]; [reflexivity |]. apply (proj1 H0); [lia | exact D].
    + rewrite (proj2 H0) by (intros d D; apply H; right; exact D). reflexivity.
  - split; [lia |]. split; split; intros H.
    + intros d [<- | D]; [reflexivity |]. apply (proj1 H1); [lia | exact D].
    + rewrite (proj2 H1) by (intros d D; apply H; right; exact D). lia.
    + lia.
    + specialize (H 1%Z (or_introl eq_refl)). discriminate.
Qed.
(** The rounded share of two whole numbers up to 2^53 is 1 or 0 only if the share is. *)
Lemma share_rnd D T : (0 <= D <= T)%Z -> (1 <= T <= 2 ^ 53)%Z -> 0 <= rnd (IZR D / IZR T) <= 1 /\ (1 <= rnd (IZR D / IZR T) <-> D = T) /\ (rnd (IZR D / IZR T) <= 0 <-> D = 0%Z) /\ (D <> T -> rnd (IZR D / IZR T) <= 1 - u).
Proof.
  intros HD HT. assert (T1 : 1 <= IZR T <= 9007199254740992) by (split; [apply (IZR_le 1) | apply (IZR_le _ (2 ^ 53))]; lia). assert (D0 : 0 <= IZR D <= IZR T) by (split; apply IZR_le; lia). assert (I : 0 < / IZR T) by (apply Rinv_0_lt_compat; lra). assert (TI : IZR T * / IZR T = 1) by (apply Rinv_r; lra).
  assert (E1 : rnd 1 = 1). { pose proof (dyadic_id 1 0 ltac:(lia) ltac:(lia)) as H. cbn in H. rewrite Rmult_1_r in H. exact H. }
  assert (EU : rnd (1 - u) = 1 - u). { pose proof (dyadic_id 9007199254740991 (-53) ltac:(lia) ltac:(lia)) as H. replace (IZR 9007199254740991 * bpow radix2 (-53)) with (1 - u) in H by (cbn; lra). exact H. }
  assert (Eu : rnd u = u). { pose proof (dyadic_id 1 (-53) ltac:(lia) ltac:(lia)) as H. replace (IZR 1 * bpow radix2 (-53)) with u in H by (cbn; lra). exact H. }
  assert (IU : u <= / IZR T) by (apply Rinv_le; lra). unfold Rdiv.
  assert (NT : D <> T -> rnd (IZR D * / IZR T) <= 1 - u). { intros N. rewrite <- EU. apply rnd_le. assert (IZR D <= IZR T - 1) by (rewrite <- minus_IZR; apply IZR_le; lia). nra. }
  assert (N0 : D <> 0%Z -> u <= rnd (IZR D * / IZR T)). { intros N. rewrite <- Eu at 1. apply rnd_le. assert (1 <= IZR D) by (apply (IZR_le 1); lia). nra. }
  split; [split; [rewrite <- rnd_0; apply rnd_le; nra | rewrite <- E1; apply rnd_le; nra] |]. split; [| split; [| exact NT]]; split; intros H.
  - destruct (Z.eq_dec D T) as [E | N]; [exact E | specialize (NT N); lra].
  - subst D. rewrite TI, E1. lra.
  - destruct (Z.eq_dec D 0) as [E | N]; [exact E | specialize (N0 N); lra].
  - subst D. rewrite Rmult_0_l, rnd_0. lra.
Qed.
(** Weights that are whole multiples of one power of two (total at most 2^53 of them): the residue is the exact share rounded once,
    whatever the orders of addition, and exactly the samples with all remaining bits 1 (0) are counted. *)
Lemma c208_exact product total row (w : list fl) ii e ks : summation product -> summation total -> dyadic_weights e ks w -> length row = length w -> (forall c, In c row -> c = 0%Z \/ c = 1%Z) -> (ii < length w)%nat -> let r := fresidue product total row w ii in
  is_finite r = true /\ val r = rnd (dot (map IZR (skipn ii row)) (map val (skipn ii w)) / lsum (map val (skipn ii w))) /\ 0 <= val r <= 1 /\
  (fhigh r = true <-> forall c, In c (skipn ii row) -> c = 1%Z) /\ (flow r = true <-> forall c, In c (skipn ii row) -> c = 0%Z).
Proof.
  intros SP ST (He & P & B & W) L Bits HI r. assert (LK : length ks = length w) by (clear - W; induction W; cbn; congruence).
  assert (W' : Forall2 (fun k x => is_finite x = true /\ val x = IZR k * bpow radix2 e) (skipn ii ks) (skipn ii w)). { clear - W. revert ii. induction W as [| k x ks w H W IH]; intros [| ii]; cbn; try constructor; auto. }
  assert (P' : Forall (fun k => (1 <= k)%Z) (skipn ii ks)) by (apply Forall_forall; intros k K; apply (proj1 (Forall_forall _ _) P); rewrite <- (firstn_skipn ii ks); apply in_or_app; right; exact K).
  assert (Bits' : forall c, In c (skipn ii row) -> c = 0%Z \/ c = 1%Z) by (intros c C; apply Bits; rewrite <- (firstn_skipn ii row); apply in_or_app; right; exact C).
  assert (LR : length (skipn ii row) = length (skipn ii ks)) by (rewrite !skipn_length; lia).
  assert (T1 : (1 <= zsum (skipn ii ks) <= 2 ^ 53)%Z). { split.
    - destruct (skipn ii ks) as [| k t] eqn:E; [apply (f_equal (@length Z)) in E; rewrite skipn_length in E; cbn in E; lia |]. inversion_clear P' as [| ? ? K Q]. change (zsum (k :: t)) with (k + zsum t)%Z. pose proof (zsum_nonneg t Q). lia.
    - assert (Q : (zsum ks = zsum (firstn ii ks) + zsum (skipn ii ks))%Z). { rewrite <- (firstn_skipn ii ks) at 1. generalize (firstn ii ks) (skipn ii ks). intros a b. unfold zsum. induction a as [| x a IH]; [reflexivity |]. cbn [app fold_right]. rewrite IH. lia. } assert (0 <= zsum (firstn ii ks))%Z. { apply zsum_nonneg. apply Forall_forall; intros k K; apply (proj1 (Forall_forall _ _) P); rewrite <- (firstn_skipn ii ks); apply in_or_app; left; exact K. } unfold zsum in *. lia. }
  destruct (zdot_bounds (skipn ii row) (skipn ii ks) LR Bits' P') as (DB & D1 & D0). destruct (dyadic_multiple e _ _ P' W') as (MW & SW). destruct (products e _ _ P' W' (skipn ii row) ltac:(rewrite !skipn_length; lia) Bits') as (MP & SPr & RP). rewrite (zdot_val e _ _ _ W') in SPr, RP.
  assert (PB := bpow_gt_0 radix2 e). assert (TB : IZR (zsum (skipn ii ks)) * bpow radix2 e <= IZR (2 ^ 53) * bpow radix2 e) by (apply Rmult_le_compat_r; [lra | apply IZR_le; lia]).
  destruct (sums_exact e _ _ (SP (map2 (fun c x => fmul (fnum c 0) x) (skipn ii row) (skipn ii w))) ltac:(lia) MP) as ((FP & _) & VP); [rewrite SPr; lra |]. destruct (sums_exact e _ _ (ST (skipn ii w)) ltac:(lia) MW) as ((FT & _) & VT); [rewrite SW; lra |]. rewrite SPr in VP. rewrite SW in VT.
  assert (TP : 1 <= IZR (zsum (skipn ii ks))) by (apply (IZR_le 1); lia). destruct (share_rnd _ _ DB T1) as (R01 & RH & RL & _).
  assert (Q : IZR (zdot (skipn ii row) (skipn ii ks)) * bpow radix2 e / (IZR (zsum (skipn ii ks)) * bpow radix2 e) = IZR (zdot (skipn ii row) (skipn ii ks)) / IZR (zsum (skipn ii ks))) by (field; lra).
  destruct (fdiv_fin _ _ FP FT) as (FR & VR); [rewrite VT; nra | rewrite VP, VT, Q; rewrite Rabs_pos_eq by lra; apply Rle_lt_trans with 1; [lra |]; change 1 with (bpow radix2 0); apply bpow_lt; lia |]. rewrite VP, VT, Q in VR. change (fdiv _ _) with r in FR, VR. split; [exact FR |]. split; [rewrite (zdot_val e _ _ _ W'), SW, Q; exact VR |]. rewrite VR. split; [exact R01 |].
  destruct fone_fin as [F1 V1]. unfold fone in F1, V1. unfold flow, fhigh. rewrite !fle_ev by (apply fin_not_nan; assumption || reflexivity). rewrite !ev_fin by (assumption || reflexivity). rewrite VR, V1. change (val fzero) with 0. unfold Rleb. split.
  - rewrite <- D1, <- RH. destruct (Rle_dec _ _); split; intros H; (assumption || reflexivity || discriminate || contradiction).
  - rewrite <- D0, <- RL. destruct (Rle_dec _ _); split; intros H; (assumption || reflexivity || discriminate || contradiction).
Qed.
(** The share in percent lies in [0, 100], is 100 only if all samples are counted and 0 only if none is. *)
Lemma c208_percent flag residues : (1 <= Z.of_nat (length residues) <= 2 ^ 53)%Z -> let p := fpercent flag residues in
  is_finite p = true /\ 0 <= val p <= 100 /\ (val p = 100 <-> forall r, In r residues -> flag r = true) /\ (val p = 0 <-> forall r, In r residues -> flag r = false).
Proof.
  intros N p. assert (C : (length (filter flag residues) <= length residues)%nat /\ (length (filter flag residues) = length residues <-> forall r, In r residues -> flag r = true) /\ (length (filter flag residues) = 0%nat <-> forall r, In r residues -> flag r = false)).
  { clear. induction residues as [| x l (I & H1 & H0)]; [cbn; repeat split; (lia || (intros; contradiction)) |]. cbn [filter]. destruct (flag x) eqn:E; cbn [length].
    - split; [lia |]. split; split; intros H; [intros r [<- | R]; [exact E | apply (proj1 H1); [lia | exact R]] | rewrite (proj2 H1) by (intros r R; apply H; right; exact R); reflexivity | discriminate | rewrite (H x (or_introl eq_refl)) in E; discriminate].
    - split; [lia |]. split; split; intros H; [lia | rewrite (H x (or_introl eq_refl)) in E; discriminate | intros r [<- | R]; [exact E | apply (proj1 H0); [exact H | exact R]] | apply (proj2 H0); intros r R; apply H; right; exact R]. }
  destruct C as (CL & C1 & C0). set (c := length (filter flag residues)) in *. set (n := length residues) in *. destruct (fZ_ok (Z.of_nat c) ltac:(lia)) as (_ & Fc & Vc). destruct (fZ_ok (Z.of_nat n) ltac:(lia)) as (_ & Fn & Vn). destruct (fZ_ok 100 ltac:(lia)) as (_ & Fh & Vh).
  destruct (share_rnd (Z.of_nat c) (Z.of_nat n) ltac:(lia) ltac:(lia)) as (R01 & RH & RL & RU). assert (N0 : 1 <= IZR (Z.of_nat n)) by (apply (IZR_le 1); lia).
  destruct (fdiv_fin _ _ Fc Fn) as (Fq & Vq); [rewrite Vn; lra | rewrite Vc, Vn, Rabs_pos_eq by lra; apply Rle_lt_trans with 1; [lra |]; change 1 with (bpow radix2 0); apply bpow_lt; lia |]. rewrite Vc, Vn in Vq. set (q := fdiv _ _) in *. set (s := rnd (IZR (Z.of_nat c) / IZR (Z.of_nat n))) in *.
  assert (E100 : rnd 100 = 100). { pose proof (dyadic_id 100 0 ltac:(lia) ltac:(lia)) as H. cbn in H. rewrite Rmult_1_r in H. exact H. }
  assert (R100 : 0 <= rnd (s * 100) <= 100) by (split; [rewrite <- rnd_0 | rewrite <- E100 at 2]; apply rnd_le; lra).
  destruct (fmul_fin q (fnum 100 0) Fq Fh) as (Fp & Vp); [rewrite Vq, Vh, Rabs_pos_eq by lra; apply Rle_lt_trans with (bpow radix2 7); [cbn; lra | apply bpow_lt; lia] |]. rewrite Vq, Vh in Vp. change (fmul q (fnum 100 0)) with p in Fp, Vp. split; [exact Fp |]. rewrite Vp. split; [exact R100 |]. split.
  - rewrite <- C1. split; intros H.
    + destruct (Nat.eq_dec c n) as [E | NE]; [exact E | exfalso]. specialize (RU ltac:(lia)). assert (LE : rnd (s * 100) <= rnd ((1 - u) * 100)) by (apply rnd_le; lra). pose proof (rnd_normal ((1 - u) * 100)) as RN. assert (bpow radix2 (-1022) <= Rabs ((1 - u) * 100)). { rewrite Rabs_pos_eq by lra. apply Rle_trans with (bpow radix2 0); [apply bpow_le; lia | cbn; lra]. } specialize (RN H0). rewrite (Rabs_pos_eq ((1 - u) * 100)) in RN by lra. apply Rabs_le_inv in RN. lra.
    + assert (1 <= s) by (apply RH; lia). replace s with 1 by lra. rewrite Rmult_1_l. exact E100.
  - rewrite <- C0. split; intros H.
    + destruct (Nat.eq_dec c 0) as [E | NE]; [exact E | exfalso]. assert (PS : 0 < s) by (destruct (Rle_or_lt s 0) as [Q | Q]; [apply RL in Q; lia | exact Q]). assert (DS : double s) by apply rnd_double. assert (s = rnd s) by (symmetry; apply rnd_id; exact DS). assert (rnd s <= rnd (s * 100)) by (apply rnd_le; lra). lra.
    + assert (s <= 0) by (apply RL; lia). replace s with 0 by lra. rewrite Rmult_0_l. apply rnd_0.
Qed.
(** Weights 4, 2, 1: only 111 is high and only 000 low; one of three samples is 33.3 %. *)
Example c208_exact_ex : let w := [fnum 4 0; fnum 2 0; fnum 1 0] in let r := map (fun row => fresidue left_sum fold_sum row w 0) [[1; 1; 1]; [0; 0; 0]; [1; 1; 0]]%Z in
  map fhigh r = [true; false; false] /\ map flow r = [false; true; false] /\ B2SF (fpercent fhigh r) = SpecFloat.S754_finite false 4691249611844266 (-47).
Proof. vm_compute. repeat split; reflexivity. Qed.
(** ** C209: bins and frequencies *)
Lemma back_to_bin (f fs : fl) n x lo hi : is_finite f = true -> is_finite fs = true -> bpow radix2 (-900) <= val fs <= bpow radix2 900 -> (1 <= n <= 2 ^ 53)%Z -> bpow radix2 (-953) <= val f <= bpow radix2 953 -> (-100 <= lo)%Z -> (lo <= hi <= 60)%Z ->
  x = val f * IZR n / val fs -> bpow radix2 lo <= x <= bpow radix2 hi -> exists t d, ffreq_to_bin f fs n = Ok (round_he t) /\ t = x * (1 + d) /\ Rabs d <= bpow radix2 (-51).
Proof.
  intros Ff Fs S N Lf LO HI EX X. destruct (fZ_ok n ltac:(lia)) as (_ & Fn & Vn). assert (N' : 1 <= IZR n <= bpow radix2 53) by (split; [apply (IZR_le 1) | change (bpow radix2 53) with (IZR (2 ^ 53)); apply IZR_le]; lia). assert (P0 := bpow_gt_0 radix2 (-900)). assert (P1 := bpow_gt_0 radix2 (-953)). assert (PL := bpow_gt_0 radix2 lo).
  assert (X1 : bpow radix2 (-953) <= val f * IZR n <= bpow radix2 1006). { change 1006%Z with (953 + 53)%Z. rewrite bpow_plus. split; [nra |]. apply Rmult_le_compat; lra. }
  destruct (rnd_pos_rel _ (-953) 1006 ltac:(lia) ltac:(lia) X1) as (L1 & d1 & D1 & E1). destruct (fmul_fin f (fnum n 0) Ff Fn) as (Fm & Vm). { rewrite Vn. apply (rnd_fits _ 1006); [lia |]. rewrite Rabs_pos_eq; lra. } rewrite Vn in Vm.
  assert (Q : val (fmul f (fnum n 0)) / val fs = x * (1 + d1)) by (rewrite Vm, E1, EX; field; lra). apply Rabs_le_inv in D1.
  assert (X2 : bpow radix2 (lo - 1) <= val (fmul f (fnum n 0)) / val fs <= bpow radix2 (hi + 1)). { rewrite Q. unfold Z.sub. rewrite !bpow_plus. change (bpow radix2 (- (1))) with (/ 2). change (bpow radix2 1) with 2. split; apply Rmult_le_compat; lra. }
  destruct (rnd_pos_rel _ (lo - 1) (hi + 1) ltac:(lia) ltac:(lia) X2) as (L2 & d2 & D2 & E2). apply Rabs_le_inv in D2. destruct (fdiv_fin (fmul f (fnum n 0)) fs Fm Fs ltac:(lra)) as (Fq & Vq). { apply (rnd_fits _ (hi + 1)); [lia |]. pose proof (bpow_gt_0 radix2 (lo - 1)). rewrite Rabs_pos_eq; lra. }
  exists (val (fdiv (fmul f (fnum n 0)) fs)), ((1 + d1) * (1 + d2) - 1). split; [| split].
  - unfold ffreq_to_bin. rewrite (proj2 (feq0 fs Fs) ltac:(lra)). apply fround_int_fin. exact Fq.
  - rewrite Vq, E2, Q. ring.
  - replace (bpow radix2 (-51)) with (4 * u) by (cbn; lra). apply Rabs_le. nra.
Qed.
(** The frequency of a bin leads back to the bin, whatever the rate and the length, for bins up to 2^49. *)
Lemma c209_roundtrip (fs : fl) n k f : is_finite fs = true -> bpow radix2 (-900) <= val fs <= bpow radix2 900 -> (1 <= n <= 2 ^ 53)%Z -> (0 <= k <= 2 ^ 49)%Z -> fbin_to_freq k fs n = Ok f -> ffreq_to_bin f fs n = Ok k.
Proof.
  intros Fs S N K H. unfold fbin_to_freq in H. destruct (Z.eqb_spec n 0); [lia |]. injection H as <-. assert (P0 := bpow_gt_0 radix2 (-900)). destruct (Z.eq_dec k 0) as [-> | NK].
  - destruct (fZ_ok 0 ltac:(lia)) as (_ & F0 & V0). destruct (fZ_ok n ltac:(lia)) as (_ & Fn & Vn). assert (N1 : 1 <= IZR n) by (apply (IZR_le 1); lia). assert (R0 : forall r, Rabs (rnd (0 * r)) < big) by (intros r; rewrite Rmult_0_l, rnd_0, Rabs_R0; apply big_pos).
    destruct (fmul_fin (fnum 0 0) fs F0 Fs) as (F1 & V1); [rewrite V0; apply R0 |]. rewrite V0, Rmult_0_l, rnd_0 in V1. destruct (fdiv_fin _ (fnum n 0) F1 Fn) as (F2 & V2); [lra | rewrite V1; apply R0 |]. rewrite V1 in V2. unfold Rdiv in V2. rewrite Rmult_0_l, rnd_0 in V2. destruct (fmul_fin _ (fnum n 0) F2 Fn) as (F3 & V3); [rewrite V2; apply R0 |]. rewrite V2, Rmult_0_l, rnd_0 in V3. destruct (fdiv_fin _ fs F3 Fs) as (F4 & V4); [lra | rewrite V3; apply R0 |]. rewrite V3 in V4. unfold Rdiv in V4. rewrite Rmult_0_l, rnd_0 in V4. unfold ffreq_to_bin. rewrite (proj2 (feq0 fs Fs) ltac:(lra)). rewrite fround_int_fin by exact F4. rewrite V4. f_equal. apply Znearest_imp. rewrite Rminus_0_r, Rabs_R0. lra.
  - destruct (coherent_value fs n k Fs S N ltac:(lia)) as (Ff & Lf & d1 & d2 & D1 & D2 & V). set (f := fdiv _ _) in *. apply Rabs_le_inv in D1. apply Rabs_le_inv in D2. assert (N1 : 1 <= IZR n) by (apply (IZR_le 1); lia). assert (K' : 1 <= IZR k <= 562949953421312) by (split; [apply (IZR_le 1) | apply (IZR_le _ (2 ^ 49))]; lia).
    assert (Q : val f * IZR n / val fs = IZR k * ((1 + d1) * (1 + d2))) by (rewrite V; field; lra). assert (G : - (3 * u) <= (1 + d1) * (1 + d2) - 1 <= 3 * u) by nra. set (g := (1 + d1) * (1 + d2)) in *.
    assert (XB : bpow radix2 (-1) <= val f * IZR n / val fs <= bpow radix2 50). { rewrite Q. replace (bpow radix2 50) with (562949953421312 * 2) by (cbn; lra). change (bpow radix2 (-1)) with (/ 2). split; [nra | apply Rmult_le_compat; lra]. }
    destruct (back_to_bin f fs n _ (-1) 50 Ff Fs S N Lf ltac:(lia) ltac:(lia) eq_refl XB) as (t & d & E & T & D). rewrite E. f_equal. apply Znearest_imp. rewrite T, Q. replace (bpow radix2 (-51)) with (4 * u) in D by (cbn; lra). apply Rabs_le_inv in D. assert (GD : - (7 * u + 1 / 10 * u) <= g * (1 + d) - 1 <= 7 * u + 1 / 10 * u) by nra. replace (IZR k * g * (1 + d) - IZR k) with (IZR k * (g * (1 + d) - 1)) by ring. rewrite Rabs_mult, (Rabs_pos_eq (IZR k)) by lra. apply Rle_lt_trans with (562949953421312 * (7 * u + 1 / 10 * u)); [| lra]. apply Rmult_le_compat; [lra | apply Rabs_pos | lra | apply Rabs_le; lra].
Qed.
(** Any frequency: the bin returned is the nearest up to rounding. *)
Lemma c209_nearest (f fs : fl) n : is_finite f = true -> is_finite fs = true -> bpow radix2 (-900) <= val fs <= bpow radix2 900 -> (1 <= n <= 2 ^ 53)%Z -> bpow radix2 (-953) <= val f <= bpow radix2 953 -> let x := val f * IZR n / val fs in
  bpow radix2 (-100) <= x <= bpow radix2 60 -> exists b, ffreq_to_bin f fs n = Ok b /\ Rabs (IZR b - x) <= / 2 + bpow radix2 (-51) * x.
Proof.
  intros Ff Fs S N Lf x X. destruct (back_to_bin f fs n x (-100) 60 Ff Fs S N Lf ltac:(lia) ltac:(lia) eq_refl X) as (t & d & E & T & D). exists (round_he t). split; [exact E |]. assert (H : Rabs (t - IZR (round_he t)) <= / 2) by apply Znearest_half. assert (P := bpow_gt_0 radix2 (-100)). replace (IZR (round_he t) - x) with (- (t - IZR (round_he t)) + x * d) by (rewrite T; ring). eapply Rle_trans; [apply Rabs_triang |]. rewrite Rabs_Ropp, Rabs_mult, (Rabs_pos_eq x) by lra. apply Rplus_le_compat; [exact H |]. rewrite (Rmult_comm (bpow radix2 (-51))). apply Rmult_le_compat_l; [lra | exact D].
Qed.
(** Not for all bins that are doubles: 2^51 + 1 at rate 3 with 5 points comes back as another bin. *)
Lemma c209_large_refuted : exists (fs f : fl) n k b, is_finite fs = true /\ val fs = 3 /\ (1 <= k <= 2 ^ 53)%Z /\ fbin_to_freq k fs n = Ok f /\ ffreq_to_bin f fs n = Ok b /\ b <> k.
Proof.
  destruct (fnum_fin 3 0) as (F & V); [lia.. |]. exists (fnum 3 0), (fdiv (fmul (fnum (2 ^ 51 + 1) 0) (fnum 3 0)) (fnum 5 0)), 5%Z, (2 ^ 51 + 1)%Z, (match ffreq_to_bin (fdiv (fmul (fnum (2 ^ 51 + 1) 0) (fnum 3 0)) (fnum 5 0)) (fnum 3 0) 5 with Ok b => b | Err _ => 0%Z end). split; [exact F |]. split; [rewrite V; cbn; lra |]. split; [lia |]. split; [reflexivity |]. split; [vm_compute; reflexivity |]. vm_compute. discriminate.
Qed.
(** 100 MHz at 800 MHz with 8192 points is bin 1024; bin 1023 is 99.90234375 MHz and leads back. *)
Example c209_roundtrip_ex : ffreq_to_bin (fnum 100000000 0) (fnum 800000000 0) 8192 = Ok 1024%Z /\ exists f, fbin_to_freq 1023 (fnum 800000000 0) 8192 = Ok f /\ val f = 99902343.75 /\ ffreq_to_bin f (fnum 800000000 0) 8192 = Ok 1023%Z.
Proof.
  split; [vm_compute; reflexivity |]. eexists. split; [reflexivity |]. split; [| vm_compute; reflexivity]. destruct (val_SF (fdiv (fmul (fnum 1023 0) (fnum 800000000 0)) (fnum 8192 0)) false 6704332800000000 (-26) ltac:(vm_compute; reflexivity)) as (_ & ->). cbn. lra.
Qed.
(** ** C210: codes and volts *)
Lemma lsb_value (vref : fl) n : is_finite vref = true -> bpow radix2 (-400) <= val vref <= bpow radix2 400 -> (n <= 100)%nat -> let l := fdiv vref (fnum (2 ^ Z.of_nat n) 0) in
  is_finite l = true /\ val l = val vref * bpow radix2 (- Z.of_nat n) /\ bpow radix2 (-500) <= val l <= bpow radix2 400.
Proof.
  intros F V N l. destruct (fnum_pow_fin (Z.of_nat n) ltac:(lia)) as (Fp & Vp). assert (P := bpow_gt_0 radix2 (Z.of_nat n)). assert (E : val vref / bpow radix2 (Z.of_nat n) = val vref * bpow radix2 (- Z.of_nat n)) by (rewrite bpow_opp; reflexivity). assert (P2 := bpow_gt_0 radix2 (- Z.of_nat n)). assert (PA := bpow_gt_0 radix2 (-400)).
  assert (B : bpow radix2 (-500) <= val vref * bpow radix2 (- Z.of_nat n) <= bpow radix2 400). { split; [change (-500)%Z with (-400 + -100)%Z; rewrite bpow_plus; apply Rmult_le_compat; try lra; [apply bpow_ge_0 | apply bpow_le; lia] |]. change 400%Z with (400 + 0)%Z. rewrite bpow_plus. apply Rmult_le_compat; try lra. apply bpow_le. lia. }
  assert (D : rnd (val vref * bpow radix2 (- Z.of_nat n)) = val vref * bpow radix2 (- Z.of_nat n)). { destruct (double_multiple (val vref) (-400) (val_double vref) ltac:(lia)) as (m & M); [rewrite Rabs_pos_eq; lra |]. apply rnd_id. unfold double. pose proof (val_double vref) as G. unfold double in G.
    apply (mult_bpow_exact_FLT radix2 (-1074) 53); [exact G |]. pose proof (mag_ge_bpow radix2 (val vref) (-399)) as MG. change (-399 - 1)%Z with (-400)%Z in MG. rewrite Rabs_pos_eq in MG by lra. specialize (MG (proj1 V)). lia. }
  destruct (fdiv_fin vref (fnum (2 ^ Z.of_nat n) 0) F Fp) as (Fl & Vl); [rewrite Vp; lra | rewrite Vp, E, D, Rabs_pos_eq by (pose proof (bpow_gt_0 radix2 (-500)); lra); apply Rle_lt_trans with (bpow radix2 400); [lra | apply bpow_lt; lia] |]. rewrite Vp, E, D in Vl. split; [exact Fl |]. split; [exact Vl |]. fold l in Vl. rewrite Vl. exact B.
Qed.
(** There and back changes a number of codes by at most one part in 2^51. *)
Lemma c210_roundtrip (x vref : fl) n : is_finite x = true -> is_finite vref = true -> bpow radix2 (-400) <= val x <= bpow radix2 400 -> bpow radix2 (-400) <= val vref <= bpow radix2 400 -> (n <= 100)%nat ->
  exists y, fvolts_to_lsb (flsb_to_volts x vref n) vref n = Ok y /\ is_finite y = true /\ Rabs (val y - val x) <= bpow radix2 (-51) * val x.
Proof.
  intros Fx Fv X V N. destruct (lsb_value vref n Fv V N) as (Fl & Vl & Bl). set (l := fdiv _ _) in *. assert (P0 := bpow_gt_0 radix2 (-400)). assert (P5 := bpow_gt_0 radix2 (-500)). assert (P4 := bpow_gt_0 radix2 400).
  assert (X1 : bpow radix2 (-900) <= val x * val l <= bpow radix2 800). { change (-900)%Z with (-400 + -500)%Z. change 800%Z with (400 + 400)%Z. rewrite !bpow_plus. split; apply Rmult_le_compat; lra. } assert (P9 := bpow_gt_0 radix2 (-900)).
  destruct (rnd_pos_rel _ (-900) 800 ltac:(lia) ltac:(lia) X1) as (L1 & d1 & D1 & E1). destruct (fmul_fin x l Fx Fl) as (Fm & Vm). { apply (rnd_fits _ 800); [lia |]. rewrite Rabs_pos_eq; lra. }
  assert (Q : val (fmul x l) / val l = val x * (1 + d1)) by (rewrite Vm, E1; field; lra). apply Rabs_le_inv in D1. assert (X2 : bpow radix2 (-401) <= val (fmul x l) / val l <= bpow radix2 401). { rewrite Q. change (-401)%Z with (-400 + -1)%Z. change 401%Z with (400 + 1)%Z. rewrite !bpow_plus. change (bpow radix2 (-1)) with (/ 2). change (bpow radix2 1) with 2. split; apply Rmult_le_compat; lra. }
  destruct (rnd_pos_rel _ (-401) 401 ltac:(lia) ltac:(lia) X2) as (L2 & d2 & D2 & E2). apply Rabs_le_inv in D2. destruct (fdiv_fin (fmul x l) l Fm Fl ltac:(lra)) as (Fq & Vq). { apply (rnd_fits _ 401); [lia |]. pose proof (bpow_gt_0 radix2 (-401)). rewrite Rabs_pos_eq; lra. }
  exists (fdiv (fmul x l) l). split; [| split; [exact Fq |]].
  - unfold fvolts_to_lsb, flsb_to_volts. fold l. rewrite (proj2 (feq0 l Fl) ltac:(lra)). reflexivity.
  - rewrite Vq, E2, Q. replace (val x * (1 + d1) * (1 + d2) - val x) with (val x * ((1 + d1) * (1 + d2) - 1)) by ring. rewrite Rabs_mult, (Rabs_pos_eq (val x)), Rmult_comm by lra. apply Rmult_le_compat_r; [lra |]. replace (bpow radix2 (-51)) with (4 * u) by (cbn; lra). apply Rabs_le. nra.
Qed.
(** So a code up to 2^49 comes back as the nearest whole number. *)
Lemma c210_codes k (vref : fl) n : (1 <= k <= 2 ^ 49)%Z -> is_finite vref = true -> bpow radix2 (-400) <= val vref <= bpow radix2 400 -> (n <= 100)%nat ->
  exists y, fvolts_to_lsb (flsb_to_volts (fnum k 0) vref n) vref n = Ok y /\ fround_int y = Ok k.
Proof.
  intros K Fv V N. destruct (fZ_ok k ltac:(lia)) as (_ & Fk & Vk). assert (K' : 1 <= IZR k <= 562949953421312) by (split; [apply (IZR_le 1) | apply (IZR_le _ (2 ^ 49))]; lia). destruct (c210_roundtrip (fnum k 0) vref n Fk Fv) as (y & E & Fy & D); [rewrite Vk; split; [apply Rle_trans with (bpow radix2 0); [apply bpow_le; lia | cbn; lra] | apply Rle_trans with (bpow radix2 49); [cbn; lra | apply bpow_le; lia]] | exact V | exact N |]. exists y. split; [exact E |]. rewrite fround_int_fin by exact Fy. f_equal. rewrite Vk in D. apply Znearest_imp. eapply Rle_lt_trans; [exact D |]. replace (bpow radix2 (-51)) with (4 * u) by (cbn; lra). lra.
Qed.
(** A reference that is a power of two loses nothing. *)
Lemma c210_power (x vref : fl) n m : is_finite x = true -> is_finite vref = true -> bpow radix2 (-400) <= val x <= bpow radix2 400 -> val vref = bpow radix2 m -> (-400 <= m <= 400)%Z -> (n <= 100)%nat ->
  exists y, fvolts_to_lsb (flsb_to_volts x vref n) vref n = Ok y /\ val y = val x /\ val (flsb_to_volts x vref n) = val x * bpow radix2 (m - Z.of_nat n).
Proof.
  intros Fx Fv X V M N. assert (VB : bpow radix2 (-400) <= val vref <= bpow radix2 400) by (rewrite V; split; apply bpow_le; lia). destruct (lsb_value vref n Fv VB N) as (Fl & Vl & Bl). set (l := fdiv _ _) in *. rewrite V, <- bpow_plus in Vl. change (m + - Z.of_nat n)%Z with (m - Z.of_nat n)%Z in Vl. set (q := (m - Z.of_nat n)%Z) in *. assert (PQ := bpow_gt_0 radix2 q). assert (P0 := bpow_gt_0 radix2 (-400)).
  assert (X1 : bpow radix2 (-900) <= val x * bpow radix2 q <= bpow radix2 800). { rewrite <- Vl. change (-900)%Z with (-400 + -500)%Z. change 800%Z with (400 + 400)%Z. pose proof (bpow_gt_0 radix2 (-500)). rewrite !bpow_plus. split; apply Rmult_le_compat; lra. } assert (P9 := bpow_gt_0 radix2 (-900)).
  assert (D : rnd (val x * bpow radix2 q) = val x * bpow radix2 q). { apply rnd_id. unfold double. apply (mult_bpow_exact_FLT radix2 (-1074) 53); [apply val_double |]. pose proof (mag_ge_bpow radix2 (val x) (-399)) as MG. change (-399 - 1)%Z with (-400)%Z in MG. rewrite Rabs_pos_eq in MG by lra. specialize (MG (proj1 X)). unfold q. lia. }
  destruct (fmul_fin x l Fx Fl) as (Fm & Vm). { apply (rnd_fits _ 800); [lia |]. rewrite Vl, Rabs_pos_eq; lra. } rewrite Vl, D in Vm. assert (Q : val (fmul x l) / val l = val x) by (rewrite Vm, Vl; field; lra). assert (R : rnd (val x) = val x) by (apply rnd_id, val_double). destruct (fdiv_fin (fmul x l) l Fm Fl ltac:(lra)) as (Fq & Vq). { rewrite Q, R. apply val_range. exact Fx. } rewrite Q, R in Vq.
  exists (fdiv (fmul x l) l). split; [| split; [exact Vq | exact Vm]]. unfold fvolts_to_lsb, flsb_to_volts. fold l. rewrite (proj2 (feq0 l Fl) ltac:(lra)). reflexivity.
Qed.
(** Otherwise not even small codes survive: code 3 at 3.3 V and 12 bits comes back below 3, so that truncation gives 2. *)
Lemma c210_exact_refuted : exists (vref : fl) y, is_finite vref = true /\ B2SF vref = SpecFloat.S754_finite false 7430939385161318 (-51) /\ fvolts_to_lsb (flsb_to_volts (fnum 3 0) vref 12) vref 12 = Ok y /\ 2 < val y < 3 /\ Zfloor (val y) = 2%Z.
Proof.
  exists f3_3, (fdiv (fmul (fnum 3 0) (fdiv f3_3 (fnum (2 ^ Z.of_nat 12) 0))) (fdiv f3_3 (fnum (2 ^ Z.of_nat 12) 0))). split; [vm_compute; reflexivity |]. split; [vm_compute; reflexivity |]. split; [unfold fvolts_to_lsb, flsb_to_volts; cbv zeta; destruct (Beqb _ _) eqn:E; [vm_compute in E; discriminate | reflexivity] |]. destruct (val_SF (fdiv (fmul (fnum 3 0) (fdiv f3_3 (fnum (2 ^ Z.of_nat 12) 0))) (fdiv f3_3 (fnum (2 ^ Z.of_nat 12) 0))) false 6755399441055743 (-51) ltac:(vm_compute; reflexivity)) as (_ & ->). assert (B : 2 < IZR (cond_Zopp false 6755399441055743) * bpow radix2 (-51) < 3) by (cbn; lra). split; [exact B |]. apply Zfloor_imp. cbn [Z.add Pos.add]. change (2 + 1)%Z with 3%Z. lra.
Qed.
Example c210_power_ex : exists y, fvolts_to_lsb (flsb_to_volts (fnum 1234567 (-3)) (fnum 1 1) 12) (fnum 1 1) 12 = Ok y /\ val y = 154320.875.
Proof.
  exists (fdiv (flsb_to_volts (fnum 1234567 (-3)) (fnum 1 1) 12) (fdiv (fnum 1 1) (fnum (2 ^ Z.of_nat 12) 0))). split; [unfold fvolts_to_lsb; cbv zeta; destruct (Beqb _ _) eqn:E; [vm_compute in E; discriminate | reflexivity] |]. destruct (val_SF (fdiv (flsb_to_volts (fnum 1234567 (-3)) (fnum 1 1) 12) (fdiv (fnum 1 1) (fnum (2 ^ Z.of_nat 12) 0))) false 5302424889720832 (-35) ltac:(vm_compute; reflexivity)) as (_ & ->). cbn. lra.
Qed.
(** Exactly a length of zero, or a rate of zero, is refused. *)
Lemma c209_errors (f fs : fl) n k : (fbin_to_freq k fs n = Err ZeroDivisionError <-> n = 0%Z) /\ (is_finite fs = true -> (ffreq_to_bin f fs n = Err ZeroDivisionError <-> val fs = 0)) /\ (ffreq_to_bin B754_nan (fnum 1 0) n = Err ValueError).
Proof.
  split; [| split].
  - unfold fbin_to_freq. destruct (Z.eqb_spec n 0) as [-> | N]; [split; reflexivity | split; intros H; [discriminate | contradiction]].
  - intros F. unfold ffreq_to_bin. destruct (Beqb fs fzero) eqn:E.
    + split; [intros _ | reflexivity]. destruct (Req_dec (val fs) 0) as [Z | Z]; [exact Z |]. rewrite (proj2 (feq0 fs F) Z) in E. discriminate.
    + apply (feq0 fs F) in E. split; [| intros Z; contradiction]. unfold fround_int. destruct (fdiv _ _); discriminate.
  - reflexivity.
Qed.
Lemma c210_errors (v : fl) n s : (n <= 1023)%nat -> fvolts_to_lsb v (B754_zero s) n = Err ZeroDivisionError.
Proof.
  intros N. destruct (fnum_pow_fin (Z.of_nat n) ltac:(lia)) as (Fp & Vp). assert (P := bpow_gt_0 radix2 (Z.of_nat n)). destruct (fdiv_fin (B754_zero s) (fnum (2 ^ Z.of_nat n) 0) eq_refl Fp) as (Fl & Vl); [lra | unfold val at 1; cbn [B2R]; unfold Rdiv; rewrite Rmult_0_l, rnd_0, Rabs_R0; apply big_pos |]. change (val (B754_zero s)) with 0 in Vl. unfold Rdiv in Vl. rewrite Rmult_0_l, rnd_0 in Vl. unfold fvolts_to_lsb. cbv zeta. destruct (Beqb _ _) eqn:E; [reflexivity |]. apply (feq0 _ Fl) in E. contradiction.
Qed.
