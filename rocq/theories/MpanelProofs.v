(** * The MATLAB dashboard: final lemmas c192_ - c196_. *)
From Coq Require Import Psatz.
From Verif Require Import Base BaseLemmas Cplx FreqModel UnitsModel TiModel TiSpec TiProofs SpecModel SpecLemmas CalModel CalSpec CalProofs CalExLemmas CalExProofs FitModel FitSpec FitProofs HarmModel HarmSpec HarmProofs DoutModel DoutProofs SineHistModel SineHistProofs MatModel CohModel MsinModel MsinProofs MerrModel MosrModel McalModel McalProofs MgenModel MgenProofs MspecModel MspecProofs MbitModel MphaseModel MphaseProofs MpanelModel MpanelSpec.
Local Open Scope R_scope.

(** ** Codes and bits *)
Lemma ln2_pos : 0 < ln 2.
Proof.
  rewrite <- ln_1. apply ln_increasing; lra.
Qed.
Lemma ln_pow2 k : (0 <= k)%Z -> ln (IZR (2 ^ k)) = IZR k * ln 2.
Proof.
  intros K. rewrite <- (Z2Nat.id k) by lia. rewrite <- INR_IZR_INZ. rewrite <- (ln_pow 2 ltac:(lra)). f_equal. rewrite pow_IZR. reflexivity.
Qed.
Lemma log2_is x : (1 <= x)%Z -> a_log2 x = Z.log2_up x.
Proof.
  intros X. unfold a_log2. pose proof ln2_pos as L. apply Zceil_imp. destruct (Z.eq_dec x 1) as [-> | N].
  - rewrite ln_1. cbn. unfold Rdiv. rewrite Rmult_0_l. split; lra.
  - destruct (Z.log2_up_spec x ltac:(lia)) as [A B]. assert (U : (0 < Z.log2_up x)%Z) by (apply Z.log2_up_pos; lia). replace (Z.pred (Z.log2_up x)) with (Z.log2_up x - 1)%Z in A by lia. split.
    + apply Rmult_lt_reg_r with (ln 2); [lra |]. unfold Rdiv. rewrite Rmult_assoc, Rinv_l, Rmult_1_r by lra. rewrite <- ln_pow2 by lia. apply ln_increasing; [apply (IZR_lt 0), Z.pow_pos_nonneg; lia | apply IZR_lt, A].
    + apply Rmult_le_reg_r with (ln 2); [lra |]. unfold Rdiv. rewrite Rmult_assoc, Rinv_l, Rmult_1_r by lra. rewrite <- ln_pow2 by lia. destruct (Z.eq_dec x (2 ^ Z.log2_up x)) as [E | E]; [right; f_equal; f_equal; exact E |]. left. apply ln_increasing; [apply (IZR_lt 0); lia | apply IZR_lt; lia].
Qed.
Lemma log2_up_iff x k : (1 <= x)%Z -> (0 <= k)%Z -> (Z.log2_up x <= k <-> x <= 2 ^ k)%Z.
Proof.
  intros X K. split; intros H.
  - destruct (Z.eq_dec x 1) as [-> | N]; [assert (0 < 2 ^ k)%Z by (apply Z.pow_pos_nonneg; lia); lia |]. pose proof (Z.log2_up_spec x ltac:(lia)). assert (2 ^ Z.log2_up x <= 2 ^ k)%Z by (apply Z.pow_le_mono_r; lia). lia.
  - rewrite <- (Z.log2_up_pow2 k) by lia. apply Z.log2_up_le_mono, H.
Qed.
Lemma nbits_unsigned lo hi : (0 <= lo <= hi)%Z -> (1 <= a_nbits lo hi)%Z /\ (forall m, (1 <= m)%Z -> (a_nbits lo hi <= m <-> hi < 2 ^ m)%Z).
Proof.
  intros H. unfold a_nbits. destruct (Z.leb_spec 0 lo); [| lia]. destruct (Z.eqb_spec hi 0) as [-> | N].
  - split; [lia |]. intros m M. assert (0 < 2 ^ m)%Z by (apply Z.pow_pos_nonneg; lia). lia.
  - rewrite log2_is by lia. split.
    + assert (0 < Z.log2_up (hi + 1))%Z by (apply Z.log2_up_pos; lia). lia.
    + intros m M. rewrite log2_up_iff by lia. lia.
Qed.
Lemma nbits_signed lo hi : (lo < 0)%Z -> (lo <= hi)%Z -> (1 <= a_nbits lo hi)%Z /\ (forall m, (1 <= m)%Z -> (a_nbits lo hi <= m <-> - 2 ^ (m - 1) <= lo /\ hi < 2 ^ (m - 1))%Z).
Proof.
  intros H H'. unfold a_nbits. destruct (Z.leb_spec 0 lo); [lia |]. rewrite log2_is by lia. pose proof (Z.log2_up_nonneg (- lo)). split; [lia |].
  intros m M. pose proof (log2_up_iff (- lo) (m - 1) ltac:(lia) ltac:(lia)) as A. destruct (Z.ltb_spec 0 hi).
  - rewrite log2_is by lia. pose proof (log2_up_iff (hi + 1) (m - 1) ltac:(lia) ltac:(lia)) as B. lia.
  - assert (0 < 2 ^ (m - 1))%Z by (apply Z.pow_pos_nonneg; lia). lia.
Qed.
Lemma bits_of_length n v : length (a_bits_of n v) = n.
Proof.
  unfold a_bits_of. rewrite map_length, seq_length. reflexivity.
Qed.
Lemma bits_of_bit n v b : In b (a_bits_of n v) -> b = 0 \/ b = 1.
Proof.
  unfold a_bits_of. intros H. apply in_map_iff in H. destruct H as (i & <- & _). pose proof (Z.mod_pos_bound (v / 2 ^ (Z.of_nat n - 1 - Z.of_nat i)) 2 ltac:(lia)) as B.
  assert (E : (v / 2 ^ (Z.of_nat n - 1 - Z.of_nat i) mod 2 = 0 \/ v / 2 ^ (Z.of_nat n - 1 - Z.of_nat i) mod 2 = 1)%Z) by lia. destruct E as [-> | ->]; [left | right]; reflexivity.
Qed.
Lemma bits_of_S n v : a_bits_of (S n) v = IZR (v / 2 ^ Z.of_nat n mod 2) :: a_bits_of n v.
Proof.
  unfold a_bits_of. cbn [seq map]. f_equal; [replace (Z.of_nat (S n) - 1 - Z.of_nat 0)%Z with (Z.of_nat n) by lia; reflexivity |]. rewrite <- seq_shift, map_map. apply map_ext_in. intros i I. apply in_seq in I. replace (Z.of_nat (S n) - 1 - Z.of_nat (S i))%Z with (Z.of_nat n - 1 - Z.of_nat i)%Z by lia. reflexivity.
Qed.
Lemma bits_of_binary n v : binary (a_bits_of n v) = IZR (v mod 2 ^ Z.of_nat n).
Proof.
  induction n as [| n IH]; [cbn; rewrite Z.mod_1_r; reflexivity |]. rewrite bits_of_S. cbn [binary]. rewrite bits_of_length, IH. rewrite pow_IZR, <- mult_IZR, <- plus_IZR. f_equal.
  rewrite Nat2Z.inj_succ, Z.pow_succ_r by lia. rewrite (Z.mul_comm 2). rewrite Z.rem_mul_r by (try lia; apply Z.pow_nonzero; lia). lia.
Qed.
Lemma bits_of_twos n v : (1 <= n)%nat -> (- 2 ^ (Z.of_nat n - 1) <= v < 2 ^ (Z.of_nat n - 1))%Z ->
  twos_complement (a_bits_of n (if (v <? 0)%Z then 2 ^ Z.of_nat n + v else v)%Z) = IZR v.
Proof.
  intros N V. destruct n as [| n]; [lia |]. rewrite bits_of_S. unfold twos_complement. rewrite bits_of_length, bits_of_binary, pow_IZR, <- mult_IZR, <- minus_IZR. f_equal.
  replace (Z.of_nat (S n) - 1)%Z with (Z.of_nat n) in V by lia. set (p := (2 ^ Z.of_nat n)%Z) in *. assert (P : (0 < p)%Z) by (apply Z.pow_pos_nonneg; lia).
  assert (E : (2 ^ Z.of_nat (S n) = 2 * p)%Z) by (rewrite Nat2Z.inj_succ, Z.pow_succ_r by lia; reflexivity). rewrite E. destruct (Z.ltb_spec v 0).
  - assert (Q : ((2 * p + v) / p = 1)%Z) by (symmetry; apply (Z.div_unique_pos _ _ 1 (p + v)); lia). rewrite Q.
    assert (W : ((2 * p + v) mod p = p + v)%Z) by (symmetry; apply (Z.mod_unique_pos _ _ 1 (p + v)); lia). rewrite W. change (1 mod 2)%Z with 1%Z. lia.
  - rewrite Z.div_small, (Z.mod_small v p) by lia. change (0 mod 2)%Z with 0%Z. lia.
Qed.
Lemma floor_IZR v : Zfloor (IZR v) = v.
Proof.
  apply Zfloor_imp. rewrite plus_IZR. lra.
Qed.
Lemma whole_codes codes : existsb (fun x => negb (Reqb (IZR (Zfloor x)) x)) (map IZR codes) = false.
Proof.
  induction codes as [| v t IH]; [reflexivity |]. cbn [map existsb]. rewrite IH, floor_IZR. unfold Reqb. destruct (Req_EM_T (IZR v) (IZR v)); [reflexivity | congruence].
Qed.
Lemma floor_codes codes : map Zfloor (map IZR codes) = codes.
Proof.
  rewrite map_map. rewrite <- (map_id codes) at 2. apply map_ext, floor_IZR.
Qed.
Lemma width_is n vs : vs <> [] -> (1 <= n)%Z -> (forall v, In v vs -> 0 <= v < 2 ^ n)%Z -> a_width n vs = Z.to_nat n.
Proof.
  intros V N H. unfold a_width. f_equal. destruct (zmax_list_spec vs V) as [I _]. specialize (H _ I). destruct (Z.eq_dec (zmax_list vs) 0) as [-> | E]; [cbn; lia |].
  assert (Z.log2 (zmax_list vs) < n)%Z by (apply Z.log2_lt_pow2; lia). lia.
Qed.

(** C192: codes that are not negative become as many bits as the largest needs, and the bits stand for the codes. *)
Lemma c192_unsigned codes : codes <> [] -> (forall v, In v codes -> (0 <= v)%Z) ->
  exists n rows, a_decompose (map IZR codes) = Ok rows /\ fewest (fun n => holds_unsigned n codes) n /\ bit_rows n rows /\ map binary rows = map IZR codes.
Proof.
  intros NE P. unfold a_decompose. rewrite whole_codes, floor_codes. cbn [raise_if]. destruct (zmin_list_spec codes NE) as [I1 M1]. destruct (zmax_list_spec codes NE) as [I2 M2].
  pose proof (P _ I1) as P1. pose proof (M1 _ I2) as P2. destruct (nbits_unsigned (zmin_list codes) (zmax_list codes) ltac:(lia)) as [B1 B2]. set (n := a_nbits (zmin_list codes) (zmax_list codes)) in *.
  destruct (Z.leb_spec 0 (zmin_list codes)); [| lia]. assert (F : (zmax_list codes < 2 ^ n)%Z) by (apply B2; lia).
  rewrite width_is; [| exact NE | exact B1 |].
  2:{ intros v I. pose proof (P _ I). pose proof (M2 _ I). lia. }
  exists (Z.to_nat n), (map (a_bits_of (Z.to_nat n)) codes). split; [reflexivity |]. split; [| split].
  - split; [lia |]. split.
    + intros v I. rewrite Z2Nat.id by lia. pose proof (P _ I). pose proof (M2 _ I). lia.
    + intros m M Q. apply Nat2Z.inj_le. rewrite Z2Nat.id by lia. apply B2; [lia |]. apply Q, I2.
  - intros r R. apply in_map_iff in R. destruct R as (v & <- & _). split; [apply bits_of_length | apply bits_of_bit].
  - rewrite map_map. apply map_ext_in. intros v I. rewrite bits_of_binary, Z2Nat.id by lia. rewrite Z.mod_small; [reflexivity |]. pose proof (P _ I). pose proof (M2 _ I). lia.
Qed.
(** C192: with a negative code among them the bits are two's complement, of the fewest bits. *)
Lemma c192_signed codes : (exists v, In v codes /\ (v < 0)%Z) ->
  exists n rows, a_decompose (map IZR codes) = Ok rows /\ fewest (fun n => holds_signed n codes) n /\ bit_rows n rows /\ map twos_complement rows = map IZR codes.
Proof.
  intros (v0 & I0 & V0). assert (NE : codes <> []) by (intros ->; destruct I0). unfold a_decompose. rewrite whole_codes, floor_codes. cbn [raise_if]. destruct (zmin_list_spec codes NE) as [I1 M1]. destruct (zmax_list_spec codes NE) as [I2 M2].
  pose proof (M1 _ I0) as P1. pose proof (M1 _ I2) as P2. destruct (nbits_signed (zmin_list codes) (zmax_list codes) ltac:(lia) ltac:(lia)) as [B1 B2]. set (n := a_nbits (zmin_list codes) (zmax_list codes)) in *.
  destruct (Z.leb_spec 0 (zmin_list codes)); [lia |]. assert (F : (- 2 ^ (n - 1) <= zmin_list codes /\ zmax_list codes < 2 ^ (n - 1))%Z) by (apply B2; lia).
  assert (D : (2 ^ n = 2 * 2 ^ (n - 1))%Z) by (rewrite <- Z.pow_succ_r by lia; f_equal; lia).
  set (u := map (fun v => if (v <? 0)%Z then (2 ^ n + v)%Z else v) codes).
  rewrite width_is; [| unfold u; intros E; apply map_eq_nil in E; contradiction | exact B1 |].
  2:{ intros w I. unfold u in I. apply in_map_iff in I. destruct I as (v & <- & I). pose proof (M1 _ I). pose proof (M2 _ I). destruct (Z.ltb_spec v 0); lia. }
  exists (Z.to_nat n), (map (a_bits_of (Z.to_nat n)) u). split; [reflexivity |]. split; [| split].
  - split; [lia |]. split.
    + intros v I. rewrite Z2Nat.id by lia. pose proof (M1 _ I). pose proof (M2 _ I). lia.
    + intros m M Q. apply Nat2Z.inj_le. rewrite Z2Nat.id by lia. apply B2; [lia |]. split; [apply (Q _ I1) | apply (Q _ I2)].
  - intros r R. apply in_map_iff in R. destruct R as (v & <- & _). split; [apply bits_of_length | apply bits_of_bit].
  - unfold u. rewrite !map_map. apply map_ext_in. intros v I. replace (2 ^ n)%Z with (2 ^ Z.of_nat (Z.to_nat n))%Z by (rewrite Z2Nat.id by lia; reflexivity). apply bits_of_twos; [lia |]. rewrite Z2Nat.id by lia. pose proof (M1 _ I). pose proof (M2 _ I). lia.
Qed.
(** C192: a code that is not whole is refused. *)
Lemma c192_whole codes : (exists rows, a_decompose codes = Ok rows) <-> exists z, codes = map IZR z.
Proof.
  split.
  - intros (rows & E). unfold a_decompose in E. destruct (existsb _ codes) eqn:X; [discriminate |]. exists (map Zfloor codes). rewrite map_map. rewrite <- (map_id codes) at 1. apply map_ext_in. intros x I.
    assert (N : negb (Reqb (IZR (Zfloor x)) x) = false). { destruct (negb (Reqb (IZR (Zfloor x)) x)) eqn:Y; [| reflexivity]. assert (existsb (fun x => negb (Reqb (IZR (Zfloor x)) x)) codes = true) by (apply existsb_exists; exists x; split; assumption). congruence. }
    unfold Reqb in N. destruct (Req_EM_T (IZR (Zfloor x)) x); [symmetry; assumption | discriminate].
  - intros (z & ->). unfold a_decompose. rewrite whole_codes. eexists. reflexivity.
Qed.
(** C192: the record of a one-bit converter is its own bit column. *)
Lemma c192_one_bit codes : codes <> [] -> (forall b, In b codes -> b = 0 \/ b = 1) -> a_decompose codes = Ok (map (fun b => [b]) codes).
Proof.
  intros NE B. assert (E : exists z, codes = map IZR z /\ forall v, In v z -> (v = 0 \/ v = 1)%Z).
  { exists (map Zfloor codes). split.
    - rewrite map_map. rewrite <- (map_id codes) at 1. apply map_ext_in. intros x I. destruct (B _ I) as [-> | ->]; [rewrite (floor_IZR 0) | rewrite (floor_IZR 1)]; reflexivity.
    - intros v I. apply in_map_iff in I. destruct I as (x & <- & I). destruct (B _ I) as [-> | ->]; [rewrite (floor_IZR 0) | rewrite (floor_IZR 1)]; lia. }
  destruct E as (z & -> & Z01). assert (NZ : z <> []) by (intros ->; apply NE; reflexivity).
  destruct (c192_unsigned z NZ) as (n & rows & -> & (N1 & _ & N2) & BR & BI). { intros v I. destruct (Z01 _ I); lia. }
  assert (N : n = 1%nat). { apply Nat.le_antisymm; [| exact N1]. apply N2; [lia |]. intros v I. destruct (Z01 _ I) as [-> | ->]; cbn; lia. } subst n. f_equal. rewrite <- BI, map_map.
  rewrite <- (map_id rows) at 1. apply map_ext_in. intros r I. destruct (BR _ I) as [L _]. destruct r as [| b [| ]]; try discriminate. cbn. f_equal. ring.
Qed.

(** ** Orientation *)
Lemma rect_ncols n m d : rect n m d -> (0 < n)%nat -> ncols d = m.
Proof.
  intros [L C] N. unfold ncols. destruct d as [| r t]; [cbn in L; lia |]. apply (C 0%nat ltac:(cbn in L; lia)).
Qed.
Lemma transpose_back n m d : rect n m d -> TiModel.transpose n (TiModel.transpose m d) = d.
Proof.
  intros [L C]. pose proof (transpose_rect n m d L) as T. apply (rect_ext n m); [apply transpose_rect, T | split; assumption |]. intros i k I K.
  rewrite transpose_nth by (try exact I; rewrite (proj1 T); exact K). rewrite transpose_nth by (try exact K; rewrite L; exact I). reflexivity.
Qed.
Lemma concat_length_zero n m (d : list (list R)) : rect n m d -> (length (concat d) =? 0)%nat = ((n =? 0) || (m =? 0))%nat.
Proof.
  intros [L C]. destruct n as [| n].
  - destruct d; [reflexivity | cbn in L; lia].
  - cbn [Nat.eqb orb]. destruct (Nat.eqb_spec m 0) as [-> | M].
    + apply Nat.eqb_eq. assert (A : forall r, In r d -> r = []). { intros r I. apply (In_nth _ _ []) in I. destruct I as (i & I & <-). specialize (C i ltac:(lia)). destruct (nth i d []); [reflexivity | cbn in C; lia]. }
      clear L C. induction d as [| r t IH]; [reflexivity |]. cbn. rewrite (A r (or_introl eq_refl)). cbn. apply IH. intros x I. apply A. right. exact I.
    + apply Nat.eqb_neq. destruct d as [| r t]; [cbn in L; lia |]. specialize (C 0%nat ltac:(cbn in L; lia)). cbn in C. cbn. rewrite app_length. lia.
Qed.
(** C192: whichever way round the matrix is given, as long as it is not square, the panel works on the same data. *)
Lemma c192_orientation lin rank sortd n m d o : rect n m d -> (0 < n)%nat -> (0 < m)%nat -> n <> m -> ao_type o = TAuto \/ ao_type o = TBits ->
  m_adcpanel lin rank sortd (TiModel.transpose m d) o = m_adcpanel lin rank sortd d o.
Proof.
  intros RD N M NM T. unfold m_adcpanel. destruct (a_bad o); [reflexivity |]. cbn [raise_if]. assert (E : a_data (ao_type o) (TiModel.transpose m d) = a_data (ao_type o) d); [| rewrite E; reflexivity].
  pose proof (transpose_rect n m d (proj1 RD)) as RT. pose proof (rect_ncols _ _ _ RD N) as C1. pose proof (rect_ncols _ _ _ RT M) as C2.
  pose proof (transpose_back n m d RD) as TB. pose proof (proj1 RD) as L1. pose proof (proj1 RT) as L2.
  assert (U : a_upright (TiModel.transpose m d) = a_upright d). { unfold a_upright. rewrite C1, C2, L1, L2, TB. destruct (Nat.ltb_spec m n), (Nat.ltb_spec n m); try lia; reflexivity. }
  unfold a_data. rewrite (concat_length_zero _ _ _ RD), (concat_length_zero _ _ _ RT), orb_comm. destruct (_ || _)%bool; [reflexivity |]. cbn [raise_if]. destruct T as [-> | ->].
  - rewrite U, C1, C2, L1, L2, TB. destruct (Nat.eqb_spec m 1), (Nat.eqb_spec n 1); subst; try lia; reflexivity.
  - rewrite U. reflexivity.
Qed.
(** C192: what counts as what.  A vector is a waveform and a matrix is bits unless the caller says otherwise; with 'values' the
    columns are waveforms. *)
Lemma c192_types n m d : rect n m d -> (0 < n)%nat -> (0 < m)%nat ->
  (n = 1%nat \/ m = 1%nat -> exists v, a_data TAuto d = Ok (TValues, map (fun x => [x]) v) /\ concat d = v) /\
  ((1 < m <= n)%nat -> a_data TAuto d = Ok (TBits, d) /\ a_data TBits d = Ok (TBits, d)) /\
  ((1 < n < m)%nat -> a_data TAuto d = Ok (TBits, TiModel.transpose m d) /\ a_data TBits d = Ok (TBits, TiModel.transpose m d)) /\
  ((1 < n)%nat -> a_data TValues d = Ok (TValues, d)) /\ a_data TUnknown d = Ok (TUnknown, d).
Proof.
  intros RD N M. pose proof (rect_ncols _ _ _ RD N) as C1. pose proof (proj1 RD) as L1. pose proof (transpose_rect n m d L1) as RT. pose proof (rect_ncols _ _ _ RT M) as C2. pose proof (proj1 RT) as L2.
  assert (Z : (length (concat d) =? 0)%nat = false). { rewrite (concat_length_zero _ _ _ RD). destruct (Nat.eqb_spec n 0), (Nat.eqb_spec m 0); try lia; reflexivity. }
  unfold a_data. rewrite Z. cbn [raise_if]. split; [| split; [| split; [| split]]].
  - intros H. exists (concat d). split; [| reflexivity]. rewrite L1, C1. destruct (Nat.eqb_spec n 1) as [-> | N1].
    + destruct d as [| r [| ]]; try discriminate. cbn [concat]. rewrite app_nil_r. unfold ncols in C1. cbn in C1. do 2 f_equal. unfold TiModel.transpose. cbn [map]. apply (nth_ext _ _ [] []); [rewrite !map_length, seq_length; lia |].
      intros i I. rewrite map_length, seq_length in I. rewrite (nth_map_in _ _ _ 0%nat) by (rewrite seq_length; exact I). rewrite seq_nth by exact I. rewrite (nth_map_in _ _ _ 0) by lia. reflexivity.
    + destruct H as [H | ->]; [lia |]. rewrite Nat.eqb_refl. do 2 f_equal. destruct RD as [_ C]. clear - C L1. subst n. revert C. induction d as [| r t IH]; intros C; [reflexivity |]. pose proof (C 0%nat ltac:(cbn; lia)) as L. cbn in L. destruct r as [| x [| ]]; try discriminate. cbn. f_equal. apply IH. intros i I. apply (C (S i)). cbn. lia.
  - intros H. rewrite L1, C1. assert (U : a_upright d = d). { unfold a_upright. rewrite L1, C1. destruct (Nat.ltb_spec n m); [lia | reflexivity]. } rewrite U, C1. destruct (Nat.eqb_spec n 1), (Nat.eqb_spec m 1); try lia. split; reflexivity.
  - intros H. rewrite L1, C1. assert (U : a_upright d = TiModel.transpose m d). { unfold a_upright. rewrite L1, C1. destruct (Nat.ltb_spec n m); [reflexivity | lia]. } rewrite U, C2. destruct (Nat.eqb_spec n 1), (Nat.eqb_spec m 1); try lia. split; reflexivity.
  - intros H. rewrite L1. destruct (Nat.eqb_spec n 1); [lia |]. reflexivity.
  - reflexivity.
Qed.
(** C192: codes in a vector, row or column, come out as the bits of C192. *)
Lemma c192_codes codes rows : (0 < length codes)%nat -> a_decompose codes = Ok rows -> a_data TBits [codes] = Ok (TBits, rows) /\ a_data TBits (map (fun x => [x]) codes) = Ok (TBits, rows).
Proof.
  intros L E.
  assert (TC : TiModel.transpose (length codes) [codes] = map (fun x => [x]) codes).
  { unfold TiModel.transpose. cbn [map]. apply (nth_ext _ _ [] []); [rewrite !map_length, seq_length; lia |]. intros i I. rewrite map_length, seq_length in I. rewrite (nth_map_in _ _ _ 0%nat) by (rewrite seq_length; exact I). rewrite seq_nth by exact I. rewrite (nth_map_in _ _ _ 0) by lia. reflexivity. }
  assert (FC : map (fun r => nth 0 r 0) (map (fun x => [x]) codes) = codes) by (rewrite map_map; cbn; apply map_id).
  assert (NC : ncols (map (fun x => [x]) codes) = 1%nat) by (destruct codes; [cbn in L; lia | reflexivity]).
  assert (UC : a_upright (map (fun x => [x]) codes) = map (fun x => [x]) codes). { unfold a_upright. rewrite NC, map_length. destruct (Nat.ltb_spec (length codes) 1); [lia | reflexivity]. }
  assert (UR : a_upright [codes] = map (fun x => [x]) codes). { unfold a_upright. cbn [length]. change (ncols [codes]) with (length codes). destruct (Nat.ltb_spec 1 (length codes)); [exact TC |]. destruct codes as [| a [| ]]; cbn in L, H; try lia. reflexivity. }
  unfold a_data. split.
  - cbn [concat]. rewrite app_nil_r. destruct (Nat.eqb_spec (length codes) 0); [lia |]. cbn [raise_if]. rewrite UR, NC, Nat.eqb_refl, FC, E. reflexivity.
  - rewrite (concat_length_zero (length codes) 1); [| split; [apply map_length | intros i I; rewrite (nth_map_in _ _ _ 0) by exact I; reflexivity]]. destruct (Nat.eqb_spec (length codes) 0); [lia |]. cbn [orb Nat.eqb raise_if]. rewrite UC, NC. cbn [Nat.eqb]. rewrite FC, E. reflexivity.
Qed.
(** C192: the overflow check reads the bits as unsigned, so of signed codes it reports those next to zero as the ends of the range:
    none of these codes is -4 or 3, and a quarter of them each is said to be at the bottom and at the top. *)
Lemma c192_overflow_refuted : exists codes rows y, (forall v, In v codes -> (-4 < v < 3)%Z) /\ a_decompose (map IZR codes) = Ok rows /\ bit_rows 3 rows /\
  m_bitchk rows [4; 2; 1] None = Ok y /\ nth 0 y (0, 0, 0, 0) = (0, 1, 25, 25).
Proof.
  exists [-3; -1; 0; 2]%Z, [[1; 0; 1]; [1; 1; 1]; [0; 0; 0]; [0; 1; 0]]. eexists. split; [intros v [<- | [<- | [<- | [<- | []]]]]; lia |]. split; [| split; [| split; [reflexivity |]]].
  - unfold a_decompose. rewrite whole_codes, floor_codes. cbn [raise_if]. change (zmin_list [-3; -1; 0; 2]%Z) with (-3)%Z. change (zmax_list [-3; -1; 0; 2]%Z) with 2%Z.
    assert (NB : a_nbits (-3) 2 = 3%Z). { unfold a_nbits. cbn [Z.leb Z.ltb Z.opp Z.compare Z.add Pos.add Pos.succ]. rewrite !log2_is by lia. reflexivity. } rewrite NB. reflexivity.
  - intros r [<- | [<- | [<- | [<- | []]]]]; (split; [reflexivity |]); cbn; intros b; intuition (subst; auto).
  - cbv [Nat.ltb Nat.leb length nth seq map skipn dot lsum hd tl lmin1 lmax1 count filter fold_right].
    repeat match goal with |- context [Rleb ?a ?b] => destruct (Rleb_spec a b); try lra end. cbn [length]. change (INR 4) with (1 + 1 + 1 + 1). change (INR 1) with 1.
    repeat match goal with |- context [Rmin ?a ?b] => first [rewrite (Rmin_left a b) by lra | rewrite (Rmin_right a b) by lra] end.
    repeat match goal with |- context [Rmax ?a ?b] => first [rewrite (Rmax_left a b) by lra | rewrite (Rmax_right a b) by lra] end. list_eq; lra.
Qed.

(** ** Calibrated weights *)
Lemma half_opts : 0 < 0.5 < 1 /\ 0 < 1 / 10 ^ 12.
Proof.
  split; [lra |]. apply Rdiv_lt_0_compat; [lra | apply pow_lt; lra].
Qed.
Lemma calibrate_inv lin rank d fin harm mx b : a_calibrate lin rank d fin harm mx = Ok (Some b) ->
  exists c radix sca er s, m_wcalsin lin rank (a_matrix d) fin 0.5 (1 / 10 ^ 12) 100 (IZR harm) false true true [] = Ok (Some c) /\
    let w := map (mc_weight c) (seq 0 (ncols d)) in m_plotwgt w = Ok (radix, sca, er) /\ s = match mx with None => sca | Some m => m / lsum w end /\
    (mx <> None -> lsum w <> 0) /\ ab_effres b = er /\ ab_weights b = map (fun x => x * s) w /\ ab_offset b = mc_offset c * s /\ ab_freq b = nth 0 (mc_freq c) 0 /\
    ab_postcal b = map (fun row => dot row (ab_weights b)) d /\ ab_max b = match mx with None => lsum (map Rabs w) * sca | Some m => m end.
Proof.
  unfold a_calibrate. destruct (m_wcalsin _ _ _ _ _ _ _ _ _ _ _ _) as [[c |] | e]; cbn [bind]; try discriminate. set (w := map (mc_weight c) (seq 0 (ncols d))). destruct (m_plotwgt w) as [[[radix sca] er] | e] eqn:PW; cbn [bind]; [| discriminate]. intros H.
  exists c, radix, sca, er. apply Ok_inj in H. destruct mx as [m |].
  - destruct (Reqb_spec (lsum w) 0); [discriminate |]. injection H as <-. exists (m / lsum w). split; [reflexivity |]. cbv zeta. fold w. repeat split; try reflexivity; try assumption. intros _. assumption.
  - injection H as <-. exists sca. split; [reflexivity |]. cbv zeta. fold w. repeat split; try reflexivity; try assumption. intros N. congruence.
Qed.
Lemma seq_sum n f : lsum (map f (seq 0 n)) = rsum n f.
Proof.
  rewrite lsum_rsum, map_length, seq_length. apply rsum_ext. intros i I. rewrite (nth_map_in _ _ _ 0%nat) by (rewrite seq_length; exact I). rewrite seq_nth by exact I. reflexivity.
Qed.
Lemma lsum_times s w : lsum (map (fun x => x * s) w) = lsum w * s.
Proof.
  induction w as [| x t IH]; cbn; [ring |]. rewrite IH. ring.
Qed.
Lemma lsum_abs_times s w : 0 <= s -> lsum (map Rabs (map (fun x => x * s) w)) = lsum (map Rabs w) * s.
Proof.
  intros S. rewrite map_map. induction w as [| x t IH]; cbn; [ring |]. rewrite IH, Rabs_mult, (Rabs_right s) by lra. ring.
Qed.
(** C193: a maximum code that is given is the sum of the weights reported. *)
Lemma c193_given lin rank d fin harm m b : a_calibrate lin rank d fin harm (Some m) = Ok (Some b) -> lsum (ab_weights b) = m /\ ab_max b = m.
Proof.
  intros H. destruct (calibrate_inv _ _ _ _ _ _ _ H) as (c & radix & sca & er & s & _ & _ & S & NZ & _ & W & _ & _ & _ & M). specialize (NZ ltac:(discriminate)). cbv zeta in *. rewrite W, lsum_times, S. split; [field; exact NZ | exact M].
Qed.
(** C193: without one it is the sum of their magnitudes (weights other than zero). *)
Lemma c193_auto lin rank d fin harm b : a_calibrate lin rank d fin harm None = Ok (Some b) -> (0 < ncols d)%nat -> (forall x, In x (ab_weights b) -> x <> 0) ->
  lsum (map Rabs (ab_weights b)) = ab_max b /\ 0 < ab_max b.
Proof.
  intros H C NZ. destruct (calibrate_inv _ _ _ _ _ _ _ H) as (c & radix & sca & er & s & _ & P & S & _ & _ & W & _ & _ & _ & M). cbv zeta in *. set (w := map (mc_weight c) (seq 0 (ncols d))) in *. subst s.
  assert (NW : forall x, In x w -> x <> 0). { intros x I E. subst x. apply (NZ (0 * sca)); [rewrite W; apply (in_map (fun x => x * sca)); exact I | ring]. }
  assert (WN : w <> []) by (unfold w; destruct (ncols d); [lia | discriminate]). 
  destruct (c177_scale w _ _ radix sca er P NW (sig_of w WN)) as (SP & _). rewrite W, lsum_abs_times by lra. rewrite M. split; [reflexivity |]. apply Rmult_lt_0_compat; [| exact SP].
  destruct w as [| x t]; [contradiction |]. cbn. assert (0 < Rabs x) by (apply Rabs_pos_lt, NW; left; reflexivity). assert (0 <= lsum (map Rabs t)) by (apply lsum_nonneg, Forall_forall; intros y I; apply in_map_iff in I; destruct I as (z & <- & _); apply Rabs_pos). lra.
Qed.
(** C193: the values analysed are wcalsin's calibrated values times the factor that also scales weights and offset; the offset is
    not taken off. *)
Lemma c193_postcal lin rank n m d fin harm mx b : rect n m d -> (0 < m <= n)%nat -> a_calibrate lin rank d fin harm mx = Ok (Some b) ->
  exists c set s, m_wcalsin lin rank (a_matrix d) fin 0.5 (1 / 10 ^ 12) 100 (IZR harm) false true true [] = Ok (Some c) /\ mc_sets c = [set] /\ mc_freq c = [ab_freq b] /\
    length (ab_weights b) = m /\ (forall j, (j < m)%nat -> nth j (ab_weights b) 0 = s * mc_weight c j) /\ ab_offset b = s * mc_offset c /\
    length (ab_postcal b) = n /\ (forall i, (i < n)%nat -> nth i (ab_postcal b) 0 = s * ms_postcal set i /\ nth i (ab_postcal b) 0 - ab_offset b = s * (ms_ideal set i + ms_err set i)).
Proof.
  intros RD NM H. destruct (calibrate_inv _ _ _ _ _ _ _ H) as (c & radix & sca & er & s & E & P & S & _ & _ & W & O & F & PC & _). cbv zeta in *. clear P S. pose proof (rect_ncols _ _ _ RD ltac:(lia)) as C. destruct RD as [L RL].
  destruct (c174_invariants _ _ _ _ _ _ _ _ _ _ _ _ _ E) as (set0 & f & ca & sb & MS & MF & _ & MP & MI & _ & ME & _).
  assert (MO : McalModel.m_orient true (a_matrix d) = a_matrix d). { unfold McalModel.m_orient, a_matrix. cbn [m_n m_m andb]. rewrite L, C. destruct (Nat.ltb_spec n m); [lia | reflexivity]. } rewrite MO in MP.
  exists c, set0, s. split; [exact E |]. split; [exact MS |]. rewrite MF in F. cbn in F. rewrite F. split; [exact MF |]. rewrite C in W.
  assert (LW : length (ab_weights b) = m) by (rewrite W, !map_length, seq_length; reflexivity). split; [exact LW |].
  assert (WJ : forall j, (j < m)%nat -> nth j (ab_weights b) 0 = s * mc_weight c j). { intros j J. rewrite W. rewrite (nth_map_in _ _ _ 0) by (rewrite map_length, seq_length; exact J). rewrite (nth_map_in _ _ _ 0%nat) by (rewrite seq_length; exact J). rewrite seq_nth by exact J. cbn. ring. }
  split; [exact WJ |]. split; [rewrite O; ring |]. split; [rewrite PC, map_length; exact L |]. intros i I.
  assert (PI : nth i (ab_postcal b) 0 = s * ms_postcal set0 i).
  { rewrite PC. rewrite (nth_map_in _ _ _ []) by lia. rewrite dot_rsum by (rewrite (RL i I); symmetry; exact LW). rewrite (RL i I), MP. unfold output, a_matrix. cbn [m_m m_at]. rewrite C, <- rsum_scale. apply rsum_ext. intros j J. rewrite WJ by exact J. ring. }
  split; [exact PI |]. rewrite PI, O, ME. ring.
Qed.
(** C193: bits that are 0 or 1 with weights that are not negative give values between 0 and the maximum code. *)
Lemma bits_dot_range row w : length row = length w -> (forall b, In b row -> b = 0 \/ b = 1) -> (forall x, In x w -> 0 <= x) -> 0 <= dot row w <= lsum w.
Proof.
  revert w. induction row as [| b t IH]; intros [| x w]; cbn; intros L B W; try discriminate; [lra |]. destruct (IH w ltac:(lia)) as [A1 A2]; [intros; apply B; right; assumption | intros; apply W; right; assumption |].
  pose proof (W x (or_introl eq_refl)). destruct (B b (or_introl eq_refl)) as [-> | ->]; lra.
Qed.
Lemma c193_range lin rank n m d fin harm mx b : rect n m d -> (0 < m <= n)%nat -> bit_rows m d -> a_calibrate lin rank d fin harm mx = Ok (Some b) -> (forall x, In x (ab_weights b) -> 0 < x) ->
  forall v, In v (ab_postcal b) -> 0 <= v <= ab_max b.
Proof.
  intros RD NM BR H WP v V. pose proof (rect_ncols _ _ _ RD ltac:(lia)) as C.
  assert (M : ab_max b = lsum (ab_weights b)).
  { destruct mx as [mc |]; [destruct (c193_given _ _ _ _ _ _ _ H) as [-> ->]; reflexivity |]. destruct (c193_auto _ _ _ _ _ _ H ltac:(lia)) as [<- _]; [intros x I; specialize (WP x I); lra |].
    f_equal. rewrite <- (map_id (ab_weights b)) at 2. apply map_ext_in. intros x I. specialize (WP x I). apply Rabs_right. lra. }
  rewrite M. destruct (c193_postcal _ _ _ _ _ _ _ _ _ RD NM H) as (_ & _ & _ & _ & _ & _ & LW & _). destruct (calibrate_inv _ _ _ _ _ _ _ H) as (? & ? & ? & ? & ? & _ & _ & _ & _ & _ & _ & _ & _ & PC & _). rewrite PC in V. apply in_map_iff in V. destruct V as (row & <- & I).
  destruct (BR row I) as [L B]. apply bits_dot_range; [congruence | exact B | intros y Y; left; apply WP, Y].
Qed.
(** C193: of any two values the difference is at most the maximum code when none was given. *)
Lemma bits_dot_span r1 r2 w : length r1 = length w -> length r2 = length w -> (forall b, In b r1 -> b = 0 \/ b = 1) -> (forall b, In b r2 -> b = 0 \/ b = 1) -> dot r1 w - dot r2 w <= lsum (map Rabs w).
Proof.
  revert r1 r2. induction w as [| x w IH]; intros [| a r1] [| b r2]; cbn; intros L1 L2 B1 B2; try discriminate; [lra |]. specialize (IH r1 r2 ltac:(lia) ltac:(lia) (fun y I => B1 y (or_intror I)) (fun y I => B2 y (or_intror I))).
  pose proof (Rle_abs x). pose proof (Rabs_pos x). pose proof (Rle_abs (- x)) as N. rewrite Rabs_Ropp in N. destruct (B1 a (or_introl eq_refl)) as [-> | ->], (B2 b (or_introl eq_refl)) as [-> | ->]; lra.
Qed.
Lemma c193_span lin rank n m d fin harm b : rect n m d -> (0 < m <= n)%nat -> bit_rows m d -> a_calibrate lin rank d fin harm None = Ok (Some b) -> (forall x, In x (ab_weights b) -> x <> 0) ->
  forall u v, In u (ab_postcal b) -> In v (ab_postcal b) -> Rabs (u - v) <= ab_max b.
Proof.
  intros RD NM BR H WP u v U V. pose proof (rect_ncols _ _ _ RD ltac:(lia)) as C. destruct (c193_auto _ _ _ _ _ _ H ltac:(lia) WP) as [<- _].
  destruct (c193_postcal _ _ _ _ _ _ _ _ _ RD NM H) as (_ & _ & _ & _ & _ & _ & LW & _). destruct (calibrate_inv _ _ _ _ _ _ _ H) as (? & ? & ? & ? & ? & _ & _ & _ & _ & _ & _ & _ & _ & PC & _). rewrite PC in U, V. apply in_map_iff in U, V. destruct U as (r1 & <- & I1). destruct V as (r2 & <- & I2).
  destruct (BR r1 I1) as [L1 B1]. destruct (BR r2 I2) as [L2 B2]. apply Rabs_le. pose proof (bits_dot_span r1 r2 (ab_weights b) ltac:(congruence) ltac:(congruence) B1 B2). pose proof (bits_dot_span r2 r1 (ab_weights b) ltac:(congruence) ltac:(congruence) B2 B1). lra.
Qed.
(** C193: at a known frequency the true weights come back, scaled to the maximum code, whatever the sign of their sum. *)
Lemma c193_recovers lin rank n m d fin harm mc w off a b0 : least_squares lin -> rank_correct rank -> rect n m d -> (0 < m <= n)%nat -> 0 < fin -> (1 <= harm)%Z ->
  true_weights (a_matrix d) (Z.to_nat harm) fin w off a b0 -> identifiable (a_matrix d) (Z.to_nat harm) fin w off a b0 -> a 0%nat <> 0 \/ b0 0%nat <> 0 -> rsum m w <> 0 ->
  exists b, a_calibrate lin rank d fin harm (Some mc) = Ok (Some b) /\ ab_freq b = fin /\ ab_max b = mc /\ length (ab_weights b) = m /\
    (forall j, (j < m)%nat -> nth j (ab_weights b) 0 = w j * (mc / rsum m w)) /\ ab_offset b = off * (mc / rsum m w) /\
    (forall t, (t < n)%nat -> nth t (ab_postcal b) 0 = tone (Z.to_nat harm) off a b0 fin t * (mc / rsum m w)).
Proof.
  intros LS RC RD NM F HP T ID NZ SZ. pose proof (rect_ncols _ _ _ RD ltac:(lia)) as C. pose proof (proj1 RD) as L. destruct half_opts as [O1 O2].
  assert (MO : m_order (IZR harm) = Z.to_nat harm). { unfold m_order, m_round. destruct (Rleb_spec 0 (IZR harm)) as [Q | Q]; [| apply (IZR_le 1) in HP; lra]. f_equal. rewrite (Zfloor_imp harm); [lia |]. rewrite plus_IZR. lra. }
  destruct (c174_recovers lin rank (a_matrix d) fin 0.5 (1 / 10 ^ 12) 100 (IZR harm) true true [] w off a b0 LS RC F O1 O2 ltac:(lia)) as (c & set0 & s & E & MS & MF & S1 & _ & _ & WJ & OF & PT).
  { apply (IZR_le 1) in HP. lra. } { unfold a_matrix. cbn [m_n m_m]. lia. } { rewrite MO. exact T. } { rewrite MO. exact ID. } { exact NZ. }
  rewrite MO in PT. unfold a_matrix in WJ, PT at 1. cbn [m_m m_n] in WJ, PT. rewrite C in WJ. rewrite L in PT. set (A := amplitude (a 0%nat) (b0 0%nat)) in *.
  assert (AP : A <> 0). { unfold A, amplitude. intros Q. apply sqrt_eq_0 in Q; [| nra]. destruct NZ as [Z | Z]; apply Z; nra. }
  set (v := map (mc_weight c) (seq 0 (ncols d))). assert (SV : lsum v = s * rsum m w / A). { unfold v. rewrite C, seq_sum. unfold Rdiv. rewrite (Rmult_comm (s * _)), <- Rmult_assoc, <- rsum_scale. apply rsum_ext. intros j J. rewrite WJ by exact J. unfold Rdiv. ring. }
  assert (SN : s <> 0) by (destruct S1; lra). assert (VN : lsum v <> 0). { rewrite SV. unfold Rdiv. repeat apply Rmult_integral_contrapositive_currified; try assumption. apply Rinv_neq_0_compat, AP. }
  assert (VL : length v = m) by (unfold v; rewrite map_length, seq_length; exact C). assert (VE : v <> []) by (intros Q; rewrite Q in VL; cbn in VL; lia).
  unfold a_calibrate. rewrite E. cbn [bind]. fold v. rewrite (plotwgt_inv v VE). cbn [bind]. destruct (Reqb_spec (lsum v) 0); [contradiction |]. eexists. split; [reflexivity |]. cbn [ab_freq ab_max ab_weights ab_offset ab_postcal]. rewrite MF. cbn [nth].
  split; [reflexivity |]. split; [reflexivity |]. split; [rewrite map_length; exact VL |].
  assert (WW : forall j, (j < m)%nat -> nth j (map (fun x => x * (mc / lsum v)) v) 0 = w j * (mc / rsum m w)). { intros j J. rewrite (nth_map_in _ _ _ 0) by lia. unfold v at 1. rewrite (nth_map_in _ _ _ 0%nat) by (rewrite seq_length; lia). rewrite seq_nth by lia. cbn [Nat.add]. rewrite WJ by exact J. rewrite SV. field. repeat split; assumption. }
  split; [exact WW |]. split; [rewrite OF, SV; field; repeat split; assumption |]. intros t TT. rewrite (nth_map_in _ _ _ []) by lia. rewrite dot_rsum by (rewrite map_length, VL; apply (proj2 RD), TT). rewrite (proj2 RD t TT).
  rewrite <- (T t ltac:(unfold a_matrix; cbn [m_n]; lia)). unfold output, a_matrix. cbn [m_m m_at]. rewrite C. rewrite Rmult_comm, <- rsum_scale. apply rsum_ext. intros j J. rewrite WW by exact J. ring.
Qed.
(** C193: a maximum code that is given is not the range where a weight is negative: here the values reach twice the maximum. *)
Definition signed_rows : list (list R) := [[1; 0]; [1; 1]; [0; 0]; [1; 1]].
Definition signed_w : vec := fun j => nth j [2; -1] 0.
Lemma signed_true : true_weights (a_matrix signed_rows) 1 (1 / 4) signed_w 1 (fun _ => 1) (fun _ => 0).
Proof.
  intros t T. cbn in T. rewrite quarter_tone. unfold output, qcos, qsin, signed_w. do 4 (destruct t as [| t]; [cbn; lra |]). lia.
Qed.
Lemma signed_identifiable : identifiable (a_matrix signed_rows) 1 (1 / 4) signed_w 1 (fun _ => 1) (fun _ => 0).
Proof.
  intros u o c s E. assert (F : forall t, (t < 4)%nat -> output (a_matrix signed_rows) u t = o + c 0%nat * qcos t + s 0%nat * qsin t) by (intros t T; rewrite <- quarter_tone; apply E; exact T). clear E.
  unfold output, qcos, qsin in F. pose proof (F 0%nat ltac:(lia)) as F0. pose proof (F 1%nat ltac:(lia)) as F1. pose proof (F 2%nat ltac:(lia)) as F2. pose proof (F 3%nat ltac:(lia)) as F3. clear F. cbn in F0, F1, F2, F3.
  exists (c 0%nat). unfold signed_w. repeat split.
  - intros j J. cbn in J. destruct j as [| [| j]]; [cbn; lra | cbn; lra | lia].
  - lra.
  - intros h Hh. replace h with 0%nat by lia. lra.
  - intros h Hh. replace h with 0%nat by lia. lra.
Qed.
Lemma signed_rect : rect 4 2 signed_rows.
Proof.
  split; [reflexivity |]. intros i I. do 4 (destruct i as [| i]; [reflexivity |]). lia.
Qed.
Lemma c193_range_refuted : exists d m b, bit_rows 2 d /\ 0 < m /\ a_calibrate gs_lstsq gs_rank d (1 / 4) 1 (Some m) = Ok (Some b) /\ In (2 * m) (ab_postcal b) /\ ab_max b = m.
Proof.
  destruct (c193_recovers gs_lstsq gs_rank 4 2 signed_rows (1 / 4) 1 255 signed_w 1 (fun _ => 1) (fun _ => 0) gs_least_squares gs_rank_correct signed_rect) as (b & E & _ & M & _ & W & _ & PT); try (exact signed_true || exact signed_identifiable || lra || lia || (left; lra)).
  { cbn. lra. }
  exists signed_rows, 255, b. split; [intros r [<- | [<- | [<- | [<- | []]]]]; (split; [reflexivity |]); cbn; intros x; intuition (subst; auto) |]. split; [lra |]. split; [exact E |]. split; [| exact M].
  specialize (PT 0%nat ltac:(lia)). change (Z.to_nat 1) with 1%nat in PT. rewrite quarter_tone in PT. cbn in PT. replace (2 * 255) with (nth 0 (ab_postcal b) 0) by (rewrite PT; field). apply nth_In.
  destruct (c193_postcal _ _ 4 2 _ _ _ _ _ signed_rect ltac:(lia) E) as (_ & _ & _ & _ & _ & _ & _ & _ & _ & L & _). lia.
Qed.

(** ** The time-domain tile *)
Lemma low_high (l : list R) : l <> [] -> (forall v, In v l -> lmin1 (hd 0 l) l <= v <= lmax1 (hd 0 l) l) /\ In (lmin1 (hd 0 l) l) l /\ In (lmax1 (hd 0 l) l) l.
Proof.
  intros N. destruct l as [| x t]; [congruence |]. cbn [hd]. split; [| split].
  - intros v V. split; [apply lmin1_le, V | apply lmax1_ge, V].
  - destruct (lmin1_in x (x :: t)) as [E | E]; [left; exact E | exact E].
  - destruct (lmax1_in x (x :: t)) as [E | E]; [left; exact E | exact E].
Qed.
Definition constant (l : list R) : Prop := forall u v, In u l -> In v l -> u = v.
Lemma range_zero l : l <> [] -> (lmax1 (hd 0 l) l - lmin1 (hd 0 l) l <= 0 <-> constant l).
Proof.
  intros N. destruct (low_high l N) as (B & I1 & I2). split.
  - intros H u v U V. pose proof (B u U). pose proof (B v V). lra.
  - intros C. rewrite (C _ _ I2 I1). lra.
Qed.
Lemma half_big f h : a_half f = Some h -> 50 <= h.
Proof.
  unfold a_half. destruct (Rltb _ f); [destruct (Reqb _ _); [discriminate |] |]; intros E; injection E as <-; apply Rmax_r.
Qed.
Lemma round_near x : x - 1 / 2 <= IZR (m_round x) <= x + 1 / 2.
Proof.
  unfold m_round. destruct (Rleb_spec 0 x); [pose proof (Zfloor_lb (x + 1 / 2)); pose proof (Zfloor_ub (x + 1 / 2)); lra | pose proof (Zceil_ub (x - 1 / 2)); pose proof (Zceil_lb (x - 1 / 2)); lra].
Qed.
Definition a_window (N idx : nat) (f : R) : Z * Z :=
  match a_half f with
  | Some h => (Z.max 1 (m_round (INR idx - h)), Z.min (Z.of_nat N) (m_round (INR idx + h)))
  | None => (1%Z, Z.of_nat N)
  end.
Lemma window_bounds N idx f : (1 <= idx <= N)%nat -> (1 <= fst (a_window N idx f) <= Z.of_nat idx)%Z /\ (Z.of_nat idx <= snd (a_window N idx f) <= Z.of_nat N)%Z /\ ((2 <= N)%nat -> (fst (a_window N idx f) < snd (a_window N idx f))%Z).
Proof.
  intros I. unfold a_window. destruct (a_half f) as [h |] eqn:E; [| cbn; lia]. apply half_big in E. cbn [fst snd]. pose proof (round_near (INR idx - h)) as A. pose proof (round_near (INR idx + h)) as B. rewrite INR_IZR_INZ in A, B.
  assert (A' : (m_round (IZR (Z.of_nat idx) - h) < Z.of_nat idx - 48)%Z) by (apply lt_IZR; rewrite minus_IZR; lra). assert (B' : (Z.of_nat idx + 48 < m_round (IZR (Z.of_nat idx) + h))%Z) by (apply lt_IZR; rewrite plus_IZR; lra). rewrite INR_IZR_INZ. lia.
Qed.
Lemma timedomain_inv sig sine err f : length err = length sig -> sig <> [] ->
  (a_timedomain sig sine err f = Err RuntimeError /\ (constant sig \/ constant err)) \/
  (exists g, a_timedomain sig sine err f = Ok g /\ ~ constant sig /\ ~ constant err /\ at_idx g = S (argmax (map Rabs err)) /\ at_x g = a_window (length sig) (at_idx g) f /\
    at_sig g = a_curve sig /\ at_sine g = a_curve sine /\ at_err g = a_curve err /\
    let lo := lmin1 (hd 0 sig) sig in let hi := lmax1 (hd 0 sig) sig in let elo := lmin1 (hd 0 err) err in let ehi := lmax1 (hd 0 err) err in
    at_left g = (lo - (hi - lo) * 1.1, hi + (hi - lo) * 0.1) /\ at_right g = (elo - (ehi - elo) * 0.1, ehi + (ehi - elo) * 1.1)).
Proof.
  intros L N. assert (NE : err <> []) by (intros ->; destruct sig; [congruence | discriminate]). pose proof (range_zero sig N) as R1. pose proof (range_zero err NE) as R2. unfold a_timedomain. fold (a_window (length sig) (S (argmax (map Rabs err))) f).
  destruct (Rleb_spec (lmax1 (hd 0 sig) sig - lmin1 (hd 0 sig) sig) 0) as [Q | Q]; [left; split; [reflexivity | left; apply R1, Q] |].
  destruct (Rleb_spec (lmax1 (hd 0 err) err - lmin1 (hd 0 err) err) 0) as [Q' | Q']; [left; split; [reflexivity | right; apply R2, Q'] |].
  assert (C1 : ~ constant sig) by (rewrite <- R1; lra). assert (C2 : ~ constant err) by (rewrite <- R2; lra). cbn [orb].
  assert (L2 : (2 <= length sig)%nat). { destruct sig as [| x [| y t]]; [congruence | | cbn; lia]. exfalso. apply C1. intros u v [<- | []] [<- | []]. reflexivity. }
  assert (IX : (1 <= S (argmax (map Rabs err)) <= length sig)%nat). { destruct (argmax_spec (map Rabs err)) as (A & _); [intros E; apply map_eq_nil in E; contradiction |]. rewrite map_length in A. lia. }
  destruct (window_bounds _ _ f IX) as (_ & _ & W). specialize (W L2). destruct (Z.leb_spec (snd (a_window (length sig) (S (argmax (map Rabs err))) f)) (fst (a_window (length sig) (S (argmax (map Rabs err))) f))); [lia |]. cbn [raise_if].
  right. eexists. split; [reflexivity |]. cbn. repeat split; assumption.
Qed.
(** C195: the tile shows every sample of the record, the fitted sine and the error over the sample numbers from 1; its window is
    around the sample with the largest error, lies in the record and is not empty. *)
Lemma c195_window sig sine err f g : length err = length sig -> length sine = length sig -> sig <> [] -> a_timedomain sig sine err f = Ok g ->
  (forall t, (t < length sig)%nat -> nth t (at_sig g) (0, 0) = (INR (t + 1), nth t sig 0) /\ nth t (at_sine g) (0, 0) = (INR (t + 1), nth t sine 0) /\ nth t (at_err g) (0, 0) = (INR (t + 1), nth t err 0)) /\
  (1 <= at_idx g <= length sig)%nat /\ (forall t, (t < length sig)%nat -> Rabs (nth t err 0) <= Rabs (nth (at_idx g - 1) err 0)) /\
  (1 <= fst (at_x g) <= Z.of_nat (at_idx g))%Z /\ (Z.of_nat (at_idx g) <= snd (at_x g) <= Z.of_nat (length sig))%Z /\ (fst (at_x g) < snd (at_x g))%Z.
Proof.
  intros L LS N E. assert (NE : err <> []) by (intros ->; destruct sig; [congruence | discriminate]). destruct (timedomain_inv sig sine err f L N) as [(Q & _) | (g' & Q & NC & _ & I & X & A1 & A2 & A3 & _)]; rewrite Q in E; [discriminate |]. apply Ok_inj in E. subst g'.
  assert (CV : forall y t, (t < length y)%nat -> nth t (a_curve y) (0, 0) = (INR (t + 1), nth t y 0)). { intros y t T. unfold a_curve. rewrite combine_nth by (rewrite map_length, seq_length; reflexivity). rewrite (nth_map_in _ _ _ 0%nat) by (rewrite seq_length; exact T). rewrite seq_nth by exact T. reflexivity. }
  split; [intros t T; rewrite A1, A2, A3, !CV by lia; repeat split; reflexivity |].
  destruct (argmax_spec (map Rabs err)) as (B1 & B2 & _); [intros Z; apply map_eq_nil in Z; contradiction |]. rewrite map_length in B1. assert (IX : (1 <= at_idx g <= length sig)%nat) by (rewrite I; lia). split; [exact IX |]. split.
  - intros t T. rewrite I. cbn [Nat.sub]. rewrite Nat.sub_0_r. specialize (B2 t). rewrite map_length in B2. specialize (B2 ltac:(lia)). rewrite !(nth_map_in Rabs err _ 0) in B2 by lia. exact B2.
  - rewrite X. destruct (window_bounds (length sig) (at_idx g) f IX) as (W1 & W2 & W3). split; [exact W1 |]. split; [exact W2 |]. apply W3. destruct sig as [| x [| y t]]; [congruence | | cbn; lia]. exfalso. apply NC. intros u v [<- | []] [<- | []]. reflexivity.
Qed.
(** C195: the record is drawn in the upper half of the tile and the error in the lower half. *)
Lemma c195_halves sig sine err f g : length err = length sig -> sig <> [] -> a_timedomain sig sine err f = Ok g ->
  (forall v, In v sig -> 1 / 2 <= height (at_left g) v <= 21 / 22) /\ (forall v, In v err -> 1 / 22 <= height (at_right g) v <= 1 / 2).
Proof.
  intros L N E. assert (NE : err <> []) by (intros ->; destruct sig; [congruence | discriminate]). destruct (timedomain_inv sig sine err f L N) as [(Q & _) | (g' & Q & NC & NC' & _ & _ & _ & _ & _ & A & B)]; rewrite Q in E; [discriminate |]. apply Ok_inj in E. subst g'.
  assert (R1 := range_zero sig N). assert (R2 := range_zero err NE). destruct (low_high sig N) as (B1 & _). destruct (low_high err NE) as (B2 & _). rewrite <- R1 in NC. rewrite <- R2 in NC'. apply Rnot_le_lt in NC, NC'. unfold height. rewrite A, B. cbn [fst snd].
  set (lo := lmin1 (hd 0 sig) sig) in *. set (hi := lmax1 (hd 0 sig) sig) in *. set (elo := lmin1 (hd 0 err) err) in *. set (ehi := lmax1 (hd 0 err) err) in *.
  split; intros v V.
  - specialize (B1 v V). replace (hi + (hi - lo) * 0.1 - (lo - (hi - lo) * 1.1)) with (2.2 * (hi - lo)) by lra. split; [apply Rmult_le_reg_r with (2.2 * (hi - lo)) | apply Rmult_le_reg_r with (2.2 * (hi - lo))]; try lra; unfold Rdiv; rewrite !Rmult_assoc, Rinv_l by lra; lra.
  - specialize (B2 v V). replace (ehi + (ehi - elo) * 1.1 - (elo - (ehi - elo) * 0.1)) with (2.2 * (ehi - elo)) by lra. split; [apply Rmult_le_reg_r with (2.2 * (ehi - elo)) | apply Rmult_le_reg_r with (2.2 * (ehi - elo))]; try lra; unfold Rdiv; rewrite !Rmult_assoc, Rinv_l by lra; lra.
Qed.
(** C195: the window reaches one and a half periods to either side, a period being 1/f up to a quarter of the sampling rate and
    1/(1/2 - f) above, or 50 samples where that is more. *)
Lemma c195_cycles sig sine err f g : length err = length sig -> sig <> [] -> 0 < f < 1 / 2 -> a_timedomain sig sine err f = Ok g ->
  let p := if Rle_dec f (1 / 4) then 1 / f else 1 / (1 / 2 - f) in
  (forall t : Z, (1 <= t <= Z.of_nat (length sig))%Z -> Rabs (IZR t - INR (at_idx g)) <= Rmax (3 / 2 * p - 3 / 4) 50 - 1 / 2 -> (fst (at_x g) <= t <= snd (at_x g))%Z) /\
  (forall t : Z, (fst (at_x g) <= t <= snd (at_x g))%Z -> Rabs (IZR t - INR (at_idx g)) <= Rmax (3 / 2 * p + 3 / 4) 50 + 1 / 2).
Proof.
  intros L N F E p. destruct (timedomain_inv sig sine err f L N) as [(Q & _) | (g' & Q & _ & _ & I & X & _)]; rewrite Q in E; [discriminate |]. apply Ok_inj in E. subst g'. rewrite X. clear Q X.
  assert (NE : err <> []) by (intros ->; destruct sig; [congruence | discriminate]). assert (IX : (1 <= at_idx g <= length sig)%nat). { destruct (argmax_spec (map Rabs err)) as (A & _); [intros Z; apply map_eq_nil in Z; contradiction |]. rewrite map_length in A. lia. }
  assert (H : a_half f = Some (Rmax (1.5 * IZR (m_round p)) 50)). { unfold a_half, p. destruct (Rltb_spec (1 / 4) f), (Rle_dec f (1 / 4)); try lra; [destruct (Reqb_spec f (1 / 2)); [lra |] |]; reflexivity. }
  unfold a_window. rewrite H. cbn [fst snd]. pose proof (round_near p) as RP. set (h := Rmax (1.5 * IZR (m_round p)) 50) in *. assert (H1 : h <= Rmax (3 / 2 * p + 3 / 4) 50) by (unfold h; apply Rmax_case; [eapply Rle_trans; [| apply Rmax_l]; lra | apply Rmax_r]). assert (H2 : Rmax (3 / 2 * p - 3 / 4) 50 <= h) by (unfold h; apply (Rmax_case (3 / 2 * p - 3 / 4)); [eapply Rle_trans; [| apply Rmax_l]; lra | apply Rmax_r]).
  pose proof (round_near (INR (at_idx g) - h)) as A. pose proof (round_near (INR (at_idx g) + h)) as B. split; intros t T.
  - intros D. apply Rabs_le_inv in D. assert (m_round (INR (at_idx g) - h) <= t)%Z by (apply le_IZR; lra). assert (t <= m_round (INR (at_idx g) + h))%Z by (apply le_IZR; lra). lia.
  - assert (C1 : IZR (m_round (INR (at_idx g) - h)) <= IZR t) by (apply IZR_le; lia). assert (C2 : IZR t <= IZR (m_round (INR (at_idx g) + h))) by (apply IZR_le; lia). apply Rabs_le. lra.
Qed.

(** ** The panel as a whole *)
Definition outcome {A : Type} (r : result A) : a_field A := match r with Ok a => Value a | Err _ => Failed end.
Definition col (y : list R) : list (list R) := map (fun x => [x]) y.
Lemma col_rect y : rect (length y) 1 (col y).
Proof. unfold col. split; [apply map_length |]. intros i I. rewrite (nth_map_in _ _ _ 0) by exact I. reflexivity. Qed.
Lemma col_first y : map (fun r => nth 0 r 0) (col y) = y.
Proof. unfold col. rewrite map_map. cbn. apply map_id. Qed.
Lemma col_transpose y : TiModel.transpose 1 (col y) = [y].
Proof. unfold TiModel.transpose, col. cbn. rewrite map_map. cbn. rewrite map_id. reflexivity. Qed.
Lemma concat_col y : concat (col y) = y.
Proof. unfold col. induction y as [| x t IH]; [reflexivity |]. cbn in *. rewrite IH. reflexivity. Qed.
Lemma col_data t y : y <> [] -> t = TAuto \/ t = TValues -> a_data t (col y) = Ok (TValues, col y).
Proof.
  intros N T. assert (L : (0 < length y)%nat) by (destruct y; [congruence | cbn; lia]). pose proof (col_rect y) as RC. pose proof (rect_ncols _ _ _ RC L) as C. unfold a_data. rewrite concat_col. destruct (Nat.eqb_spec (length y) 0); [lia |]. cbn [raise_if]. rewrite C, (proj1 RC).
  destruct T as [-> | ->].
  - destruct (Nat.eqb_spec (length y) 1) as [E | E]; [| reflexivity]. rewrite col_transpose. destruct y as [| x [| z t']]; try (cbn in E; lia). reflexivity.
  - rewrite andb_false_r. reflexivity.
Qed.
Lemma row_data t y : y <> [] -> t = TAuto \/ t = TValues -> a_data t [y] = Ok (TValues, col y).
Proof.
  intros N T. assert (L : (0 < length y)%nat) by (destruct y; [congruence | cbn; lia]). unfold a_data. cbn [concat]. rewrite app_nil_r. destruct (Nat.eqb_spec (length y) 0); [lia |]. cbn [raise_if]. change (length [y]) with 1%nat. change (ncols [y]) with (length y). cbn [Nat.eqb andb]. assert (E : TiModel.transpose (length y) [y] = col y). { rewrite <- (col_transpose y). apply (transpose_back (length y) 1). apply col_rect. }
  destruct T as [-> | ->]; [rewrite E; reflexivity |]. destruct (Nat.ltb_spec 1 (length y)); [rewrite E; reflexivity |]. destruct y as [| x [| z t]]; [congruence | reflexivity | cbn in *; lia].
Qed.
Lemma col_orient y : y <> [] -> MspecModel.m_orient (col y) = [y].
Proof.
  intros N. assert (L : (0 < length y)%nat) by (destruct y; [congruence | cbn; lia]). pose proof (col_rect y) as RC. unfold MspecModel.m_orient. rewrite (rect_ncols _ _ _ RC L), (proj1 RC). destruct (Nat.ltb_spec 1 (length y)) as [Q | Q]; cbn [andb Nat.eqb]; [| destruct y as [| x [| z t]]; [congruence | reflexivity | cbn in *; lia]].
  rewrite <- (col_transpose y). unfold CalModel.transpose, TiModel.transpose. reflexivity.
Qed.
Lemma col_spectrum y fs mc harm osr hann : y <> [] -> a_spectrum (col y) fs mc harm osr hann = a_spectrum [y] fs mc harm osr hann.
Proof. intros N. unfold a_spectrum, m_plotspec. rewrite col_orient by exact N. rewrite orient_single. reflexivity. Qed.
Lemma try_some {S A} (x : S) (f : S -> result A) : a_try (Some x) f = outcome (f x).
Proof. reflexivity. Qed.
(** What the fields are when the run on [s] has succeeded; the frequency the residual plots are told. *)
Definition told (d : a_field (option m_parts)) (fin : R) : option R :=
  match d with Value (Some q) => Some (mp_freq q) | Value None => (if Req_EM_T fin 0 then None else Some fin) | _ => Some fin end.
Lemma pipeline_ok lin sortd o s full N mc fin title ov bits t r : 0 <= fin -> a_pipeline_a lin sortd o (Some s) (Some full) N mc fin title ov bits t = Ok r ->
  let harm := m_round (ao_harm o) in
  ar_type r = t /\ ar_sine r = ao_sine o /\ ar_overflow r = ov /\ ar_bits r = bits /\
  ar_decomp r = outcome (m_tomdec lin s (Some fin) harm) /\
  ar_errphase r = match told (ar_decomp r) fin with Some f => outcome (m_errsin lin s 100 (Some f) false None (ao_osr o) (ao_hann o)) | None => Failed end /\
  ar_errvalue r = match told (ar_decomp r) fin with Some f => outcome (m_errsin lin s 100 (Some f) true None (ao_osr o) (ao_hann o)) | None => Failed end /\
  ar_spectrum r = outcome (a_spectrum full (ao_fs o) mc harm (ao_osr o) (ao_hann o)) /\
  ar_linearity r = outcome (a_inl s) /\ ar_osr r = outcome (m_perfosr lin sortd s [] (IZR harm) None) /\
  ar_fft r = (if ao_disp o then outcome (m_plotphase_fft full (Z.to_nat harm) (Some mc) (ao_fs o) (ao_osr o) 0 (if ao_hann o then MHann else MRect)) else Absent) /\
  ar_lms r = (if ao_disp o then outcome (m_plotphase_lms lin full harm (Some mc) (ao_fs o) (ao_osr o) 0 (if ao_hann o then MHann else MRect)) else Absent) /\
  (ar_few r = true <-> INR N < mc) /\ ar_wave r = None /\ ar_drawn r = ao_disp o /\ ar_title r = (if ao_disp o then Some title else None) /\
  (ar_time r <> None -> ao_disp o = true) /\
  (ao_disp o = true -> forall q, ar_decomp r = Value (Some q) -> 0 < mp_freq q -> exists g, ar_time r = Some g /\ a_timedomain s (mp_sine q) (mp_err q) (mp_freq q) = Ok g).
Proof.
  intros F H. unfold a_pipeline_a in H. rewrite !try_some in H. set (dec := outcome (m_tomdec lin s (Some fin) (m_round (ao_harm o)))) in *. cbv zeta in H.
  match type of H with bind ?ee _ = _ => destruct ee as [time | e] eqn:TE; cbn [bind] in H; [| discriminate] end. apply Ok_inj in H. subst r. cbn [ar_type ar_sine ar_overflow ar_bits ar_decomp ar_errphase ar_spectrum ar_errvalue ar_linearity ar_osr ar_fft ar_lms ar_few ar_time ar_wave ar_drawn ar_title].
  assert (TD : match dec with Value p => if Reqb fin 0 then match p with Some q => Some (mp_freq q) | None => None end else Some fin | _ => Some fin end = told dec fin).
  { unfold told. destruct dec as [| | | | [q |]] eqn:D; try reflexivity.
    - destruct (Reqb_spec fin 0) as [Z | Z]; [reflexivity |]. unfold dec, outcome in D. destruct (m_tomdec lin s (Some fin) _) as [p | e] eqn:T; [| discriminate]. injection D as ->. destruct (tomdec_inv _ _ _ _ _ T) as (_ & _ & FR). destruct (FR fin eq_refl ltac:(lra)) as [-> _]. reflexivity.
    - destruct (Reqb_spec fin 0), (Req_EM_T fin 0); try contradiction; reflexivity. }
  rewrite TD. repeat (split; [reflexivity |]).
  assert (EE : forall v, outcome (match told dec fin with Some f => m_errsin lin s 100 (Some f) v None (ao_osr o) (ao_hann o) | None => Err RuntimeError end) = match told dec fin with Some f => outcome (m_errsin lin s 100 (Some f) v None (ao_osr o) (ao_hann o)) | None => Failed end) by (intros v; destruct (told dec fin); reflexivity).
  split; [apply EE |]. split; [apply EE |]. repeat (split; [reflexivity |]). split; [destruct (Rltb_spec (INR N) mc); split; try discriminate; try lra; reflexivity |]. repeat (split; [reflexivity |]). split.
  - intros NZ. destruct (ao_disp o); [reflexivity |]. exfalso. apply NZ. destruct dec as [| | | | [q |]]; cbn [andb] in TE; apply Ok_inj in TE; congruence.
  - intros DI q DQ FQ. rewrite DQ in TE. rewrite DI in TE. destruct (Rltb_spec 0 (mp_freq q)); [| lra]. cbn [andb] in TE. destruct (a_timedomain s (mp_sine q) (mp_err q) (mp_freq q)) as [g | e]; cbn [bind] in TE; [| discriminate]. apply Ok_inj in TE. exists g. split; [congruence | reflexivity].
Qed.
Lemma pipeline_time lin sortd o s full N mc fin title ov bits t : s <> [] ->
  (exists e, a_pipeline_a lin sortd o (Some s) full N mc fin title ov bits t = Err e) <->
  ao_disp o = true /\ exists q, m_tomdec lin s (Some fin) (m_round (ao_harm o)) = Ok (Some q) /\ 0 < mp_freq q /\ (constant s \/ constant (mp_err q)).
Proof.
  intros NE. unfold a_pipeline_a. rewrite !try_some. cbv zeta. destruct (m_tomdec lin s (Some fin) (m_round (ao_harm o))) as [[q |] | e] eqn:T; cbn [outcome].
  - pose proof (c169_adds_up _ _ _ _ _ T) as (LS & LE & _). destruct (ao_disp o); cbn [andb].
    + destruct (Rltb_spec 0 (mp_freq q)) as [F | F].
      * destruct (timedomain_inv s (mp_sine q) (mp_err q) (mp_freq q) LE NE) as [(Q & C) | (g & Q & C1 & C2 & _)]; rewrite Q; cbn [bind].
        -- split; [intros _; split; [reflexivity |]; exists q; auto | intros _; eexists; reflexivity].
        -- split; [intros [e E]; discriminate |]. intros (_ & q' & Q' & _ & C). assert (EQ : q = q') by congruence. subst q'. destruct C; contradiction.
      * split; [intros [e E]; discriminate |]. intros (_ & q' & Q' & F' & _). assert (EQ : q = q') by congruence. subst q'. lra.
    + split; [intros [e E]; discriminate | intros [D _]; discriminate].
  - split; [intros [e E]; discriminate | intros (_ & q & Q & _); discriminate].
  - split; [intros [e' E]; discriminate | intros (_ & q & Q & _); discriminate].
Qed.
Lemma bad_fin o : a_bad o = false -> 0 < ao_osr o /\ 0 < ao_fs o /\ 0 < ao_harm o /\ 0 <= ao_fin o <= 1 / 2 /\ (forall m, ao_max o = Some m -> 0 < m).
Proof.
  unfold a_bad. intros B. apply orb_false_iff in B. destruct B as [B B6]. apply orb_false_iff in B. destruct B as [B B5]. apply orb_false_iff in B. destruct B as [B B4]. apply orb_false_iff in B. destruct B as [B B3]. apply orb_false_iff in B. destruct B as [B1 B2].
  revert B1 B2 B4 B5 B6. destruct (Rleb_spec (ao_osr o) 0), (Rleb_spec (ao_fs o) 0), (Rleb_spec (ao_harm o) 0), (Rltb_spec (ao_fin o) 0), (Rltb_spec (1 / 2) (ao_fin o)); try discriminate. intros _ _ _ _ _. repeat split; try lra. intros m E. rewrite E in B3. destruct (Rleb_spec m 0); [discriminate | lra].
Qed.
Lemma pipeline_quiet lin sortd o sig full N mc fin title ov bits t : ao_disp o = false -> exists r, a_pipeline_a lin sortd o sig full N mc fin title ov bits t = Ok r.
Proof. intros D. unfold a_pipeline_a. rewrite D. cbv zeta. destruct (a_try sig _) as [| | | | [q |]], sig; cbn [andb bind]; eexists; reflexivity. Qed.
(** C194: without a display the panel returns whatever becomes of the analyses, once the options and the data are accepted. *)
Lemma c194_graceful lin rank sortd dat o td : a_bad o = false -> a_data (ao_type o) dat = Ok td -> ao_disp o = false -> exists r, m_adcpanel lin rank sortd dat o = Ok r.
Proof.
  intros B E D. unfold m_adcpanel. rewrite B, E. cbn [raise_if bind]. destruct td as [t d]. cbv zeta. assert (Q := fun sig full N mc fin title ov bits t => pipeline_quiet lin sortd o sig full N mc fin title ov bits t D).
  destruct t; try (eexists; reflexivity).
  - destruct (a_calibrate _ _ _ _ _ _) as [[b |] | e]; [| eexists; reflexivity |]; match goal with |- exists r, bind (a_pipeline_a _ _ _ ?s ?f ?n ?m ?fi ?ti ?ov ?bi ?t) _ = Ok r => destruct (Q s f n m fi ti ov bi t) as [r ->]; eexists; reflexivity end.
  - destruct (ao_sine o); [| eexists; reflexivity]. match goal with |- exists r, bind (a_pipeline_a _ _ _ ?s ?f ?n ?m ?fi ?ti ?ov ?bi ?t) _ = Ok r => destruct (Q s f n m fi ti ov bi t) as [r ->]; eexists; reflexivity end.
Qed.
Definition the_max (o : a_opts) (y : list R) : R := match ao_max o with Some m => m | None => lmax1 (hd 0 y) y - lmin1 (hd 0 y) y end.
Lemma full_scale_list d : concat d <> [] -> m_full_scale d = lmax1 (hd 0 (concat d)) (concat d) - lmin1 (hd 0 (concat d)) (concat d).
Proof.
  unfold m_full_scale. destruct (concat d) as [| x l]; [congruence |]. intros _. cbn [hd]. assert (A : forall k, x <= fold_right Rmax x k) by (induction k as [| z k IH]; cbn; [lra | eapply Rle_trans; [exact IH | apply Rmax_r]]). assert (C : forall k, fold_right Rmin x k <= x) by (induction k as [| z k IH]; cbn; [lra | eapply Rle_trans; [apply Rmin_r | exact IH]]). unfold lmax1, lmin1. cbn. rewrite Rmax_right, Rmin_right by auto. reflexivity.
Qed.
Lemma panel_values lin rank sortd dat o d : a_bad o = false -> a_data (ao_type o) dat = Ok (TValues, d) -> concat d <> [] -> ao_sine o = true ->
  m_adcpanel lin rank sortd dat o = bind (a_pipeline_a lin sortd o (Some (map (fun r => nth 0 r 0) d)) (Some d) (length d) (the_max o (concat d)) (ao_fin o) (length d, None) Absent Absent TValues) (fun r => Ok (Some r)).
Proof. intros B E N S. unfold m_adcpanel, the_max. rewrite B, E. cbn [raise_if bind]. rewrite S, full_scale_list by exact N. reflexivity. Qed.
(** C194: with a display the panel of one waveform fails exactly when the fit succeeded and the waveform or the fit's error is constant:
    the limits of the time-domain tile would not increase. *)
Lemma c194_raises lin rank sortd y o : a_bad o = false -> y <> [] -> ao_type o = TAuto \/ ao_type o = TValues -> ao_sine o = true ->
  (exists e, m_adcpanel lin rank sortd (col y) o = Err e) <->
  ao_disp o = true /\ exists q, m_tomdec lin y (Some (ao_fin o)) (m_round (ao_harm o)) = Ok (Some q) /\ 0 < mp_freq q /\ (constant y \/ constant (mp_err q)).
Proof.
  intros B N T S. rewrite (panel_values _ _ _ _ _ (col y) B (col_data _ _ N T) ltac:(rewrite concat_col; exact N) S). rewrite col_first. rewrite <- (pipeline_time lin sortd o y (Some (col y)) (length (col y)) (the_max o (concat (col y))) (ao_fin o) (length (col y), None) Absent Absent TValues N).
  destruct (a_pipeline_a _ _ _ _ _ _ _ _ _ _ _ _) as [r | e]; cbn [bind]; split; intros [e' E]; try discriminate; eexists; reflexivity.
Qed.
(** C194: the panel of one waveform, given as a row or a column, holds what the analyses give when called on it. *)
Lemma c194_values lin rank sortd dat y o r : y <> [] -> dat = [y] \/ dat = col y -> ao_type o = TAuto \/ ao_type o = TValues -> ao_sine o = true -> m_adcpanel lin rank sortd dat o = Ok (Some r) ->
  let harm := m_round (ao_harm o) in let mc := the_max o y in let win := if ao_hann o then MHann else MRect in
  ar_type r = TValues /\ ar_sine r = true /\ ar_overflow r = Absent /\ ar_bits r = Absent /\
  ar_decomp r = outcome (m_tomdec lin y (Some (ao_fin o)) harm) /\
  (forall q, ar_decomp r = Value (Some q) -> ar_errphase r = outcome (m_errsin lin y 100 (Some (mp_freq q)) false None (ao_osr o) (ao_hann o)) /\ ar_errvalue r = outcome (m_errsin lin y 100 (Some (mp_freq q)) true None (ao_osr o) (ao_hann o))) /\
  ar_spectrum r = outcome (a_spectrum [y] (ao_fs o) mc harm (ao_osr o) (ao_hann o)) /\ ar_linearity r = outcome (a_inl y) /\ ar_osr r = outcome (m_perfosr lin sortd y [] (IZR harm) None) /\
  ar_fft r = (if ao_disp o then outcome (m_plotphase_fft (col y) (Z.to_nat harm) (Some mc) (ao_fs o) (ao_osr o) 0 win) else Absent) /\
  ar_lms r = (if ao_disp o then outcome (m_plotphase_lms lin (col y) harm (Some mc) (ao_fs o) (ao_osr o) 0 win) else Absent) /\
  (ar_few r = true <-> INR (length y) < mc) /\ ar_wave r = None /\ ar_drawn r = ao_disp o /\ ar_title r = (if ao_disp o then Some (length y, None) else None) /\
  (ao_disp o = false -> ar_time r = None) /\
  (ao_disp o = true -> forall q, ar_decomp r = Value (Some q) -> 0 < mp_freq q -> exists g, ar_time r = Some g /\ a_timedomain y (mp_sine q) (mp_err q) (mp_freq q) = Ok g).
Proof.
  intros N DAT T S H. assert (B : a_bad o = false) by (unfold m_adcpanel in H; destruct (a_bad o); [discriminate | reflexivity]). destruct (bad_fin o B) as (_ & _ & _ & F & _).
  assert (E : a_data (ao_type o) dat = Ok (TValues, col y)) by (destruct DAT as [-> | ->]; [apply row_data | apply col_data]; assumption).
  rewrite (panel_values _ _ _ _ _ (col y)) in H by (try assumption; rewrite concat_col; exact N). rewrite col_first, concat_col, (proj1 (col_rect y)) in H.
  destruct (a_pipeline_a _ _ _ _ _ _ _ _ _ _ _ _) as [r' | e] eqn:P; cbn [bind] in H; [| discriminate]. apply Ok_inj in H. injection H as ->. apply pipeline_ok in P; [| lra]. cbv zeta in P. destruct P as (P1 & P2 & P3 & P4 & P5 & P6 & P7 & P8 & P9 & P10 & P11 & P12 & P13 & P14 & P15 & P16 & P17 & P18). cbv zeta.
  rewrite col_spectrum in P8 by exact N. repeat (split; [first [assumption | congruence] |]). split.
  { intros q Q. rewrite Q in P6, P7. cbn [told] in P6, P7. split; assumption. }
  repeat (split; [assumption |]). split; [| exact P18]. intros D. destruct (ar_time r); [| reflexivity]. rewrite P17 in D; discriminate.
Qed.

Definition result_ok {A : Type} (r : result A) : bool := match r with Ok _ => true | Err _ => false end.
(** The fit of an exact sine leaves no error, also with harmonics, when they can be told apart. *)
Lemma exact_error lin y A f ph off order q : least_squares lin -> 0 < f -> is_record y (sine A f ph off) -> independent (harm_basis (length y) f (Z.to_nat order)) ->
  m_tomdec lin y (Some f) order = Ok (Some q) -> constant (mp_err q).
Proof.
  intros LS F RE IND T. pose proof (c169_adds_up _ _ _ _ _ T) as (_ & LE & _). destruct (tomdec_inv _ _ _ _ _ T) as (O & EP & FR). destruct (FR f eq_refl F) as [FP _]. rewrite FP in EP. clear T FR. set (o := Z.to_nat order) in *. assert (O1 : (1 <= o)%nat) by (unfold o; lia).
  set (n := length y) in *. set (V := lin (m_basis n f o) (fun i => nth i y 0)).
  set (X := fun j : nat => if (j =? 0)%nat then off else if (j =? 1)%nat then A * cos ph else if (j =? 2)%nat then - (A * sin ph) else 0).
  assert (MX : forall t, mv (harm_basis n f o) X t = sine A f ph off t).
  { intros t. rewrite basis_mv. destruct o as [| o']; [lia |]. rewrite (rsum_ext (S o') _ (fun h => if (h =? 0)%nat then A * cos ph * cos (2 * PI * f * INR t) - A * sin ph * sin (2 * PI * f * INR t) else 0)).
    2:{ intros h _. unfold X. destruct h as [| h]; [cbn [Nat.mul Nat.add Nat.eqb INR]; rewrite !Rmult_1_l; ring |]. destruct (Nat.eqb_spec (2 * S h + 1) 0); [lia |]. destruct (Nat.eqb_spec (2 * S h + 1) 1); [lia |]. destruct (Nat.eqb_spec (2 * S h + 1) 2); [lia |]. destruct (Nat.eqb_spec (2 * S h + 2) 0); [lia |]. destruct (Nat.eqb_spec (2 * S h + 2) 1); [lia |]. destruct (Nat.eqb_spec (2 * S h + 2) 2); [lia |]. cbn [Nat.eqb]. ring. }
    replace (S o') with (1 + o')%nat by lia. rewrite rsum_app. match goal with |- context [rsum o' ?g] => replace (rsum o' g) with 0 end; [| symmetry; rewrite (rsum_ext o' _ (fun _ => 0 * 0)); [rewrite (rsum_scale o' 0 (fun _ => 0)); ring | intros h _; cbn [Nat.add Nat.eqb]; ring]]. unfold X, sine. cbn [rsum Nat.eqb]. rewrite cos_plus. ring. }
  assert (FIT : forall t, (t < n)%nat -> mv (m_basis n f o) V t = nth t y 0). { apply (least_squares_exact lin (m_basis n f o) (fun i => nth i y 0) (to_mat o X) LS). intros t T'. cbn in T'. rewrite (RE t T'). rewrite <- MX. apply to_mat_mv. }
  assert (CO : forall j, (j < 2 * o + 1)%nat -> to_harm o V j = X j).
  { intros j J. apply Rminus_diag_uniq. apply (IND (fun j => to_harm o V j - X j)); [| exact J]. intros t T. change (m_n (harm_basis n f o)) with n in T. change (m_m (harm_basis n f o)) with (2 * o + 1)%nat.
    rewrite (rsum_ext _ _ (fun j => m_at (harm_basis n f o) t j * to_harm o V j - m_at (harm_basis n f o) t j * X j)) by (intros; ring). rewrite rsum_minus. pose proof (FIT t T) as Q. rewrite <- to_harm_mv in Q. pose proof (MX t) as Q2. unfold mv in Q, Q2. change (m_m (harm_basis n f o)) with (2 * o + 1)%nat in Q, Q2. rewrite (RE t T) in Q. lra. }
  pose proof (CO 0%nat ltac:(lia)) as C0. pose proof (CO (2 * 0 + 1)%nat ltac:(lia)) as C1. pose proof (CO (2 * 0 + 2)%nat ltac:(lia)) as C2. rewrite (proj1 (to_harm_at o V 0)) in C1. rewrite (proj2 (to_harm_at o V 0)) in C2. unfold to_harm, X in C0, C1, C2. cbn [Nat.eqb Nat.mul Nat.add] in C0, C1, C2. rewrite Nat.add_0_r in C2.
  assert (Z : forall t, (t < n)%nat -> nth t (mp_err q) 0 = 0).
  { intros t T. rewrite EP. unfold parts_of. cbn [mp_err]. fold n. fold V. rewrite nth_map2 by (rewrite ?map_length, ?seq_length; exact T). rewrite (nth_map_in _ _ _ 0%nat) by (rewrite seq_length; exact T). rewrite seq_nth by exact T. cbn [Nat.add]. unfold m_basis. cbn [m_at Nat.eqb]. destruct (Nat.leb_spec 1 o); [| lia]. destruct (Nat.leb_spec (S o) o); [lia |]. replace (S o - o)%nat with 1%nat by lia. cbn [INR]. rewrite (RE t T), C0, C1, C2. unfold sine. rewrite cos_plus. replace (INR t * f * 1 * 2 * PI) with (2 * PI * f * INR t) by ring. ring. }
  intros u v U V'. apply (In_nth _ _ 0) in U, V'. destruct U as (i & I & <-), V' as (j & J & <-). rewrite LE in I, J. rewrite !Z by assumption. reflexivity.
Qed.
(** C194: with a display, an exact sine of known frequency makes the panel fail. *)
Lemma c194_exact_sine lin rank sortd y A ph off o : least_squares lin -> a_bad o = false -> y <> [] -> ao_type o = TAuto \/ ao_type o = TValues -> ao_sine o = true -> ao_disp o = true -> 0 < ao_fin o -> 1 / 2 <= ao_harm o ->
  is_record y (sine A (ao_fin o) ph off) -> independent (harm_basis (length y) (ao_fin o) (Z.to_nat (m_round (ao_harm o)))) -> exists e, m_adcpanel lin rank sortd (col y) o = Err e.
Proof.
  intros LS B N T S D F H RE IND. apply c194_raises; try assumption. split; [exact D |]. destruct (bad_fin o B) as (_ & _ & _ & FB & _).
  assert (HP : (1 <= m_round (ao_harm o))%Z). { unfold m_round. destruct (Rleb_spec 0 (ao_harm o)); [| lra]. apply (le_IZR 1). pose proof (Zfloor_ub (ao_harm o + 1 / 2)) as U. assert (1 <= Zfloor (ao_harm o + 1 / 2))%Z by (apply Zfloor_lub; lra). apply IZR_le. assumption. }
  destruct (tomdec_given lin y (ao_fin o) (m_round (ao_harm o)) ltac:(lra) HP) as [q Q]. exists q. split; [exact Q |]. destruct (tomdec_inv _ _ _ _ _ Q) as (_ & _ & FR). destruct (FR _ eq_refl F) as [FE _]. split; [lra |]. right. eapply exact_error; eassumption.
Qed.
(** C194: bits are analysed as the calibrated waveform, at the frequency the calibration found, as a sine whatever 'signalType' says. *)
Lemma c194_bits lin rank sortd dat d o b r : a_data (ao_type o) dat = Ok (TBits, d) -> d <> [] -> a_calibrate lin rank d (ao_fin o) (m_round (ao_harm o)) (ao_max o) = Ok (Some b) -> 0 <= ab_freq b -> m_adcpanel lin rank sortd dat o = Ok (Some r) ->
  let harm := m_round (ao_harm o) in let y := ab_postcal b in
  ar_type r = TBits /\ ar_sine r = ao_sine o /\ ar_bits r = Value b /\ ar_overflow r = outcome (m_bitchk d (map (fun i => 2 ^ (ncols d - 1 - i)) (seq 0 (ncols d))) None) /\
  ar_decomp r = outcome (m_tomdec lin y (Some (ab_freq b)) harm) /\
  (forall q, ar_decomp r = Value (Some q) -> ar_errphase r = outcome (m_errsin lin y 100 (Some (mp_freq q)) false None (ao_osr o) (ao_hann o)) /\ ar_errvalue r = outcome (m_errsin lin y 100 (Some (mp_freq q)) true None (ao_osr o) (ao_hann o))) /\
  ar_spectrum r = outcome (a_spectrum [y] (ao_fs o) (ab_max b) harm (ao_osr o) (ao_hann o)) /\ ar_linearity r = outcome (a_inl y) /\ ar_osr r = outcome (m_perfosr lin sortd y [] (IZR harm) None) /\
  (ar_few r = true <-> INR (length d) < ab_max b) /\ ar_title r = (if ao_disp o then Some (length d, Some (ncols d)) else None).
Proof.
  intros E NE C F H. assert (B : a_bad o = false) by (unfold m_adcpanel in H; destruct (a_bad o); [discriminate | reflexivity]). unfold m_adcpanel in H. rewrite B, E in H. cbn [raise_if bind] in H. cbv zeta in H. rewrite C in H. fold (col (ab_postcal b)) in H.
  destruct (a_pipeline_a _ _ _ _ _ _ _ _ _ _ _ _) as [r' | e] eqn:P; cbn [bind] in H; [| discriminate]. apply Ok_inj in H. injection H as ->. apply pipeline_ok in P; [| exact F]. cbv zeta in P. destruct P as (P1 & P2 & P3 & P4 & P5 & P6 & P7 & P8 & P9 & P10 & P11 & P12 & P13 & P14 & P15 & P16 & P17 & P18). cbv zeta.
  assert (NP : ab_postcal b <> []). { destruct (calibrate_inv _ _ _ _ _ _ _ C) as (c & radix & sca & er & s & _ & Q). cbv zeta in Q. destruct Q as (_ & _ & _ & _ & _ & _ & _ & -> & _). destruct d; [congruence | discriminate]. }
  rewrite col_spectrum in P8 by exact NP. split; [exact P1 |]. split; [exact P2 |]. split; [exact P4 |]. split; [exact P3 |]. split; [exact P5 |]. split.
  { intros q Q. rewrite Q in P6, P7. cbn [told] in P6, P7. split; assumption. }
  repeat (split; [assumption |]). assumption.
Qed.
(** C194: when the calibration fails the panel still returns; every later analysis is reported as failed. *)
Lemma c194_bits_failed lin rank sortd dat d o e : a_bad o = false -> a_data (ao_type o) dat = Ok (TBits, d) -> a_calibrate lin rank d (ao_fin o) (m_round (ao_harm o)) (ao_max o) = Err e ->
  exists r, m_adcpanel lin rank sortd dat o = Ok (Some r) /\ ar_bits r = Failed /\ ar_decomp r = Failed /\ ar_errphase r = Failed /\ ar_errvalue r = Failed /\ ar_spectrum r = Failed /\ ar_linearity r = Failed /\ ar_osr r = Failed /\ ar_time r = None /\
    ar_overflow r = outcome (m_bitchk d (map (fun i => 2 ^ (ncols d - 1 - i)) (seq 0 (ncols d))) None).
Proof. intros B E C. unfold m_adcpanel. rewrite B, E. cbn [raise_if bind]. cbv zeta. rewrite C. unfold a_pipeline_a. cbn [a_try bind]. eexists. split; [reflexivity |]. repeat split. Qed.
(** C194: other signals get a spectrum only, whose numbers are not reported; it is drawn even when no display is wanted. *)
Lemma c194_other lin rank sortd dat d o : a_bad o = false -> a_data (ao_type o) dat = Ok (TValues, d) -> concat d <> [] -> ao_sine o = false ->
  exists r, m_adcpanel lin rank sortd dat o = Ok (Some r) /\ ar_type r = TValues /\ ar_sine r = false /\ ar_decomp r = Skipped /\ ar_errphase r = Skipped /\ ar_errvalue r = Skipped /\ ar_linearity r = Skipped /\ ar_osr r = Skipped /\ ar_fft r = Skipped /\ ar_lms r = Skipped /\
    ar_drawn r = true /\ ar_spectrum r = (if result_ok (a_spectrum d (ao_fs o) (the_max o (concat d)) 0 (ao_osr o) (ao_hann o)) then Nothing else Failed) /\
    ar_wave r = (if ao_disp o then Some (a_curve (map (fun r => nth 0 r 0) d)) else None) /\ ar_time r = None.
Proof.
  intros B E N S. unfold m_adcpanel. rewrite B, E. cbn [raise_if bind]. rewrite S. eexists. split; [reflexivity |]. unfold a_pipeline_b. cbn [ar_type ar_sine ar_overflow ar_bits ar_decomp ar_errphase ar_spectrum ar_errvalue ar_linearity ar_osr ar_fft ar_lms ar_few ar_time ar_wave ar_drawn ar_title]. rewrite full_scale_list by exact N. fold (the_max o (concat d)). repeat (split; [first [reflexivity | assumption] |]). split; [| split; reflexivity]. destruct (a_spectrum _ _ _ _ _ _); reflexivity.
Qed.
(** C194: a 'dataType' the panel does not know is not refused: nothing is analysed. *)
Lemma c194_unknown lin rank sortd dat o : a_bad o = false -> concat dat <> [] -> ao_type o = TUnknown ->
  exists r, m_adcpanel lin rank sortd dat o = Ok (Some r) /\ ar_type r = TUnknown /\ ar_decomp r = Absent /\ ar_errphase r = Absent /\ ar_errvalue r = Absent /\ ar_spectrum r = Absent /\ ar_linearity r = Absent /\ ar_osr r = Absent /\ ar_fft r = Absent /\ ar_lms r = Absent.
Proof.
  intros B N T. unfold m_adcpanel. rewrite B, T. cbn [raise_if]. unfold a_data. destruct (Nat.eqb_spec (length (concat dat)) 0) as [L | L]; [destruct (concat dat); [congruence | discriminate] |]. cbn [raise_if bind]. eexists. split; [reflexivity |]. repeat split.
Qed.

(** ** Several waveforms *)
(** C196: of several waveforms given as columns every analysis but the spectrum is of the first one. *)
Lemma c196_first lin rank sortd n m d o r : rect n m d -> (1 < n)%nat -> (0 < m)%nat -> ao_type o = TValues -> ao_sine o = true -> m_adcpanel lin rank sortd d o = Ok (Some r) ->
  exists y, length y = n /\ (forall t, (t < n)%nat -> nth t y 0 = nth 0 (nth t d []) 0) /\ ar_decomp r = outcome (m_tomdec lin y (Some (ao_fin o)) (m_round (ao_harm o))) /\
    ar_linearity r = outcome (a_inl y) /\ ar_osr r = outcome (m_perfosr lin sortd y [] (IZR (m_round (ao_harm o))) None) /\
    (forall q, ar_decomp r = Value (Some q) -> ar_errphase r = outcome (m_errsin lin y 100 (Some (mp_freq q)) false None (ao_osr o) (ao_hann o)) /\ ar_errvalue r = outcome (m_errsin lin y 100 (Some (mp_freq q)) true None (ao_osr o) (ao_hann o))) /\
    ar_spectrum r = outcome (a_spectrum d (ao_fs o) (the_max o (concat d)) (m_round (ao_harm o)) (ao_osr o) (ao_hann o)).
Proof.
  intros RD N M T S H. assert (B : a_bad o = false) by (unfold m_adcpanel in H; destruct (a_bad o); [discriminate | reflexivity]). destruct (bad_fin o B) as (_ & _ & _ & F & _). destruct (c192_types n m d RD ltac:(lia) M) as (_ & _ & _ & TV & _).
  assert (NE : concat d <> []). { intros Z. pose proof (concat_length_zero n m d RD) as Q. rewrite Z in Q. cbn [length Nat.eqb] in Q. destruct (Nat.eqb_spec n 0), (Nat.eqb_spec m 0); cbn in Q; congruence || lia. }
  rewrite (panel_values _ _ _ _ _ d B ltac:(rewrite T; apply TV; exact N) NE S) in H. destruct (a_pipeline_a _ _ _ _ _ _ _ _ _ _ _ _) as [r' | e] eqn:P; cbn [bind] in H; [| discriminate]. apply Ok_inj in H. injection H as ->. apply pipeline_ok in P; [| lra]. cbv zeta in P. destruct P as (P1 & P2 & P3 & P4 & P5 & P6 & P7 & P8 & P9 & P10 & _).
  exists (map (fun r => nth 0 r 0) d). split; [rewrite map_length; apply RD |]. split; [intros t I; rewrite (nth_map_in _ _ _ []) by (rewrite (proj1 RD); exact I); reflexivity |]. repeat (split; [assumption |]). split; [| exact P8]. intros q Q. rewrite Q in P6, P7. split; assumption.
Qed.
(** C196: the spectrum has as many bins as a run of as many samples as there are columns: plotspec takes the rows for runs, unless there
    is one column only. *)
Lemma c196_rows lin rank sortd n m d o r q : rect n m d -> (1 < n)%nat -> (0 < m)%nat -> ao_type o = TValues -> ao_sine o = true -> m_adcpanel lin rank sortd d o = Ok (Some r) -> ar_spectrum r = Value (Some q) ->
  length (ms_power q) = ((if (m =? 1)%nat then n else m) / 2 + 1)%nat.
Proof.
  intros RD N M T S H Q. destruct (c196_first _ _ _ _ _ _ _ _ RD N M T S H) as (y & _ & _ & _ & _ & _ & _ & SP). rewrite Q in SP. unfold outcome in SP. destruct (a_spectrum _ _ _ _ _ _) as [z | e] eqn:E; [| discriminate]. injection SP as <-. unfold a_spectrum, raise_if in E. destruct (Rleb _ 0); [discriminate |].
  assert (B : a_bad o = false) by (unfold m_adcpanel in H; destruct (a_bad o); [discriminate | reflexivity]). destruct (bad_fin o B) as (OS & _).
  destruct (plotspec_inv _ _ _ _ _ _ _ _ _ _ _ _ _ E) as (P0 & SPEC & ME). destruct (m_spectrum_props _ _ _ _ _ _ _ SPEC) as [LP _].
  assert (NC : ncols (MspecModel.m_orient d) = if (m =? 1)%nat then n else m).
  { unfold MspecModel.m_orient. rewrite (rect_ncols _ _ _ RD ltac:(lia)), (proj1 RD). destruct (Nat.eqb_spec m 1) as [-> | NM]; cbn [andb]; [| apply (rect_ncols _ _ _ RD); lia]. destruct (Nat.ltb_spec 1 n); [| lia]. unfold CalModel.transpose, ncols. cbn. rewrite map_length. apply RD. }
  rewrite NC in *. apply measure_fields in ME; [| apply m_inband_range; [destruct (m =? 1)%nat; lia | exact OS] | exact LP]. destruct ME as (gone & ME). cbv zeta in ME. destruct ME as (_ & -> & _). unfold m_cut. destruct (Rltb_spec 0 0); [lra |]. exact LP.
Qed.
(** Two columns: the spectrum has two bins, so the strongest one is never between others. *)
Lemma two_columns n d fs mc harm osr hann : rect n 2 d -> (0 < n)%nat -> 0 < mc -> 0 < osr -> (0 <= harm)%Z -> (exists i j, (i < n)%nat /\ (j < 2)%nat /\ nth j (nth i d []) 0 <> 0) -> exists q, a_spectrum d fs mc harm osr hann = Ok (Some q).
Proof.
  intros RD N MC OS HA (i & j & I & J & NZ). unfold a_spectrum. destruct (Rleb_spec mc 0); [lra |]. cbn [raise_if]. unfold m_plotspec. assert (OR : MspecModel.m_orient d = d) by (unfold MspecModel.m_orient; rewrite (rect_ncols _ _ _ RD N); reflexivity). rewrite OR. cbv zeta. rewrite (rect_ncols _ _ _ RD N).
  pose proof (m_inband_range 2 osr ltac:(lia) OS) as NB. set (w := m_window (if hann then MHann else MRect) 2). set (nb := m_inband 2 osr) in *.
  assert (HE : (length (m_heard mc w d) =? 0)%nat = false).
  { apply Nat.eqb_neq. unfold m_heard. rewrite map_length. intros Z. apply length_zero_iff_nil in Z. assert (A : In (nth i d []) (filter (fun r => negb (m_silent r)) d)); [| rewrite Z in A; exact A]. apply filter_In. split; [apply nth_In; rewrite (proj1 RD); exact I |]. apply negb_true_iff. unfold m_silent. apply not_true_iff_false. intros Q. rewrite forallb_forall in Q. specialize (Q (nth j (nth i d []) 0) ltac:(apply nth_In; rewrite (proj2 RD i I); exact J)). destruct (Reqb_spec (nth j (nth i d []) 0) 0); [contradiction | discriminate]. }
  assert (SP : exists x, m_spectrum false mc w 2 nb d = Some [0; x]). { unfold m_spectrum. cbv zeta. rewrite map_length, HE. eexists. cbn. unfold m_power_bin, m_nyquist. cbn [Nat.eqb Nat.even Nat.div andb]. reflexivity. }
  destruct SP as [x ->]. unfold m_measure. cbv zeta. unfold m_cut. destruct (Rltb_spec 0 0); [lra |].
  assert (PO : m_position [0; x] 2 (argmax (firstn nb [0; x])) = Some (INR (argmax (firstn nb [0; x])))).
  { unfold m_position. assert (L : nth (argmax (firstn nb [0; x]) - 1) [0; x] 0 = 0). { destruct (argmax_spec (firstn nb [0; x])) as (A & _); [destruct nb; [lia | discriminate] |]. rewrite firstn_length in A. cbn [length] in A. replace (Nat.sub (argmax (firstn nb [0; x])) 1) with 0%nat by lia. reflexivity. } rewrite L. destruct (Rltb_spec 0 0); [lra |]. rewrite andb_false_r. reflexivity. }
  rewrite PO. unfold m_harmonics. replace (Z.to_nat (- harm) <=? 1)%nat with true by (symmetry; apply Nat.leb_le; lia). cbn [bind Nat.leb]. eexists. reflexivity.
Qed.

(** ** Instances *)
Definition pan (t : a_type) (s : bool) (harm fin : R) (disp : bool) : a_opts := mkAopts t s 1 1 (Some 2) harm false fin disp.
Lemma pan_good t s harm fin disp : 0 < harm -> 0 <= fin <= 1 / 2 -> a_bad (pan t s harm fin disp) = false.
Proof. intros H F. unfold a_bad, pan. cbn [ao_osr ao_fs ao_max ao_harm ao_fin]. destruct (Rleb_spec 1 0), (Rleb_spec 2 0), (Rleb_spec harm 0), (Rltb_spec fin 0), (Rltb_spec (1 / 2) fin); try lra; reflexivity. Qed.
Definition eights : list R := map (sine 1 (INR 1 / INR 8) 0 0) (seq 0 8).
Lemma eights_record : is_record eights (sine 1 (INR 1 / INR 8) 0 0).
Proof. intros t T. unfold eights in *. rewrite map_length, seq_length in T. rewrite (nth_map_in _ _ _ 0%nat) by (rewrite seq_length; exact T). rewrite seq_nth by exact T. reflexivity. Qed.
Lemma round_nat k : m_round (INR k) = Z.of_nat k.
Proof. unfold m_round. destruct (Rleb_spec 0 (INR k)); [| pose proof (pos_INR k); lra]. apply Zfloor_imp. rewrite plus_IZR, <- INR_IZR_INZ. lra. Qed.
(** C194 is false with a display: a perfect record of eight samples of one period makes the whole panel fail. *)
Lemma c194_display_refuted : exists y o, a_bad o = false /\ (0 < length y)%nat /\ is_record y (sine 1 (ao_fin o) 0 0) /\ ao_type o = TAuto /\ ao_sine o = true /\
  forall lin rank sortd, least_squares lin -> exists e, m_adcpanel lin rank sortd (col y) o = Err e.
Proof.
  exists eights, (pan TAuto true (INR 2) (INR 1 / INR 8) true). assert (B : a_bad (pan TAuto true (INR 2) (INR 1 / INR 8) true) = false) by (apply pan_good; cbn; lra). split; [exact B |]. split; [cbn; lia |]. split; [exact eights_record |]. split; [reflexivity |]. split; [reflexivity |].
  intros lin rank sortd LS. apply (c194_exact_sine lin rank sortd eights 1 0 0); try assumption; try reflexivity; try (cbn; lra); [unfold eights; discriminate | left; reflexivity | exact eights_record |]. cbn [pan ao_fin ao_harm]. rewrite round_nat, Nat2Z.id. unfold eights. rewrite map_length, seq_length. apply c94_coherent_independent; cbn; lia.
Qed.
(** C194 is false of signals other than sines: without a display the spectrum is still drawn. *)
Lemma c194_silent_refuted : exists dat o, a_bad o = false /\ ao_disp o = false /\ forall lin rank sortd, exists r, m_adcpanel lin rank sortd dat o = Ok (Some r) /\ ar_drawn r = true.
Proof.
  exists (col [1; 2]), (pan TValues false 1 0 false). split; [apply pan_good; lra |]. split; [reflexivity |]. intros lin rank sortd. destruct (c194_other lin rank sortd (col [1; 2]) (col [1; 2]) (pan TValues false 1 0 false)) as (r & A & B); [apply pan_good; lra | apply col_data; [discriminate | right; reflexivity] | discriminate | reflexivity |]. exists r. split; [exact A | apply B].
Qed.
(** C195 is false of the tile's title: around 3 cycles are not shown; at a quarter of the sampling rate it is 25. *)
Lemma c195_cycles_refuted : exists sig sine err g, a_timedomain sig sine err (1 / 4) = Ok g /\ 25 <= (IZR (snd (at_x g)) - IZR (fst (at_x g))) * (1 / 4).
Proof.
  set (e := repeat 0 100 ++ 1 :: repeat 0 100). assert (LE : length e = 201%nat) by reflexivity. assert (NE : e <> []) by discriminate.
  assert (NC : ~ constant e). { intros C. specialize (C 0 1 ltac:(left; reflexivity) ltac:(unfold e; apply in_or_app; right; left; reflexivity)). lra. }
  assert (ZE : forall j, (j < 201)%nat -> j <> 100%nat -> nth j (map Rabs e) 0 = 0). { intros j J NJ. rewrite (nth_map_in Rabs e _ 0) by (rewrite LE; lia). replace (nth j e 0) with 0; [apply Rabs_R0 |]. symmetry. unfold e. destruct (Nat.lt_ge_cases j 100) as [Q | Q]; [rewrite app_nth1 by (rewrite repeat_length; exact Q); apply nth_repeat |]. rewrite app_nth2; rewrite repeat_length; [| exact Q]. destruct (j - 100)%nat as [| k] eqn:K; [lia |]. cbn [nth]. apply nth_repeat. }
  assert (ME : nth 100 (map Rabs e) 0 = 1). { rewrite (nth_map_in Rabs e _ 0) by (rewrite LE; lia). replace (nth 100 e 0) with 1 by reflexivity. apply Rabs_R1. }
  assert (AM : argmax (map Rabs e) = 100%nat). { apply argmax_unique; rewrite ?map_length, ?LE; [lia | |]; intros j J; rewrite ME; [destruct (Nat.eq_dec j 100) as [-> | NJ]; [lra | rewrite ZE by assumption; lra] | rewrite ZE by lia; lra]. }
  destruct (timedomain_inv e e e (1 / 4) eq_refl NE) as [(_ & [C | C]) | (g & Q & _ & _ & I & X & _)]; [contradiction | contradiction |]. exists e, e, e, g. split; [exact Q |]. rewrite X, I, AM, LE. unfold a_window, a_half. destruct (Rltb_spec (1 / 4) (1 / 4)); [lra |]. replace (1 / (1 / 4)) with (INR 4) by (cbn; lra). rewrite round_nat. replace (Rmax (1.5 * IZR (Z.of_nat 4)) 50) with 50 by (rewrite Rmax_right; [reflexivity | cbn; lra]). cbn [fst snd].
  replace (INR 101 - 50) with (INR 51) by (rewrite !INR_IZR_INZ; cbn; lra). replace (INR 101 + 50) with (INR 151) by (rewrite !INR_IZR_INZ; cbn; lra). rewrite !round_nat. cbn [fst snd]. replace (Z.max 1 (Z.of_nat 51)) with 51%Z by reflexivity. replace (Z.min (Z.of_nat 201) (Z.of_nat 151)) with 151%Z by reflexivity. lra.
Qed.
(** C196 is false of the spectrum: of two captures of eight samples, given as the two columns, it has two bins, not five. *)
Lemma c196_matrix_refuted : exists d o, rect 8 2 d /\ a_bad o = false /\ ao_type o = TValues /\ ao_sine o = true /\
  forall lin rank sortd, exists r q, m_adcpanel lin rank sortd d o = Ok (Some r) /\ ar_spectrum r = Value (Some q) /\ length (ms_power q) = 2%nat.
Proof.
  set (d := map (fun t => [sine 1 (1 / 8) 0 0 t; sine 1 (1 / 8) 0 0 t]) (seq 0 8)). set (o := pan TValues true 2 (1 / 8) false).
  assert (B : a_bad o = false) by (apply pan_good; lra). assert (RD : rect 8 2 d). { split; [reflexivity |]. intros i I. unfold d. rewrite (nth_map_in _ _ _ 0%nat) by (rewrite seq_length; exact I). reflexivity. }
  exists d, o. split; [exact RD |]. split; [exact B |]. split; [reflexivity |]. split; [reflexivity |]. intros lin rank sortd. assert (ED : a_data (ao_type o) d = Ok (TValues, d)) by reflexivity.
  assert (P : exists r, m_adcpanel lin rank sortd d o = Ok (Some r)). { rewrite (panel_values lin rank sortd d o d B ED ltac:(discriminate) eq_refl). match goal with |- exists r, bind (a_pipeline_a _ _ _ ?s ?f ?n ?m ?fi ?ti ?ov ?bi ?t) _ = _ => destruct (pipeline_quiet lin sortd o s f n m fi ti ov bi t eq_refl) as [r ->] end. eexists. reflexivity. }
  destruct P as [r P]. destruct (c196_first lin rank sortd 8 2 d o r RD ltac:(lia) ltac:(lia) eq_refl eq_refl P) as (y & _ & _ & _ & _ & _ & _ & SP).
  destruct (two_columns 8 d (ao_fs o) (the_max o (concat d)) (m_round (ao_harm o)) (ao_osr o) (ao_hann o) RD ltac:(lia)) as [q Q]; [cbn; lra | cbn; lra | change (ao_harm o) with (INR 2); rewrite round_nat; lia | |].
  { exists 0%nat, 0%nat. split; [lia |]. split; [lia |]. cbn [d map seq nth]. unfold sine. cbn [INR]. replace (2 * PI * (1 / 8) * 0 + 0) with 0 by ring. rewrite cos_0. lra. }
  exists r, q. rewrite Q in SP. cbn [outcome] in SP. split; [exact P |]. split; [exact SP |]. exact (c196_rows lin rank sortd 8 2 d o r q RD ltac:(lia) ltac:(lia) eq_refl eq_refl P SP).
Qed.

(** ** Examples *)
Example c192_unsigned_ex : exists rows, a_decompose [5; 0; 3] = Ok rows /\ bit_rows 3 rows /\ map binary rows = [5; 0; 3].
Proof.
  destruct (c192_unsigned [5; 0; 3]%Z) as (n & rows & E & (F1 & F2 & F3) & B & M); [discriminate | intros v [<- | [<- | [<- | []]]]; lia |]. assert (N3 : n = 3%nat). { apply Nat.le_antisymm; [apply F3; [lia | intros v [<- | [<- | [<- | []]]]; cbn; lia] |]. destruct n as [| [| [| n]]]; [lia | | | lia]; specialize (F2 5%Z ltac:(left; reflexivity)); cbn in F2; lia. }
  subst n. exists rows. repeat split; assumption || (apply B; assumption).
Qed.
Example c192_signed_ex : exists rows, a_decompose [-3; -1; 0; 2] = Ok rows /\ bit_rows 3 rows /\ map twos_complement rows = [-3; -1; 0; 2].
Proof.
  destruct (c192_signed [-3; -1; 0; 2]%Z) as (n & rows & E & (F1 & F2 & F3) & B & M); [exists (-3)%Z; split; [left; reflexivity | lia] |]. assert (N3 : n = 3%nat). { apply Nat.le_antisymm; [apply F3; [lia | intros v [<- | [<- | [<- | [<- | []]]]]; cbn; lia] |]. destruct n as [| [| [| n]]]; [lia | | | lia]; specialize (F2 (-3)%Z ltac:(left; reflexivity)); cbn in F2; lia. }
  subst n. exists rows. repeat split; assumption || (apply B; assumption).
Qed.
Example c192_whole_ex : ~ exists rows, a_decompose [1; 1 / 2] = Ok rows.
Proof.
  rewrite c192_whole. intros (z & Z). destruct z as [| a [| b t]]; try discriminate. injection Z as _ B _. assert (A : 0 < IZR b < 1) by lra. destruct A as [A1 A2]. apply (lt_IZR 0) in A1. apply (lt_IZR b 1) in A2. lia.
Qed.
Example c192_one_bit_ex : a_decompose [1; 0; 1] = Ok [[1]; [0]; [1]].
Proof. apply (c192_one_bit [1; 0; 1]); [discriminate | intros b [<- | [<- | [<- | []]]]; auto]. Qed.
Example c192_orientation_ex lin rank sortd o : ao_type o = TAuto -> m_adcpanel lin rank sortd [[1; 1; 0; 1]; [0; 1; 0; 1]] o = m_adcpanel lin rank sortd signed_rows o.
Proof. intros T. apply (c192_orientation lin rank sortd 4 2 signed_rows); [exact signed_rect | lia | lia | lia | left; exact T]. Qed.
Example c192_types_ex : a_data TAuto signed_rows = Ok (TBits, signed_rows) /\ a_data TValues signed_rows = Ok (TValues, signed_rows).
Proof. destruct (c192_types 4 2 signed_rows signed_rect ltac:(lia) ltac:(lia)) as (_ & A & _ & B & _). split; [apply A; lia | apply B; lia]. Qed.
Example c192_codes_ex : a_data TBits [[1; 0; 1]] = Ok (TBits, [[1]; [0]; [1]]).
Proof. apply (c192_codes [1; 0; 1]); [cbn; lia | exact c192_one_bit_ex]. Qed.

Lemma signed_bits : bit_rows 2 signed_rows.
Proof. intros r [<- | [<- | [<- | [<- | []]]]]; (split; [reflexivity |]); cbn; intros x; intuition (subst; auto). Qed.
Example c193_recovers_ex : exists b, a_calibrate gs_lstsq gs_rank signed_rows (1 / 4) 1 (Some 255) = Ok (Some b) /\ ab_weights b = [510; -255] /\ ab_offset b = 255 /\ ab_freq b = 1 / 4 /\ ab_postcal b = [510; 255; 0; 255].
Proof.
  destruct (c193_recovers gs_lstsq gs_rank 4 2 signed_rows (1 / 4) 1 255 signed_w 1 (fun _ => 1) (fun _ => 0) gs_least_squares gs_rank_correct signed_rect) as (b & E & F & M & L & W & O & PT); try (exact signed_true || exact signed_identifiable || lra || lia || (left; lra)); [cbn; lra |].
  exists b. split; [exact E |]. assert (WL : ab_weights b = [510; -255]). { apply (nth_ext _ _ 0 0); [exact L |]. intros j J. rewrite L in J. rewrite W by exact J. unfold signed_w. destruct j as [| [| j]]; [cbn; lra | cbn; lra | lia]. }
  split; [exact WL |]. split; [rewrite O; cbn; lra |]. split; [exact F |]. destruct (calibrate_inv _ _ _ _ _ _ _ E) as (c & radix & sca & er & s & _ & Q). cbv zeta in Q. destruct Q as (_ & _ & _ & _ & _ & _ & _ & PC & _). rewrite PC, WL. cbn. repeat (f_equal; try lra).
Qed.
Lemma without_maximum lin rank d fin harm m b : a_calibrate lin rank d fin harm (Some m) = Ok (Some b) -> (0 < ncols d)%nat -> (forall x, In x (ab_weights b) -> x <> 0) ->
  exists b' k, 0 < k /\ a_calibrate lin rank d fin harm None = Ok (Some b') /\ forall x, In x (ab_weights b') -> x <> 0.
Proof.
  intros H C NZ. destruct (calibrate_inv _ _ _ _ _ _ _ H) as (c & radix & sca & er & s & E & Q). cbv zeta in Q. destruct Q as (P & _ & _ & _ & W & _). set (w := map (mc_weight c) (seq 0 (ncols d))) in *.
  assert (NW : forall x, In x w -> x <> 0). { intros x I Z. subst x. apply (NZ (0 * s)); [rewrite W; apply (in_map (fun x => x * s)); exact I | ring]. } assert (WN : w <> []) by (unfold w; destruct (ncols d); [lia | discriminate]). destruct (c177_scale w _ _ radix sca er P NW (sig_of w WN)) as (SP & _).
  unfold a_calibrate. rewrite E. cbn [bind]. fold w. rewrite P. cbn [bind]. eexists. exists sca. split; [exact SP |]. split; [reflexivity |]. cbn [ab_weights]. intros x I. apply in_map_iff in I. destruct I as (z & <- & I). apply Rmult_integral_contrapositive_currified; [apply NW, I | lra].
Qed.
Lemma signed_auto : exists b, a_calibrate gs_lstsq gs_rank signed_rows (1 / 4) 1 None = Ok (Some b) /\ forall x, In x (ab_weights b) -> x <> 0.
Proof.
  destruct c193_recovers_ex as (b & E & W & _). destruct (without_maximum _ _ _ _ _ _ _ E ltac:(cbn; lia)) as (b' & k & _ & E' & N); [rewrite W; intros x [<- | [<- | []]]; lra |]. exists b'. split; assumption.
Qed.
Example c193_given_ex : exists b, a_calibrate gs_lstsq gs_rank signed_rows (1 / 4) 1 (Some 255) = Ok (Some b) /\ lsum (ab_weights b) = 255.
Proof. destruct c193_recovers_ex as (b & E & _). exists b. split; [exact E | apply (c193_given _ _ _ _ _ _ _ E)]. Qed.
Example c193_auto_ex : exists b, a_calibrate gs_lstsq gs_rank signed_rows (1 / 4) 1 None = Ok (Some b) /\ lsum (map Rabs (ab_weights b)) = ab_max b.
Proof. destruct signed_auto as (b & E & N). exists b. split; [exact E | apply (c193_auto _ _ _ _ _ _ E ltac:(cbn; lia) N)]. Qed.
Example c193_span_ex : exists b, a_calibrate gs_lstsq gs_rank signed_rows (1 / 4) 1 None = Ok (Some b) /\ forall u v, In u (ab_postcal b) -> In v (ab_postcal b) -> Rabs (u - v) <= ab_max b.
Proof. destruct signed_auto as (b & E & N). exists b. split; [exact E | apply (c193_span _ _ 4 2 _ _ _ _ signed_rect ltac:(lia) signed_bits E N)]. Qed.
Example c193_postcal_ex : exists b c s, a_calibrate gs_lstsq gs_rank signed_rows (1 / 4) 1 None = Ok (Some b) /\ nth 0 (ab_weights b) 0 = s * mc_weight c 0%nat /\ ab_offset b = s * mc_offset c.
Proof. destruct signed_auto as (b & E & N). destruct (c193_postcal _ _ 4 2 _ _ _ _ _ signed_rect ltac:(lia) E) as (c & st & s & _ & _ & _ & _ & W & O & _). exists b, c, s. split; [exact E |]. split; [apply W; lia | exact O]. Qed.
(** Bits of equal weights 1, 1 that follow 1 + cos. *)
Definition even_rows : list (list R) := [[1; 1]; [1; 0]; [0; 0]; [1; 0]].
Example c193_range_ex : exists d b, bit_rows 2 d /\ a_calibrate gs_lstsq gs_rank d (1 / 4) 1 (Some 255) = Ok (Some b) /\ forall v, In v (ab_postcal b) -> 0 <= v <= 255.
Proof.
  assert (RE : rect 4 2 even_rows) by (split; [reflexivity |]; intros i I; do 4 (destruct i as [| i]; [reflexivity |]); lia).
  assert (BE : bit_rows 2 even_rows) by (intros r [<- | [<- | [<- | [<- | []]]]]; (split; [reflexivity |]); cbn; intros x; intuition (subst; auto)).
  destruct (c193_recovers gs_lstsq gs_rank 4 2 even_rows (1 / 4) 1 255 (fun _ => 1) 1 (fun _ => 1) (fun _ => 0) gs_least_squares gs_rank_correct RE) as (b & E & F & M & L & W & O & PT); try (lra || lia || (left; lra)).
  { intros t T. cbn in T. rewrite quarter_tone. unfold output, qcos, qsin. do 4 (destruct t as [| t]; [cbn; lra |]). lia. }
  { intros u o c s E. assert (F : forall t, (t < 4)%nat -> output (a_matrix even_rows) u t = o + c 0%nat * qcos t + s 0%nat * qsin t) by (intros t T; rewrite <- quarter_tone; apply E; exact T). clear E.
    unfold output, qcos, qsin in F. pose proof (F 0%nat ltac:(lia)) as F0. pose proof (F 1%nat ltac:(lia)) as F1. pose proof (F 2%nat ltac:(lia)) as F2. pose proof (F 3%nat ltac:(lia)) as F3. clear F. cbn in F0, F1, F2, F3. exists (c 0%nat). repeat split.
    - intros j J. cbn in J. destruct j as [| [| j]]; [cbn; lra | cbn; lra | lia].
    - lra.
    - intros h Hh. replace h with 0%nat by lia. lra.
    - intros h Hh. replace h with 0%nat by lia. lra. }
  { cbn. lra. }
  exists even_rows, b. split; [exact BE |]. split; [exact E |]. intros v V. rewrite <- M. apply (c193_range _ _ 4 2 _ _ _ _ _ RE ltac:(lia) BE E); [| exact V]. intros x I. apply (In_nth _ _ 0) in I. destruct I as (j & J & <-). rewrite L in J. rewrite W by exact J. cbn. lra.
Qed.

Example c194_graceful_ex lin rank sortd : exists r, m_adcpanel lin rank sortd (col eights) (pan TAuto true 2 (1 / 8) false) = Ok r.
Proof. apply (c194_graceful lin rank sortd (col eights) _ (TValues, col eights)); [apply pan_good; lra | apply col_data; [discriminate | left; reflexivity] | reflexivity]. Qed.
(** A constant record of two samples. *)
Example c194_raises_ex lin rank sortd : exists e, m_adcpanel lin rank sortd (col [1; 1]) (pan TAuto true (INR 1) (1 / 8) true) = Err e.
Proof.
  apply c194_raises; [apply pan_good; cbn; lra | discriminate | left; reflexivity | reflexivity |]. split; [reflexivity |]. cbn [pan ao_fin ao_harm]. rewrite round_nat. destruct (tomdec_given lin [1; 1] (1 / 8) (Z.of_nat 1) ltac:(lra) ltac:(lia)) as [q Q]. exists q. split; [exact Q |]. destruct (tomdec_inv _ _ _ _ _ Q) as (_ & _ & F). destruct (F (1 / 8) eq_refl ltac:(lra)) as [-> _]. split; [lra |]. left. intros u v [<- | [<- | []]] [<- | [<- | []]]; reflexivity.
Qed.
Example c194_exact_sine_ex rank sortd : exists e, m_adcpanel gs_lstsq rank sortd (col eights) (pan TAuto true (INR 2) (INR 1 / INR 8) true) = Err e.
Proof.
  apply (c194_exact_sine gs_lstsq rank sortd eights 1 0 0); try exact gs_least_squares; try reflexivity; try (cbn; lra); [apply pan_good; cbn; lra | discriminate | left; reflexivity | exact eights_record |]. cbn [pan ao_fin ao_harm]. rewrite round_nat, Nat2Z.id. unfold eights. rewrite map_length, seq_length. apply c94_coherent_independent; cbn; lia.
Qed.
Example c194_values_ex lin rank sortd : exists r, m_adcpanel lin rank sortd [eights] (pan TAuto true 2 (1 / 8) false) = Ok (Some r) /\ ar_linearity r = outcome (a_inl eights) /\ ar_title r = None.
Proof.
  assert (P : exists r, m_adcpanel lin rank sortd [eights] (pan TAuto true 2 (1 / 8) false) = Ok (Some r)). { rewrite (panel_values lin rank sortd [eights] _ (col eights)); [| apply pan_good; lra | apply row_data; [discriminate | left; reflexivity] | discriminate | reflexivity]. match goal with |- exists r, bind (a_pipeline_a _ _ ?o ?s ?f ?n ?m ?fi ?ti ?ov ?bi ?t) _ = _ => destruct (pipeline_quiet lin sortd o s f n m fi ti ov bi t eq_refl) as [r ->] end. eexists. reflexivity. }
  destruct P as [r P]. exists r. split; [exact P |]. destruct (c194_values lin rank sortd [eights] eights (pan TAuto true 2 (1 / 8) false) r ltac:(discriminate) (or_introl eq_refl) (or_introl eq_refl) eq_refl P) as (_ & _ & _ & _ & _ & _ & _ & A & _ & _ & _ & _ & _ & _ & B & _). split; [exact A | exact B].
Qed.
Example c194_bits_ex sortd : exists r b, m_adcpanel gs_lstsq gs_rank sortd signed_rows (mkAopts TAuto false 1 1 (Some 255) (INR 1) false (1 / 4) false) = Ok (Some r) /\ ar_bits r = Value b /\ ar_linearity r = outcome (a_inl [510; 255; 0; 255]).
Proof.
  set (o := mkAopts TAuto false 1 1 (Some 255) (INR 1) false (1 / 4) false). assert (B : a_bad o = false). { unfold a_bad, o. cbn [ao_osr ao_fs ao_max ao_harm ao_fin INR]. destruct (Rleb_spec 1 0), (Rleb_spec 255 0), (Rltb_spec (1 / 4) 0), (Rltb_spec (1 / 2) (1 / 4)); try lra; reflexivity. }
  destruct c193_recovers_ex as (b & E & _ & _ & F & PC). assert (EC : a_calibrate gs_lstsq gs_rank signed_rows (ao_fin o) (m_round (ao_harm o)) (ao_max o) = Ok (Some b)) by (cbn [o ao_harm ao_fin ao_max]; rewrite round_nat; exact E).
  assert (P : exists r, m_adcpanel gs_lstsq gs_rank sortd signed_rows o = Ok (Some r)). { unfold m_adcpanel. rewrite B. change (a_data (ao_type o) signed_rows) with (a_data TAuto signed_rows). rewrite (proj1 c192_types_ex). cbn [raise_if bind]. cbv zeta. rewrite EC. match goal with |- exists r, bind (a_pipeline_a _ _ ?o ?s ?f ?n ?m ?fi ?ti ?ov ?bi ?t) _ = _ => destruct (pipeline_quiet gs_lstsq sortd o s f n m fi ti ov bi t eq_refl) as [r ->] end. eexists. reflexivity. }
  destruct P as [r P]. exists r, b. split; [exact P |]. destruct (c194_bits gs_lstsq gs_rank sortd signed_rows signed_rows o b r (proj1 c192_types_ex) ltac:(discriminate) EC ltac:(lra) P) as (_ & _ & A & _ & _ & _ & _ & L & _). split; [exact A | rewrite <- PC; exact L].
Qed.
(** Whatever made the calibration fail. *)
Example c194_bits_failed_ex lin rank sortd e : a_calibrate lin rank signed_rows (1 / 8) (m_round 2) (Some 2) = Err e -> exists r, m_adcpanel lin rank sortd signed_rows (pan TAuto true 2 (1 / 8) true) = Ok (Some r) /\ ar_spectrum r = Failed /\ ar_bits r = Failed.
Proof.
  intros E. destruct (c194_bits_failed lin rank sortd signed_rows signed_rows (pan TAuto true 2 (1 / 8) true) e) as (r & P & A & _ & _ & _ & S & _); [apply pan_good; lra | apply c192_types_ex | exact E |]. exists r. repeat split; assumption.
Qed.
Example c194_other_ex lin rank sortd : exists r, m_adcpanel lin rank sortd (col [1; 2]) (pan TAuto false 2 0 true) = Ok (Some r) /\ ar_decomp r = Skipped /\ ar_wave r = Some [(1, 1); (2, 2)].
Proof.
  destruct (c194_other lin rank sortd (col [1; 2]) (col [1; 2]) (pan TAuto false 2 0 true)) as (r & P & A); [apply pan_good; lra | apply col_data; [discriminate | left; reflexivity] | discriminate | reflexivity |]. exists r. split; [exact P |]. destruct A as (_ & _ & D & _ & _ & _ & _ & _ & _ & _ & _ & W & _). split; [exact D |]. rewrite W. cbn. reflexivity.
Qed.
Example c194_unknown_ex lin rank sortd : exists r, m_adcpanel lin rank sortd [[1; 2]] (pan TUnknown true 2 0 false) = Ok (Some r) /\ ar_spectrum r = Absent.
Proof. destruct (c194_unknown lin rank sortd [[1; 2]] (pan TUnknown true 2 0 false)) as (r & P & _ & _ & _ & _ & S & _); [apply pan_good; lra | discriminate | reflexivity |]. exists r. split; assumption. Qed.

Lemma small_tile : exists g, a_timedomain [0; 2; 1] [0; 1; 1] [0; 1; 0] (1 / 8) = Ok g.
Proof.
  destruct (timedomain_inv [0; 2; 1] [0; 1; 1] [0; 1; 0] (1 / 8) eq_refl ltac:(discriminate)) as [(_ & [C | C]) | (g & Q & _)]; [specialize (C 0 2 ltac:(cbn; auto) ltac:(cbn; auto)); lra | specialize (C 0 1 ltac:(cbn; auto) ltac:(cbn; auto)); lra | exists g; exact Q].
Qed.
Example c195_window_ex : exists g, a_timedomain [0; 2; 1] [0; 1; 1] [0; 1; 0] (1 / 8) = Ok g /\ at_idx g = 2%nat /\ nth 1 (at_sig g) (0, 0) = (2, 2).
Proof.
  destruct small_tile as [g Q]. exists g. split; [exact Q |]. destruct (c195_window [0; 2; 1] [0; 1; 1] [0; 1; 0] (1 / 8) g eq_refl eq_refl ltac:(discriminate) Q) as (A & B & C & _). split.
  - cbn [length] in B, C. destruct (at_idx g) as [| [| [| [| i]]]]; try lia; [specialize (C 1%nat ltac:(lia)) | specialize (C 1%nat ltac:(lia))]; cbn in C; rewrite Rabs_R0, Rabs_R1 in C; lra.
  - destruct (A 1%nat ltac:(cbn; lia)) as [-> _]. cbn. reflexivity.
Qed.
Example c195_halves_ex : exists g, a_timedomain [0; 2; 1] [0; 1; 1] [0; 1; 0] (1 / 8) = Ok g /\ 1 / 2 <= height (at_left g) 1 <= 21 / 22 /\ 1 / 22 <= height (at_right g) 1 <= 1 / 2.
Proof.
  destruct small_tile as [g Q]. exists g. split; [exact Q |]. destruct (c195_halves [0; 2; 1] [0; 1; 1] [0; 1; 0] (1 / 8) g eq_refl ltac:(discriminate) Q) as (A & B). split; [apply A | apply B]; cbn; auto.
Qed.
Example c195_cycles_ex : exists g, a_timedomain [0; 2; 1] [0; 1; 1] [0; 1; 0] (1 / 8) = Ok g /\ (fst (at_x g) <= 1 /\ 3 <= snd (at_x g))%Z.
Proof.
  destruct small_tile as [g Q]. exists g. split; [exact Q |]. destruct (c195_cycles [0; 2; 1] [0; 1; 1] [0; 1; 0] (1 / 8) g eq_refl ltac:(discriminate) ltac:(lra) Q) as (A & _). destruct (c195_window [0; 2; 1] [0; 1; 1] [0; 1; 0] (1 / 8) g eq_refl eq_refl ltac:(discriminate) Q) as (_ & B & _). cbn [length] in A, B.
  assert (D : forall t : Z, (1 <= t <= 3)%Z -> Rabs (IZR t - INR (at_idx g)) <= Rmax (3 / 2 * (if Rle_dec (1 / 8) (1 / 4) then 1 / (1 / 8) else 1 / (1 / 2 - 1 / 8)) - 3 / 4) 50 - 1 / 2).
  { intros t T. eapply Rle_trans; [| apply Rplus_le_compat_r; apply Rmax_r]. assert (1 <= IZR t <= 3) by (split; apply IZR_le; lia). assert (1 <= INR (at_idx g) <= 3) by (split; [apply (le_INR 1) | replace 3 with (INR 3) by (cbn; lra); apply le_INR]; lia). apply Rabs_le. lra. }
  pose proof (A 1%Z ltac:(lia) (D 1%Z ltac:(lia))). pose proof (A 3%Z ltac:(lia) (D 3%Z ltac:(lia))). lia.
Qed.
Example c196_first_ex lin rank sortd r : m_adcpanel lin rank sortd signed_rows (pan TValues true 2 (1 / 8) false) = Ok (Some r) -> ar_linearity r = outcome (a_inl [1; 1; 0; 1]).
Proof.
  intros H. destruct (c196_first lin rank sortd 4 2 signed_rows (pan TValues true 2 (1 / 8) false) r signed_rect ltac:(lia) ltac:(lia) eq_refl eq_refl H) as (y & L & Y & _ & E & _). replace [1; 1; 0; 1] with y; [exact E |]. apply (nth_ext _ _ 0 0); [exact L |]. intros t T. rewrite L in T. rewrite Y by exact T. do 4 (destruct t as [| t]; [reflexivity |]). lia.
Qed.
Example c196_rows_ex lin rank sortd r q : m_adcpanel lin rank sortd signed_rows (pan TValues true 2 (1 / 8) false) = Ok (Some r) -> ar_spectrum r = Value (Some q) -> length (ms_power q) = 2%nat.
Proof. intros H Q. exact (c196_rows lin rank sortd 4 2 signed_rows (pan TValues true 2 (1 / 8) false) r q signed_rect ltac:(lia) ltac:(lia) eq_refl eq_refl H Q). Qed.

(** The largest minus the smallest value of a list, or nothing for an empty one. *)
Definition spread (l : list R) (p : option R) : Prop := (l = [] /\ p = None) \/ exists lo hi, In lo l /\ In hi l /\ (forall x, In x l -> lo <= x <= hi) /\ p = Some (hi - lo).
(** The linearity of the panel is that of inlsin on the rounded samples with one percent left out at both ends; the two numbers it
    reports are the largest minus the smallest value, or nothing for an empty curve. *)
Lemma c194_linearity s r : a_inl s = Ok r -> m_inlsin (map (fun x => IZR (m_round x)) s) (1 / 100) = Ok (al_inl r, al_dnl r, al_code r) /\ spread (al_inl r) (al_inlpp r) /\ spread (al_dnl r) (al_dnlpp r).
Proof.
  unfold a_inl. replace 0.01 with (1 / 100) by lra. destruct (m_inlsin _ _) as [[[i d] code] | e]; cbn [bind]; [| discriminate]. intros E. injection E as <-. cbn [al_inl al_dnl al_code al_inlpp al_dnlpp]. split; [reflexivity |].
  assert (S : forall l, spread l (a_range l)). { intros [| x t]; [left; split; reflexivity |]. right. exists (lmin1 x t), (lmax1 x t). split; [apply lmin1_in |]. split; [apply lmax1_in |]. split; [| reflexivity]. intros y [<- | Y]; [split; [apply lmin1_le_init | apply lmax1_ge_init] | split; [apply lmin1_le, Y | apply lmax1_ge, Y]]. }
  split; apply S.
Qed.
(** The spectrum is plotspec with the panel's rate, full scale, window, oversampling and number of harmonics and the defaults for the rest. *)
Lemma c194_settings d fs mc harm osr hann : (mc <= 0 -> a_spectrum d fs mc harm osr hann = Err RuntimeError) /\
  (0 < mc -> a_spectrum d fs mc harm osr hann = m_plotspec d fs (Some mc) false (if hann then MHann else MRect) None osr harm 5 0 None 0).
Proof. unfold a_spectrum. destruct (Rleb_spec mc 0); split; intros; try lra; reflexivity. Qed.
