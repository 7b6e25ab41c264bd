(** * Further theorems about the weight calibration: records with noise, several data sets. *)
From Verif Require Import Base BaseLemmas CalModel CalSpec SpecLemmas DoutProofs CalProofs CalExLemmas CalExProofs.
From Coq Require Import Psatz.
Local Open Scope R_scope.

Lemma norm2_le n u v : norm2 n u <= norm2 n v <-> rsum n (fun i => u i ^ 2) <= rsum n (fun i => v i ^ 2).
Proof.
  unfold norm2. assert (P : forall f : vec, 0 <= rsum n (fun i => f i ^ 2)) by (intros; apply rsum_nonneg; intros; apply pow2_ge_0).
  split; intros H; [apply sqrt_le_0 in H; auto | apply sqrt_le_1_alt; exact H].
Qed.
(** The vector of unknowns of a competitor whose first coefficient in B is 1. *)
Definition pack (v c s : vec) (e b : nat) : vec := fun j => if (j <? e)%nat then v j else if (j <? e + (b - 1))%nat then c (S (j - e))%nat else s (j - (e + (b - 1)))%nat.
Lemma pack_basis E B C v c s i : (1 <= m_m B)%nat -> c 0%nat = 1 ->
  mv (hcat (hcat E (cols_from 1 (m_m B - 1) B)) C) (pack v c s (m_m E) (m_m B)) i + m_at B i 0%nat = mv E v i + mv B c i + mv C s i.
Proof.
  intros M C0. rewrite mv_basis by exact M. f_equal; [f_equal |]; apply mv_ext; intros j J; unfold pack, with_unity.
  - destruct (Nat.ltb_spec j (m_m E)); [reflexivity | lia].
  - destruct j as [| j]; [symmetry; exact C0 |]. destruct (Nat.ltb_spec (m_m E + j) (m_m E)); [lia |]. destruct (Nat.ltb_spec (m_m E + j) (m_m E + (m_m B - 1))); [f_equal; lia | lia].
  - destruct (Nat.ltb_spec (m_m E + (m_m B - 1) + j) (m_m E)); [lia |]. destruct (Nat.ltb_spec (m_m E + (m_m B - 1) + j) (m_m E + (m_m B - 1))); [lia | f_equal; lia].
Qed.
Lemma unity_optimal lstsq E B C : least_squares lstsq -> (1 <= m_m B)%nat ->
  let A := hcat (hcat E (cols_from 1 (m_m B - 1) B)) C in let b := fun i => - m_at B i 0%nat in let x := lstsq A b in
  forall v c s, c 0%nat = 1 -> norm2 (m_n E) (fun i => mv A x i - b i) <= norm2 (m_n E) (fun i => mv E v i + mv B c i + mv C s i).
Proof.
  intros L M A b x v c s C0. apply norm2_le. pose proof (L A b (pack v c s (m_m E) (m_m B))) as Q. change (m_n A) with (m_n E) in Q. fold x in Q.
  eapply Rle_trans; [exact Q |]. right. apply rsum_ext. intros i I. f_equal. unfold b. rewrite <- (pack_basis E B C v c s i M C0). unfold A, mv. ring.
Qed.
Lemma dual_basis_optimal lstsq common cosb sinb offset deriv :
  let E := extra_block common offset deriv in
  least_squares lstsq -> (1 <= m_m cosb)%nat -> m_m sinb = m_m cosb ->
  let '(x, choice) := dual_basis_lstsq lstsq common cosb sinb offset deriv in
  let u := with_unity x (m_m E) in let q := fun h => x (m_m E + (m_m cosb - 1) + h)%nat in
  let cc := if (choice =? 0)%nat then u else q in let sc := if (choice =? 0)%nat then q else u in
  (choice = 0%nat \/ choice = 1%nat) /\
  forall v c s, c 0%nat = 1 \/ s 0%nat = 1 ->
    rsum (m_n common) (fun i => (mv E x i + mv cosb cc i + mv sinb sc i) ^ 2) <= rsum (m_n common) (fun i => (mv E v i + mv cosb c i + mv sinb s i) ^ 2).
Proof.
  intros E L M MS. assert (EN : m_n E = m_n common) by (unfold E, extra_block; destruct deriv; reflexivity).
  pose proof (unity_optimal lstsq E cosb sinb L M) as P1. pose proof (unity_optimal lstsq E sinb cosb L ltac:(lia)) as P2. cbv zeta in P1, P2. rewrite EN in P1, P2.
  unfold dual_basis_lstsq. fold (extra_block common offset deriv). fold E. cbv zeta.
  set (A1 := hcat (hcat E (cols_from 1 (m_m cosb - 1) cosb)) sinb) in *. set (A2 := hcat (hcat E (cols_from 1 (m_m sinb - 1) sinb)) cosb) in *.
  set (x1 := lstsq A1 _) in *. set (x2 := lstsq A2 _) in *.
  set (e1 := norm2 (m_n common) (fun i => mv A1 x1 i - - m_at cosb i 0%nat)) in *. set (e2 := norm2 (m_n common) (fun i => mv A2 x2 i - - m_at sinb i 0%nat)) in *.
  assert (Q1 : e1 = norm2 (m_n common) (fun i => mv E x1 i + mv cosb (with_unity x1 (m_m E)) i + mv sinb (fun h => x1 (m_m E + (m_m cosb - 1) + h)%nat) i)).
  { unfold e1, norm2. f_equal. apply rsum_ext. intros i I. f_equal. rewrite <- mv_basis by exact M. fold A1. ring. }
  assert (Q2 : e2 = norm2 (m_n common) (fun i => mv E x2 i + mv cosb (fun h => x2 (m_m E + (m_m cosb - 1) + h)%nat) i + mv sinb (with_unity x2 (m_m E)) i)).
  { unfold e2, norm2. f_equal. apply rsum_ext. intros i I. f_equal. rewrite <- MS. replace (mv A2 x2 i - - m_at sinb i 0%nat) with (mv A2 x2 i + m_at sinb i 0%nat) by ring.
    unfold A2. rewrite mv_basis by lia. rewrite MS. ring. }
  assert (P : forall v c s, c 0%nat = 1 \/ s 0%nat = 1 -> (e1 < e2 -> e1 <= norm2 (m_n common) (fun i => mv E v i + mv cosb c i + mv sinb s i)) /\ (e2 <= e1 -> e2 <= norm2 (m_n common) (fun i => mv E v i + mv cosb c i + mv sinb s i))).
  { intros v c s [C | C].
    - pose proof (P1 v c s C). split; lra.
    - pose proof (P2 v s c C) as Y. replace (norm2 (m_n common) (fun i => mv E v i + mv sinb s i + mv cosb c i)) with (norm2 (m_n common) (fun i => mv E v i + mv cosb c i + mv sinb s i)) in Y by (unfold norm2; f_equal; apply rsum_ext; intros i I; f_equal; ring). split; lra. }
  destruct (Rltb_spec e1 e2) as [Lt | Ge]; cbn [Nat.eqb].
  - split; [left; reflexivity |]. intros v c s C. apply norm2_le. rewrite <- Q1. apply (P v c s C). exact Lt.
  - split; [right; reflexivity |]. intros v c s C. apply norm2_le. rewrite <- Q2. apply (P v c s C). exact Ge.
Qed.

(** ** C104 *)
Lemma no_redundancy_independent bits : (0 < m_n bits)%nat -> no_redundancy bits -> independent (hcat (stack [bits]) (ones (m_n (stack [bits])))).
Proof.
  intros NP NR x Z. set (m := m_m bits) in *.
  assert (Q : forall t, (t < m_n bits)%nat -> output bits x t + x m = 0).
  { intros t I. assert (I' : (t < m_n (hcat (stack [bits]) (ones (m_n (stack [bits])))))%nat) by (cbn; lia).
    specialize (Z t I'). change (mv (hcat (stack [bits]) (ones (m_n (stack [bits])))) x t = 0) in Z. rewrite mv_hcat, mv_stack_single in Z by exact I. rewrite mv_output in Z.
    replace (mv (ones (m_n (stack [bits]))) (fun j => x (m_m (stack [bits]) + j)%nat) t) with (x m) in Z; [exact Z |].
    unfold mv. cbn. fold m. rewrite Nat.add_0_r. ring. }
  assert (U : forall j, (j < m)%nat -> x j = 0). { apply (NR x (- x m)). intros t I. specialize (Q t I). lra. }
  intros j J. cbn in J. fold m in J. destruct (Nat.lt_ge_cases j m) as [Y | Y]; [apply U; exact Y |]. replace j with m by lia.
  specialize (Q 0%nat NP). unfold output in Q. rewrite rsum_zero in Q; [lra |]. intros k K. rewrite (U k K). ring.
Qed.
(** For any record of full rank at a known frequency: the reference is a tone whose fundamental has
    amplitude 1, and no weights and tone with the same cosine (or sine) part of the fundamental come
    closer to each other than the returned ones. *)
Lemma c104_least_squares lstsq rank est bits freq f fs nominal H lr reltol max_iter :
  least_squares lstsq -> rank_correct rank -> freq_is freq f -> f <> 0 -> f <= 1 / 2 -> fs = None \/ fs = Some false ->
  (0 < m_m bits <= m_n bits)%nat -> nominal_ok (m_m bits) nominal -> (1 <= H)%nat -> no_redundancy bits ->
  exists r d a b x, calibrate_weight_sine lstsq rank est [bits] freq fs nominal H lr reltol max_iter = Ok r /\ r_sets r = [d] /\ r_freqs r 0%nat = f /\
    0 <= rsum (m_m bits) (r_weight r) /\
    (forall t, (t < m_n bits)%nat -> r_calibrated d t = output bits (r_weight r) t /\ r_ideal d t = tone H 0 a b f t /\ r_error d t = r_calibrated d t - tone H (r_offset r) a b f t) /\
    amplitude (a 0%nat) (b 0%nat) = 1 /\ (x = a 0%nat \/ x = b 0%nat) /\ x <> 0 /\
    forall w o c s, c 0%nat = x \/ s 0%nat = x -> rsum (m_n bits) (fun t => r_error d t ^ 2) <= rsum (m_n bits) (fun t => (output bits w t - tone H o c s f t) ^ 2).
Proof.
  intros L RC FI F0 F FS M NO H1 NR.
  destruct (freq_is_facts freq f est FI F0 F) as (G1 & G2 & fr & G3 & G4).
  destruct (prepare_single bits nominal M NO) as (nw & PR).
  unfold calibrate_weight_sine. unfold raise_if at 1. rewrite G1. rewrite PR. cbn [bind]. cbv beta iota.
  change (length [bits]) with 1%nat. rewrite (patch_single rank bits nw RC (no_redundancy_independent bits ltac:(lia) NR)). rewrite G3. cbn [bind p_eff].
  assert (SF : ((match fs with None => all_zero freq | Some b0 => b0 end) || existsb (fun k => Reqb (fr k) 0) (seq 0 1))%bool = false).
  { rewrite G2. cbn. rewrite G4. destruct (Reqb_spec f 0); [contradiction |]. destruct FS as [-> | ->]; reflexivity. }
  rewrite SF. clear SF. cbv zeta. cbn [map split_rows]. fold (eff_single bits). change (rows_from 0 (m_n bits) (scale_columns (eff_single bits))) with (scaled_single bits).
  pose proof (scaled_single_of bits) as SC. set (sc := scaled_single bits) in *. clearbody sc. pose proof SC as (SN & SM & SE). set (m := m_m bits) in *.
  set (g := fun j => powerRZ 10 (- bit_scales (eff_single bits) j)) in *.
  assert (G : forall j, (j < m)%nat -> g j <> 0) by (intros j J; apply (SE 0%nat j ltac:(lia) J)).
  pose proof (dual_basis_optimal lstsq (stack [sc]) (cos_basis [sc] fr H) (sin_basis [sc] fr H) (offset_matrix [sc]) None) as P. cbv zeta in P. specialize (P L).
  assert (EM : m_m (extra_block (stack [sc]) (offset_matrix [sc]) None) = (m + 1)%nat) by (cbn; rewrite SM; reflexivity).
  assert (CN : m_n (stack [sc]) = m_n bits) by (cbn; rewrite SN; lia).
  assert (CM : m_m (cos_basis [sc] fr H) = H) by (cbn; lia).
  assert (SMM : m_m (sin_basis [sc] fr H) = H) by (cbn; lia).
  rewrite EM, CN, CM, SMM in P. specialize (P H1 eq_refl).
  assert (EV : forall v i, (i < m_n bits)%nat -> mv (extra_block (stack [sc]) (offset_matrix [sc]) None) v i = output bits (fun j => g j * v j) i + v m).
  { intros v i I. unfold extra_block. rewrite mv_hcat, mv_stack_single, mv_offset_single by (rewrite SN; exact I). rewrite (scaled_output bits sc g _ _ SC I).
    f_equal. f_equal. cbn. rewrite SM. unfold m. lia. }
  unfold solve_known_freq.
  destruct (dual_basis_lstsq lstsq (stack [sc]) (cos_basis [sc] fr H) (sin_basis [sc] fr H) (offset_matrix [sc]) None) as [x choice]. cbn [fst snd].
  destruct P as (CH & OPT).
  rewrite map_length, seq_length. fold m.
  set (u := with_unity x (m + 1)) in *. set (q := fun h => x (m + 1 + (H - 1) + h)%nat) in *.
  replace (x (m + 1 * H)%nat) with (q 0%nat) by (unfold q; f_equal; lia).
  set (nf := sqrt (1 + q 0%nat ^ 2)).
  assert (NFP : 0 < nf) by (apply sqrt_lt_R0; pose proof (pow2_ge_0 (q 0%nat)); lra).
  assert (NFS : nf ^ 2 = 1 + q 0%nat ^ 2) by (unfold nf; rewrite pow2_sqrt; [reflexivity | pose proof (pow2_ge_0 (q 0%nat)); lra]).
  destruct (recover_identity m m (recover_columns x nf (bit_scales (eff_single bits))) (colm (stack [bits])) ltac:(lia) eq_refl) as (w' & RW & EW).
  rewrite RW. cbn [bind].
  assert (W' : forall j, (j < m)%nat -> w' j = g j * x j / nf).
  { intros j J. rewrite (EW j J). unfold recover_columns. fold (g j). field. lra. }
  set (pol := if Rltb (rsum m w') 0 then -1 else 1).
  assert (POL : pol = 1 \/ pol = -1) by (unfold pol; destruct (Rltb _ _); [right | left]; reflexivity).
  assert (POL2 : pol * pol = 1) by (destruct POL as [-> | ->]; ring).
  set (cc := if (choice =? 0)%nat then u else q) in *. set (ss := if (choice =? 0)%nat then q else u) in *.
  set (a := fun h => - cc h / nf * pol). set (b := fun h => - ss h / nf * pol).
  eexists. eexists. exists a, b, (- (1 / nf) * pol). split; [reflexivity |].
  unfold post_process. cbv zeta. cbn [r_sets r_weight r_offset r_freqs length post_sets map]. fold pol. split; [reflexivity |]. split; [exact G4 |].
  split. { rewrite (rsum_ext m _ (fun j => pol * w' j)) by (intros; ring). rewrite rsum_scale. unfold pol. destruct (Rltb_spec (rsum m w') 0); lra. }
  cbn [r_calibrated r_ideal r_error].
  set (ref := reconstruct_sine x 0 H 1 (m + 1) choice (cols_from (0 * H) H (rows_from 0 (m_n bits) (cos_basis [bits] fr H))) (cols_from (0 * H) H (rows_from 0 (m_n bits) (sin_basis [bits] fr H))) nf).
  assert (REF : forall t, (t < m_n bits)%nat -> ref t = - (rsum H (fun h => cc h * cos (2 * PI * f * (INR t * INR (S h)))) + rsum H (fun h => ss h * sin (2 * PI * f * (INR t * INR (S h))))) / nf).
  { intros t Ht. unfold ref, reconstruct_sine. cbv zeta.
    assert (FIRST : forall h, match h with O => 1 | S h' => x (m + 1 + 0 * (H - 1) + h')%nat end = u h).
    { intros [| h]; [reflexivity |]. cbn. f_equal. lia. }
    assert (SECOND : forall h, x (m + 1 + (1 * H - 1) + 0 * H + h)%nat = q h) by (intros h; unfold q; f_equal; lia).
    f_equal. f_equal. unfold mv. cbn [cols_from rows_from m_m m_at]. f_equal; apply rsum_ext; intros h Hh; rewrite !Nat.mul_0_l, !Nat.add_0_l; [rewrite cos_basis_single by assumption | rewrite sin_basis_single by assumption]; rewrite G4, Rmult_comm; f_equal;
      unfold cc, ss; destruct (choice =? 0)%nat; (rewrite <- FIRST || rewrite <- SECOND); try (destruct h); try (f_equal; lia); reflexivity. }
  assert (TON : forall o t, tone H o a b f t = o + pol * (- (rsum H (fun h => cc h * cos (2 * PI * f * (INR t * INR (S h)))) + rsum H (fun h => ss h * sin (2 * PI * f * (INR t * INR (S h))))) / nf)).
  { intros o t. unfold tone, a, b. rewrite (rsum_ext H (fun h => - cc h / nf * pol * _) (fun h => (- pol / nf) * (cc h * cos (2 * PI * f * (INR t * INR (S h)))))) by (intros; field; lra).
    rewrite (rsum_ext H (fun h => - ss h / nf * pol * _) (fun h => (- pol / nf) * (ss h * sin (2 * PI * f * (INR t * INR (S h)))))) by (intros; field; lra). rewrite !rsum_scale. field. lra. }
  assert (OUT : forall t, output bits (fun j => w' j * pol) t = mv bits w' t * pol).
  { intros t. unfold output, mv. rewrite Rmult_comm, <- rsum_scale. apply rsum_ext. intros; ring. }
  split.
  { intros t Ht. rewrite (REF t Ht), !TON, OUT. split; [reflexivity |]. split; [ring |]. field. lra. }
  assert (X2 : (- (1 / nf) * pol) ^ 2 * (1 + q 0%nat ^ 2) = 1).
  { rewrite <- NFS. replace ((- (1 / nf) * pol) ^ 2 * nf ^ 2) with (pol * pol) by (field; lra). exact POL2. }
  assert (U0 : u 0%nat = 1) by reflexivity.
  split.
  { unfold amplitude. replace (a 0%nat ^ 2 + b 0%nat ^ 2) with 1; [apply sqrt_1 |]. rewrite <- X2. unfold a, b, cc, ss. destruct (choice =? 0)%nat; rewrite U0; field; lra. }
  split.
  { unfold a, b, cc, ss. destruct (choice =? 0)%nat; [left | right]; rewrite U0; field; lra. }
  assert (PN : pol <> 0) by (destruct POL as [-> | ->]; lra).
  split. { intros E. apply Rmult_integral in E. destruct E as [E | E]; [| contradiction]. assert (0 < 1 / nf) by (apply Rdiv_lt_0_compat; lra). lra. }
  intros w o c s CS.
  assert (MX : forall t, (t < m_n bits)%nat -> mv bits w' t = output bits (fun j => g j * x j) t / nf).
  { intros t Ht. unfold mv, output. unfold Rdiv. rewrite Rmult_comm, <- rsum_scale. apply rsum_ext. intros j J. rewrite (W' j J). field. lra. }
  specialize (OPT (fun j => if (j <? m)%nat then - pol * nf * (w j / g j) * -1 else - pol * nf * o) (fun h => - pol * nf * c h) (fun h => - pol * nf * s h)).
  assert (HYP : - pol * nf * c 0%nat = 1 \/ - pol * nf * s 0%nat = 1).
  { destruct CS as [-> | ->]; [left | right]; replace (- pol * nf * (- (1 / nf) * pol)) with (pol * pol) by (field; lra); exact POL2. }
  specialize (OPT HYP). clear HYP CS.
  assert (K : 0 < / nf ^ 2) by (apply Rinv_0_lt_compat, pow_lt; exact NFP).
  apply (Rmult_le_compat_l (/ nf ^ 2)) in OPT; [| lra]. rewrite <- !rsum_scale in OPT.
  rewrite (rsum_ext _ (fun t => ((mv bits w' t - _ - ref t) * pol) ^ 2) (fun i => / nf ^ 2 * (mv (extra_block (stack [sc]) (offset_matrix [sc]) None) x i + mv (cos_basis [sc] fr H) cc i + mv (sin_basis [sc] fr H) ss i) ^ 2)).
  2:{ intros t Ht. rewrite EV, mv_cos_single, mv_sin_single by (rewrite ?SN; exact Ht). rewrite G4, (REF t Ht), (MX t Ht).
      set (c1 := rsum H _). set (c2 := rsum H _). set (oo := output _ _ _).
      replace ((oo / nf - - x m / nf - - (c1 + c2) / nf) * pol) with ((oo + x m + c1 + c2) / nf * pol) by (field; lra).
      replace (((oo + x m + c1 + c2) / nf * pol) ^ 2) with ((oo + x m + c1 + c2) ^ 2 / nf ^ 2 * (pol * pol)) by (field; lra). rewrite POL2. field. lra. }
  eapply Rle_trans; [exact OPT |]. right. apply rsum_ext. intros t Ht.
  rewrite EV, mv_cos_single, mv_sin_single by (rewrite ?SN; exact Ht). rewrite G4, Nat.ltb_irrefl.
  rewrite (rsum_ext H (fun h => - pol * nf * c h * _) (fun h => (- pol * nf) * (c h * cos (2 * PI * f * (INR t * INR (S h)))))) by (intros; ring).
  rewrite (rsum_ext H (fun h => - pol * nf * s h * _) (fun h => (- pol * nf) * (s h * sin (2 * PI * f * (INR t * INR (S h)))))) by (intros; ring). rewrite !rsum_scale.
  replace (output bits (fun j => g j * (if (j <? m)%nat then - pol * nf * (w j / g j) * -1 else - pol * nf * o)) t) with (pol * nf * output bits w t).
  2:{ unfold output. rewrite <- rsum_scale. apply rsum_ext. intros j J. destruct (Nat.ltb_spec j m); [| lia]. field. apply G. exact J. }
  unfold tone. set (c1 := rsum H _). set (c2 := rsum H _). set (oo := output _ _ _).
  replace (/ nf ^ 2 * (pol * nf * oo + - pol * nf * o + - pol * nf * c1 + - pol * nf * c2) ^ 2) with (pol * pol * (oo - (o + c1 + c2)) ^ 2) by (field; lra). rewrite POL2. ring.
Qed.

(** ** C40 *)
Lemma post_sets_sndr weights sol nf dc choice bw H D segs cosb sinb : forall k row d, (d < length segs)%nat ->
  let r := nth d (post_sets weights sol nf dc choice bw H D k row segs cosb sinb) (mkDs zvec zvec zvec (Fin 0)) in
  r_sndr r = sndr_db (m_n (nth d segs (mkMat 0 0 (fun _ _ => 0)))) (r_ideal r) (r_error r).
Proof.
  induction segs as [| s segs IH]; intros k row d Hd; cbn [length] in Hd; [lia |]. cbn [post_sets]. cbv zeta.
  destruct d as [| d]; [reflexivity |]. cbn [nth]. apply IH. lia.
Qed.
(** The signal-to-noise figure of a data set is the ratio of the power of the ideal signal to the
    power of the error, 200 when the error is zero; ENOB is (that - 1.76) / 6.02. *)
Lemma c40_figures bw weights sol nf choice segs bw_eff H cosb sinb freqs d : (d < length segs)%nat ->
  let r := post_process bw weights sol nf choice segs bw_eff H cosb sinb freqs in
  let s := nth d (r_sets r) (mkDs zvec zvec zvec (Fin 0)) in let n := m_n (nth d segs (mkMat 0 0 (fun _ _ => 0))) in
  let P := rsum n (fun i => r_ideal s i ^ 2) in let N := rsum n (fun i => r_error s i ^ 2) in
  (N = 0 -> r_sndr s = Fin 200) /\ (0 < N -> 0 < P -> r_sndr s = Fin (10 * (ln (P / N) / ln 10))) /\ (0 < N -> P = 0 -> r_sndr s = NInf) /\
  (forall x, r_sndr s = Fin x -> r_enob s = Fin ((x - 1.76) / 6.02)).
Proof.
  intros Hd r s n P N. unfold s, r, post_process in *. cbv zeta in *. cbn [r_sets] in *.
  set (pol := if Rltb (rsum bw weights) 0 then -1 else 1) in *. assert (POL : pol ^ 2 = 1) by (unfold pol; destruct (Rltb _ _); ring).
  set (sets := post_sets _ _ _ _ _ _ _ _ _ _ _ _ _) in *.
  set (gf := fun r => mkDs (fun i => r_calibrated r i * pol) (fun i => r_ideal r i * pol) (fun i => r_error r i * pol) (r_sndr r)) in *.
  assert (LS : length sets = length segs) by apply (proj1 (post_sets_spec weights sol nf (- sol bw_eff / nf) choice bw_eff H (length segs) segs cosb sinb 0%nat 0%nat)).
  assert (NS : nth d (map gf sets) (mkDs zvec zvec zvec (Fin 0)) = gf (nth d sets (mkDs zvec zvec zvec (Fin 0)))).
  { rewrite (nth_indep _ _ (gf (mkDs zvec zvec zvec (Fin 0)))) by (rewrite map_length, LS; exact Hd). apply map_nth. }
  unfold P, N. rewrite NS. set (q := nth d sets _). unfold r_enob, gf. cbn [r_ideal r_error r_sndr].
  assert (Q : r_sndr q = sndr_db n (r_ideal q) (r_error q)) by (apply post_sets_sndr; exact Hd). rewrite Q. clear Q. unfold sndr_db.
  assert (S1 : forall v : vec, rsum n (fun i => (v i * pol) ^ 2) = rsum n (fun i => v i ^ 2)).
  { intros v. apply rsum_ext. intros i I. replace ((v i * pol) ^ 2) with (v i ^ 2 * pol ^ 2) by ring. rewrite POL. ring. }
  rewrite !S1. set (PP := rsum n (fun i => r_ideal q i ^ 2)). set (NN := rsum n (fun i => r_error q i ^ 2)). unfold vmean. fold PP NN.
  assert (NZ : 0 < NN -> 0 < INR n). { intros X. destruct (Nat.eq_dec n 0) as [E | E]; [unfold NN in X; rewrite E in X; cbn in X; lra | apply lt_0_INR; lia]. }
  split; [| split; [| split]].
  - intros ->. unfold Rdiv. rewrite Rmult_0_l. destruct (Rltb_spec 0 0); [lra | reflexivity].
  - intros X Y. specialize (NZ X). pose proof (Rdiv_lt_0_compat _ _ X NZ). pose proof (Rdiv_lt_0_compat _ _ Y NZ).
    destruct (Rltb_spec 0 (NN / INR n)); [| lra]. destruct (Rltb_spec 0 (PP / INR n)); [| lra]. unfold log10. replace (PP / INR n / (NN / INR n)) with (PP / NN) by (field; lra). reflexivity.
  - intros X ->. specialize (NZ X). pose proof (Rdiv_lt_0_compat _ _ X NZ). destruct (Rltb_spec 0 (NN / INR n)); [| lra]. unfold Rdiv. rewrite Rmult_0_l. destruct (Rltb_spec 0 0); [lra | reflexivity].
  - intros x E. rewrite E. reflexivity.
Qed.

(** ** C81 *)
(** Frequencies that are all given, non-zero and not to be searched come back unchanged, one per data
    set; an array of the wrong length is refused. *)
Lemma c81_known_frequencies lstsq rank est l freq fs nominal H lr reltol mi :
  fs = None \/ fs = Some false -> (forall x, In x (freq_list freq) -> x <> 0) ->
  (forall x r, freq = FScalar x -> calibrate_weight_sine lstsq rank est l freq fs nominal H lr reltol mi = Ok r -> forall k, (k < length l)%nat -> r_freqs r k = x) /\
  (forall xs, freq = FArray xs -> xs <> [] ->
     (length xs <> length l -> calibrate_weight_sine lstsq rank est l freq fs nominal H lr reltol mi = Err ValueError) /\
     forall r, calibrate_weight_sine lstsq rank est l freq fs nominal H lr reltol mi = Ok r -> forall k, (k < length l)%nat -> r_freqs r k = nth k xs 0).
Proof.
  intros FS NZ.
  assert (PL : forall segs bw nw, prepare_input l nominal = Ok (segs, bw, nw) -> length segs = length l).
  { intros segs bw nw E. apply c81_prepare in E. destruct E as (_ & _ & _ & -> & _). apply map_length. }
  assert (AZ : freq_list freq <> [] -> all_zero freq = false).
  { intros NE. unfold all_zero. destruct (freq_list freq) as [| y ys]; [contradiction |]. cbn. destruct (Reqb_spec y 0) as [Y | Y]; [exfalso; apply (NZ y); [left; reflexivity | exact Y] | reflexivity]. }
  assert (CORE : forall fr, freq_list freq <> [] -> estimate_frequencies est (length l) freq = Ok fr -> (forall k, (k < length l)%nat -> fr k <> 0) ->
     forall r, calibrate_weight_sine lstsq rank est l freq fs nominal H lr reltol mi = Ok r -> r_freqs r = fr).
  { intros fr NE EF NZF r. unfold calibrate_weight_sine. unfold raise_if at 1. destruct (existsb _ _); [discriminate |].
    destruct (prepare_input l nominal) as [[[segs bw] nw] |] eqn:PI'; [| discriminate]. cbn [bind]. cbv beta iota zeta. rewrite (PL _ _ _ eq_refl), EF. cbn [bind].
    assert (SF : ((match fs with None => all_zero freq | Some b0 => b0 end) || existsb (fun k => Reqb (fr k) 0) (seq 0 (length l)))%bool = false).
    { apply Bool.orb_false_iff. split; [destruct FS as [-> | ->]; [apply AZ; exact NE | reflexivity] |].
      apply Bool.not_true_iff_false. intros X. apply existsb_exists in X. destruct X as (k & K & E). apply in_seq in K. destruct (Reqb_spec (fr k) 0) as [Z | _]; [| discriminate]. exact (NZF k ltac:(lia) Z). }
    rewrite SF. destruct (recover_rank_deficiency _ _); [| discriminate]. cbn [bind]. intros E. apply Ok_inj in E. subst r. reflexivity. }
  split.
  - intros x r FE E k K. subst freq. rewrite (CORE (fun _ => x)) with (r := r); [reflexivity | discriminate | | | exact E].
    + unfold estimate_frequencies. rewrite AZ by discriminate. reflexivity.
    + intros _ _. apply NZ. left. reflexivity.
  - intros xs FE NE. subst freq. cbn [freq_list] in *. split.
    + intros LE. unfold calibrate_weight_sine. unfold raise_if at 1. destruct (existsb _ _); [reflexivity |].
      destruct (prepare_input l nominal) as [[[segs bw] nw] | e] eqn:PI'; [| cbn [bind]; f_equal; eapply c81_rejects; exact PI']. cbn [bind]. cbv beta iota zeta. rewrite (PL _ _ _ eq_refl).
      unfold estimate_frequencies. rewrite (AZ NE). unfold raise_if. destruct (Nat.eqb_spec (length xs) (length l)); [contradiction |]. reflexivity.
    + intros r E k K. destruct (Nat.eq_dec (length xs) (length l)) as [LE | LE].
      * rewrite (CORE (fun k => nth k xs 0)) with (r := r); [reflexivity | exact NE | | | exact E].
        -- unfold estimate_frequencies. rewrite (AZ NE). unfold raise_if. rewrite LE, Nat.eqb_refl. reflexivity.
        -- intros i I. apply NZ. apply nth_In. lia.
      * exfalso. revert E. unfold calibrate_weight_sine. unfold raise_if at 1. destruct (existsb _ _); [discriminate |].
        destruct (prepare_input l nominal) as [[[segs bw] nw] | e] eqn:PI'; [| discriminate]. cbn [bind]. cbv beta iota zeta. rewrite (PL _ _ _ eq_refl).
        unfold estimate_frequencies. rewrite (AZ NE). unfold raise_if. destruct (Nat.eqb_spec (length xs) (length l)); [contradiction |]. discriminate.
Qed.

(** ** C37 *)
(** What is kept: founders are only appended, and a bit without a column of its own adds nothing. *)
Definition adds_nothing (bits : mat) (j : nat) : Prop :=
  (forall i k, (i < m_n bits)%nat -> (k < m_n bits)%nat -> Rabs (m_at bits i j - m_at bits k j) < 1 / 10 ^ 15) \/
  exists o u, forall i, (i < m_n bits)%nat -> m_at bits i j = o + rsum j (fun k => m_at bits i k * u k).
Definition has_column (p : patch_state) (j : nat) : Prop := exists c, (c < length (p_eff p))%nat /\ nth c (p_founder p) 0%nat = j.
Lemma vptp_bound n v i k : (i < n)%nat -> (k < n)%nat -> Rabs (v i - v k) <= vptp n v.
Proof.
  intros I K. unfold vptp. assert (J : In (v i) (map v (seq 0 n)) /\ In (v k) (map v (seq 0 n))) by (split; apply in_map; apply in_seq; lia).
  destruct (map v (seq 0 n)) as [| x l]; [destruct J as [[] _] |]. destruct J as (J1 & J2).
  assert (B : forall y, In y (x :: l) -> lmin1 x l <= y <= lmax1 x l).
  { intros y [<- | Y]; [split; [apply lmin1_le_init | apply lmax1_ge_init] | split; [apply lmin1_le | apply lmax1_ge]; exact Y]. }
  pose proof (B _ J1). pose proof (B _ J2). apply Rabs_le. lra.
Qed.
Lemma patch_step_keeps rank bits nominal k p : rank_correct rank -> patch_inv bits nominal k p -> (forall j, (j < k)%nat -> has_column p j \/ adds_nothing bits j) ->
  forall j, (j < S k)%nat -> has_column (patch_step rank (m_n bits) nominal p k (colm bits k)) j \/ adds_nothing bits j.
Proof.
  intros (_ & RK) I IH. pose proof (pi_founder _ _ _ _ I) as LF. unfold patch_step. destruct (Rltb_spec (vptp (m_n bits) (colm bits k)) (1 / 10 ^ 15)) as [V | V].
  { intros j J. destruct (Nat.eq_dec j k) as [-> | N]; [| apply IH; lia]. right. left. intros i l Hi Hl. eapply Rle_lt_trans; [apply (vptp_bound (m_n bits) (colm bits k) i l Hi Hl) | exact V]. }
  cbv zeta. set (cur := hcat (ones (m_n bits)) (of_cols (m_n bits) (p_eff p))).
  assert (MC : m_m cur = S (length (p_eff p))) by reflexivity.
  pose proof (RK cur (hcat cur (of_cols (m_n bits) [colm bits k])) (colm bits k) eq_refl) as Q.
  assert (Q1 : m_m (hcat cur (of_cols (m_n bits) [colm bits k])) = (m_m cur + 1)%nat) by reflexivity.
  specialize (Q Q1). assert (Q2 : forall i j, (j < m_m cur)%nat -> m_at (hcat cur (of_cols (m_n bits) [colm bits k])) i j = m_at cur i j).
  { intros i j J. unfold hcat at 1. cbn [m_at]. destruct (Nat.ltb_spec j (m_m cur)); [reflexivity | lia]. }
  specialize (Q Q2). assert (Q3 : forall i, m_at (hcat cur (of_cols (m_n bits) [colm bits k])) i (m_m cur) = colm bits k i).
  { intros i. unfold hcat at 1. cbn [m_at]. rewrite Nat.ltb_irrefl, Nat.sub_diag. reflexivity. }
  specialize (Q Q3).
  destruct (Nat.ltb_spec (rank cur) (rank (hcat cur (of_cols (m_n bits) [colm bits k])))) as [Lt | Ge].
  - intros j J. destruct (Nat.eq_dec j k) as [-> | N].
    + left. exists (length (p_eff p)). cbn [p_eff p_founder]. rewrite app_length. cbn [length]. split; [lia |]. rewrite app_nth2, LF, Nat.sub_diag by lia. reflexivity.
    + destruct (IH j ltac:(lia)) as [(c & C & E) | A]; [left | right; exact A]. exists c. cbn [p_eff p_founder]. rewrite app_length. cbn [length]. split; [lia |]. rewrite app_nth1 by lia. exact E.
  - assert (SP : in_span cur (colm bits k)). { destruct (Classical_Prop.classic (in_span cur (colm bits k))) as [Y | Y]; [exact Y |]. apply Q in Y. lia. }
    assert (AN : adds_nothing bits k).
    { destruct SP as (x & X). right. exists (x 0%nat), (fun j => rec_weight (fun c => x (S c)) p j). intros i Hi. specialize (X i Hi). unfold colm in X. rewrite X, MC, rsum_shift.
      cbn [cur hcat ones m_at m_m Nat.ltb Nat.leb]. f_equal; [ring |]. rewrite <- (pi_out _ _ _ _ I (fun c => x (S c)) i). apply rsum_ext. intros c C. f_equal. cbn [of_cols m_at]. replace (S c - 1)%nat with c by lia. reflexivity. }
    assert (G : forall q, length (p_eff q) = length (p_eff p) -> p_founder q = p_founder p -> forall j, (j < S k)%nat -> has_column q j \/ adds_nothing bits j).
    { intros q E1 E2 j J. destruct (Nat.eq_dec j k) as [-> | N]; [right; exact AN |]. destruct (IH j ltac:(lia)) as [(c & C & E) | A]; [left | right; exact A]. exists c. rewrite E1, E2. split; assumption. }
    destruct (find_correlated _ _ _ _); apply G; cbn [p_eff p_founder]; try reflexivity. apply upd_length.
Qed.
Lemma patch_keeps rank bits nominal : rank_correct rank -> forall j, (j < m_m bits)%nat -> has_column (patch_rank_deficiency rank bits nominal) j \/ adds_nothing bits j.
Proof.
  intros RK. unfold patch_rank_deficiency. destruct (_ <=? _)%nat.
  - intros j J. left. exists j. cbn [p_eff p_founder]. rewrite map_length, seq_length, seq_nth by exact J. split; [exact J | reflexivity].
  - assert (G : forall d k p, patch_inv bits nominal k p -> (forall j, (j < k)%nat -> has_column p j \/ adds_nothing bits j) ->
       forall j, (j < k + d)%nat -> has_column (fold_left (fun st j => patch_step rank (m_n bits) nominal st j (colm bits j)) (seq k d) p) j \/ adds_nothing bits j).
    { induction d as [| d IH]; intros k p I A; cbn [seq fold_left]. { rewrite Nat.add_0_r. exact A. }
      replace (k + S d)%nat with (S k + d)%nat by lia. apply IH; [apply patch_inv_step; exact I | apply patch_step_keeps; assumption]. }
    apply (G (m_m bits) 0%nat); [| intros; lia]. constructor; cbn; try reflexivity; intros; try lia.
Qed.
(** Every bit gets a column, and a weight, of its own unless it is (almost) constant or a combination of
    a constant and earlier bits. *)
Lemma c37_own_column rank bits nominal j : rank_correct rank -> (j < m_m bits)%nat ->
  let p := patch_rank_deficiency rank bits nominal in
  (exists c, (c < length (p_eff p))%nat /\ forall w_eff w, recover_rank_deficiency w_eff p = Ok w -> w j = w_eff c) \/
  (forall i k, (i < m_n bits)%nat -> (k < m_n bits)%nat -> Rabs (m_at bits i j - m_at bits k j) < 1 / 10 ^ 15) \/
  (exists o u, forall i, (i < m_n bits)%nat -> m_at bits i j = o + rsum j (fun k => m_at bits i k * u k)).
Proof.
  intros RK J p. destruct (patch_keeps rank bits nominal RK j J) as [(c & C & E) | A]; [left | right; exact A]. fold p in C, E. exists c. split; [exact C |].
  intros w_eff w H. pose proof (patch_inv_all rank bits nominal) as I. fold p in I. unfold recover_rank_deficiency, raise_if in H.
  destruct (_ && _)%bool; [discriminate |]. apply Ok_inj in H. subst w. destruct (pi_founders _ _ _ _ I c C) as (_ & F2 & F3). rewrite E in F2, F3. rewrite F2, F3. ring.
Qed.

(** ** Examples *)
Definition pulse_bits : mat := of_rows [[1]; [0]; [0]; [0]].
(** One bit that is a single pulse is no tone of any weight; the error power is then between 0 and 2/3. *)
Lemma c104_least_squares_ex : exists r d, calibrate_weight_sine gs_lstsq gs_rank (fun _ => 0) [pulse_bits] (FScalar (1 / 4)) None None 1 (1 / 2) (1 / 10 ^ 12) 100 = Ok r /\ r_sets r = [d] /\
  0 < rsum 4 (fun t => r_error d t ^ 2) <= 2 / 3.
Proof.
  destruct (c104_least_squares gs_lstsq gs_rank (fun _ => 0) pulse_bits (FScalar (1 / 4)) (1 / 4) None None 1 (1 / 2) (1 / 10 ^ 12) 100 gs_least_squares gs_rank_correct) as (r & d & a & b & x & E & S & _ & _ & T & AM & X & X0 & OPT);
    [left; reflexivity | lra | lra | left; reflexivity | cbn; lia | exact I | lia | |].
  { intros u o O j Hj. pose proof (O 0%nat ltac:(cbn; lia)) as O0. pose proof (O 1%nat ltac:(cbn; lia)) as O1. unfold output in O0, O1. cbn in O0, O1, Hj. replace j with 0%nat by lia. lra. }
  exists r, d. split; [exact E |]. split; [exact S |]. change (m_n pulse_bits) with 4%nat in *.
  unfold amplitude in AM. assert (A2 : a 0%nat ^ 2 + b 0%nat ^ 2 = 1).
  { rewrite <- (sqrt_sqrt (a 0%nat ^ 2 + b 0%nat ^ 2)); [rewrite AM; ring |]. pose proof (pow2_ge_0 (a 0%nat)). pose proof (pow2_ge_0 (b 0%nat)). lra. }
  assert (ER : forall t, (t < 4)%nat -> r_error d t = output pulse_bits (r_weight r) t - (r_offset r + a 0%nat * qcos t + b 0%nat * qsin t)).
  { intros t Ht. destruct (T t Ht) as (T1 & _ & T3). rewrite T3, T1, quarter_tone. reflexivity. }
  split.
  - cbn [rsum]. rewrite !ER by lia. unfold output, qcos, qsin. cbn -[pow]. set (w := r_weight r 0%nat) in *. set (o := r_offset r) in *. clearbody w o. clear - A2.
    pose proof (pow2_ge_0 (3 * o - a 0%nat)). pose proof (pow2_ge_0 (b 0%nat)). match goal with |- 0 < ?e => ring_simplify e end. pose proof (pow2_ge_0 (w - o - a 0%nat)). nra.
  - eapply Rle_trans; [apply (OPT (fun _ => 4 / 3 * x) (1 / 3 * x) (fun _ => x) (fun _ => 0)); left; reflexivity |].
    cbn [rsum]. rewrite !quarter_tone. unfold output, qcos, qsin. cbn -[pow].
    assert (X2 : x ^ 2 <= 1). { destruct X as [-> | ->]; pose proof (pow2_ge_0 (a 0%nat)); pose proof (pow2_ge_0 (b 0%nat)); lra. } nra.
Qed.
(** A power ratio of 100 is 20 dB. *)
Lemma c40_figures_ex : let r := post_process 1 (fun _ => 1) (fun j => nth j [1; 0; 0] 0) 1 0 [of_rows [[9 / 10]; [11 / 10]]] 1 1 (mkMat 2 1 (fun _ _ => -1)) (mkMat 2 1 (fun _ _ => 0)) (fun _ => 1 / 4) in
  exists d, r_sets r = [d] /\ r_ideal d 1%nat = 1 /\ r_error d 1%nat = 1 / 10 /\ r_sndr d = Fin 20.
Proof.
  intros r. destruct (c40_figures 1 (fun _ => 1) (fun j => nth j [1; 0; 0] 0) 1 0 [of_rows [[9 / 10]; [11 / 10]]] 1 1 (mkMat 2 1 (fun _ _ => -1)) (mkMat 2 1 (fun _ _ => 0)) (fun _ => 1 / 4) 0 ltac:(cbn; lia)) as (_ & Q & _). fold r in Q.
  eexists. split; [reflexivity |]. cbn [nth r r_sets post_process map post_sets] in Q.
  match goal with |- context [Rltb ?a 0] => assert (X : Rltb a 0 = false) by (destruct (Rltb_spec a 0) as [Y | Y]; [cbn in Y; lra | reflexivity]) end.
  rewrite X in *. cbv zeta in Q.
  assert (RS : forall c1 c2 i, reconstruct_sine (fun j => nth j [1; 0; 0] 0) 0 1 1 2 0 (cols_from 0 1 (rows_from 0 2 (mkMat 2 1 (fun _ _ => c1)))) (cols_from 0 1 (rows_from 0 2 (mkMat 2 1 (fun _ _ => c2)))) 1 i = - c1).
  { intros c1 c2 i. unfold reconstruct_sine, mv. cbn. field. }
  cbn [r_ideal r_error r_sndr] in *. change (length [of_rows [[9 / 10]; [11 / 10]]]) with 1%nat in *. change (m_n (of_rows [[9 / 10]; [11 / 10]])) with 2%nat in *. change (0 * 1)%nat with 0%nat in *. change (1 + 1)%nat with 2%nat in *.
  cbn [rsum] in Q. rewrite !RS in Q. rewrite !RS. unfold mv in *. cbn -[pow ln sndr_db] in Q. cbn -[pow ln sndr_db].
  split; [lra |]. split; [lra |]. rewrite Q by lra.
  f_equal. match goal with |- context [ln ?e] => replace e with (10 * 10) by (field; lra) end.
  rewrite ln_mult by lra. assert (ln 10 <> 0) by (apply ln_neq_0; lra). field. assumption.
Qed.
