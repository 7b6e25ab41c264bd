(** * The automatic frequency estimate of the calibration: the final lemmas are named c134_ and c135_. *)
From Coq Require Import Psatz Permutation Sorting.Sorted.
From Verif Require Import Base BaseLemmas Cplx TiModel TiToneProofs SpecModel SpecSpec SpecLemmas SpecProofs CalModel CalSpec CalExLemmas CalExProofs FitModel FitSpec FitProofs OsrSpec OverModel OverProofs EnvProofs SweepModel SweepProofs EstModel EstSpec.
Local Open Scope R_scope.

Lemma toggles_changes a j : toggles a j = INR (changes a j).
Proof.
  unfold toggles, changes. induction (m_n a - 1)%nat as [|n IH]; [reflexivity|]. cbn [rsum]. rewrite seq_S, filter_app, app_length, plus_INR, <- IH. cbn [seq filter plus].
  destruct (Req_EM_T (m_at a (S n) j) (m_at a n j)) as [E|E]; destruct (Reqb_spec (m_at a (S n) j - m_at a n j) 0); cbn [length INR]; lra.
Qed.
(** ** A sorting order without ties is unique *)
Lemma sorted_unique (f : nat -> R) l1 : forall l2, Permutation l1 l2 -> (forall x y, In x l1 -> In y l1 -> f x = f y -> x = y) -> StronglySorted (fun i j => f i <= f j) l1 -> StronglySorted (fun i j => f i <= f j) l2 -> l1 = l2.
Proof.
  induction l1 as [|x l1 IH]; intros l2 P D S1 S2; [apply Permutation_nil in P; subst; reflexivity|]. destruct l2 as [|y l2]; [apply Permutation_sym, Permutation_nil_cons in P; contradiction|].
  inversion S1 as [|? ? S1' F1]; subst. inversion S2 as [|? ? S2' F2]; subst. assert (E : x = y).
  { apply D; [left; reflexivity|apply (Permutation_in _ (Permutation_sym P)); left; reflexivity|]. rewrite Forall_forall in F1, F2.
    assert (Hy : In y (x :: l1)) by (apply (Permutation_in _ (Permutation_sym P)); left; reflexivity). assert (Hx : In x (y :: l2)) by (apply (Permutation_in _ P); left; reflexivity).
    destruct Hy as [->|Hy]; [reflexivity|]. destruct Hx as [->|Hx]; [reflexivity|]. specialize (F1 y Hy). specialize (F2 x Hx). lra. }
  subst y. f_equal. apply IH; [apply (Permutation_cons_inv P)|intros u v Hu Hv; apply D; right; assumption|exact S1'|exact S2'].
Qed.
Lemma sorts_forms (f : nat -> R) m order : sorts (map f (seq 0 m)) order -> Permutation order (seq 0 m) /\ StronglySorted (fun i j => f i <= f j) order.
Proof.
  intros (P & S). rewrite map_length, seq_length in P. split; [exact P|]. assert (B : Forall (fun i => (i < m)%nat) order) by (apply Forall_forall; intros i Hi; apply (Permutation_in _ P), in_seq in Hi; lia).
  clear P. induction S as [|i l S IH F]; [constructor|]. inversion B as [|? ? Bi Bl]; subst. constructor; [apply IH, Bl|]. rewrite Forall_forall in *. intros j Hj. specialize (F j Hj). specialize (Bl j Hj).
  rewrite !(nth_map_in _ _ _ 0%nat) in F by (rewrite seq_length; assumption). rewrite !seq_nth in F by assumption. exact F.
Qed.
Lemma ss_map (f : nat -> R) (g : nat -> nat) l : StronglySorted (fun i j => f (g i) <= f (g j)) l -> StronglySorted (fun i j => f i <= f j) (map g l).
Proof. intros S. induction S as [|x l S IH F]; cbn; constructor; [exact IH|]. rewrite Forall_map. exact F. Qed.
Lemma ss_ext (f g : nat -> R) l : (forall x, In x l -> f x = g x) -> StronglySorted (fun i j => f i <= f j) l -> StronglySorted (fun i j => g i <= g j) l.
Proof.
  intros E S. induction S as [|x l S IH F]; constructor; [apply IH; intros y Hy; apply E; right; exact Hy|]. rewrite Forall_forall in *. intros y Hy. rewrite <- (E x (or_introl eq_refl)), <- (E y (or_intror Hy)). apply F, Hy.
Qed.
Lemma signal_ext a b g idx : m_n b = m_n a -> (forall i j, (i < m_n a)%nat -> In j idx -> m_at b i j = m_at a i (g j)) -> assumed_signal b idx = assumed_signal a (map g idx).
Proof.
  intros N E. unfold assumed_signal. rewrite N. apply map_ext_in. intros i Hi. apply in_seq in Hi. unfold assumed_code. rewrite map_length. apply rsum_ext. intros p Hp. rewrite E by (lia || (apply nth_In; exact Hp)). f_equal. f_equal. symmetry. rewrite (nth_map_in g idx p 0%nat) by exact Hp. reflexivity.
Qed.
Lemma firstn_in {A} n (l : list A) x : In x (firstn n l) -> In x l.
Proof. intros H. rewrite <- (firstn_skipn n l). apply in_or_app. left. exact H. Qed.
(** ** C134 *)
(** The estimate does not depend on the order of the bits: any two orders of the same columns, however they are sorted,
    give the same answer when no two bits toggle equally often. *)
Lemma c134_column_order kz cz argsort argsort' lstsq p a b : (forall l, sorts l (argsort l)) -> (forall l, sorts l (argsort' l)) -> reordered p a b -> distinct_activity a ->
  auto_frequency kz cz argsort lstsq a = auto_frequency kz cz argsort' lstsq b.
Proof.
  intros AS AS' (P & N & M & E) D. pose proof (Permutation_length P) as LP. rewrite seq_length in LP.
  assert (PB : forall j, (j < m_m a)%nat -> (nth j p 0 < m_m a)%nat) by (intros j Hj; assert (HI : In (nth j p 0%nat) p) by (apply nth_In; lia); apply (Permutation_in _ P), in_seq in HI; lia).
  assert (T : forall j, (j < m_m a)%nat -> toggles b j = toggles a (nth j p 0%nat)).
  { intros j Hj. unfold toggles. rewrite N. apply rsum_ext. intros i Hi. rewrite !E by lia. reflexivity. }
  destruct (sorts_forms (toggles a) (m_m a) _ (AS _)) as (P1 & S1). destruct (sorts_forms (toggles b) (m_m b) _ (AS' _)) as (P2 & S2). unfold auto_frequency. cbv zeta. rewrite M in *. set (o1 := argsort _) in *. set (o2 := argsort' _) in *.
  assert (B2 : forall x, In x o2 -> (x < m_m a)%nat) by (intros x Hx; apply (Permutation_in _ P2), in_seq in Hx; lia).
  assert (O : o1 = map (fun j => nth j p 0%nat) o2).
  { apply (sorted_unique (toggles a)); [|..].
    - apply Permutation_trans with (1 := P1). apply Permutation_trans with (map (fun j => nth j p 0%nat) (seq 0 (m_m a))); [|apply Permutation_map, Permutation_sym, P2].
      replace (map (fun j => nth j p 0%nat) (seq 0 (m_m a))) with p; [apply Permutation_sym, P|]. apply (nth_ext _ _ 0%nat 0%nat); [rewrite map_length, seq_length; exact LP|]. intros j Hj. rewrite (nth_map_in _ _ _ 0%nat) by (rewrite seq_length; lia). rewrite seq_nth by lia. reflexivity.
    - intros x y Hx Hy Q. apply (Permutation_in _ P1), in_seq in Hx, Hy. rewrite !toggles_changes in Q. apply INR_eq in Q. apply D; lia || exact Q.
    - exact S1.
    - apply ss_map. apply (ss_ext (toggles b)); [|exact S2]. intros x Hx. apply T, B2, Hx. }
  rewrite O, <- map_rev, !firstn_map. rewrite <- !(signal_ext a b (fun j => nth j p 0%nat)); [reflexivity|exact N| |exact N|]; intros i j Hi Hj; apply E; try exact Hi; apply B2; apply firstn_in in Hj; [apply in_rev|]; exact Hj.
Qed.
Lemma xgeb_spec a b : xgeb a b = true <-> at_least a b.
Proof. destruct a as [x| | |], b as [y| | |]; cbn [xgeb at_least]; try (split; [intros _; exact I|reflexivity]); try (split; [discriminate|intros []]). destruct (Rleb_spec y x) as [L|L]; split; try reflexivity; try discriminate; intros; lra. Qed.
(** With the bits in order of significance, i.e. each toggling more than the one before, signal A is the code of the (up
    to six) leading bits, and the estimate is made from it whenever its SNDR is not below that of the reversed trailing bits. *)
Lemma c134_leading_bits kz cz argsort lstsq a : (forall l, sorts l (argsort l)) -> (forall j k, (j < k < m_m a)%nat -> (changes a j < changes a k)%nat) ->
  exists sigB, auto_frequency kz cz argsort lstsq a =
    bind (compute_spectrum kz cz [map (leading_code (Nat.min 6 (m_m a)) a) (seq 0 (m_n a))] 1 ScaleAuto Hann None 1 5 0 None 0) (fun rA =>
    bind (compute_spectrum kz cz [sigB] 1 ScaleAuto Hann None 1 5 0 None 0) (fun rB =>
    estimate_frequency lstsq (if xgeb (sp_sndr rA) (sp_sndr rB) then map (leading_code (Nat.min 6 (m_m a)) a) (seq 0 (m_n a)) else sigB))) /\
    (forall u v, xgeb u v = true <-> at_least u v) /\
    length sigB = m_n a /\ forall i, (i < m_n a)%nat -> nth i sigB 0 = rsum (Nat.min 6 (m_m a)) (fun q => m_at a i (m_m a - 1 - q)%nat * 2 ^ (Nat.min 6 (m_m a) - 1 - q)).
Proof.
  intros AS Inc. destruct (sorts_forms (toggles a) (m_m a) _ (AS _)) as (P1 & S1). unfold auto_frequency. cbv zeta. set (o := argsort _) in *.
  assert (O : o = seq 0 (m_m a)).
  { apply (sorted_unique (toggles a)); [exact P1| |exact S1|].
    - intros x y Hx Hy Q. apply (Permutation_in _ P1), in_seq in Hx, Hy. rewrite !toggles_changes in Q. apply INR_eq in Q. destruct (Nat.lt_trichotomy x y) as [L|[L|L]]; [pose proof (Inc x y ltac:(lia)); lia|exact L|pose proof (Inc y x ltac:(lia)); lia].
    - assert (G : forall n s, (s + n <= m_m a)%nat -> StronglySorted (fun i j => toggles a i <= toggles a j) (seq s n)).
      { induction n as [|n IH]; intros s Hs; cbn; constructor; [apply IH; lia|]. apply Forall_forall. intros j Hj. apply in_seq in Hj. rewrite !toggles_changes. apply le_INR. pose proof (Inc s j ltac:(lia)). lia. }
      apply G. lia. }
  rewrite O. set (c := Nat.min 6 (m_m a)). assert (Hc : (c <= m_m a)%nat) by (unfold c; lia).
  assert (F : firstn c (seq 0 (m_m a)) = seq 0 c) by (replace (m_m a) with (c + (m_m a - c))%nat at 1 by lia; rewrite seq_app, firstn_app, firstn_all2, seq_length, Nat.sub_diag by (rewrite seq_length; lia); cbn; apply app_nil_r).
  rewrite F. assert (A : assumed_signal a (seq 0 c) = map (leading_code c a) (seq 0 (m_n a))).
  { unfold assumed_signal. apply map_ext_in. intros i Hi. unfold assumed_code, leading_code. rewrite seq_length. apply rsum_ext. intros q Hq. rewrite seq_nth by exact Hq. reflexivity. }
  rewrite A. exists (assumed_signal a (firstn c (rev (seq 0 (m_m a))))). split; [reflexivity|]. split; [exact xgeb_spec|]. split; [unfold assumed_signal; rewrite map_length, seq_length; reflexivity|].
  intros i Hi. unfold assumed_signal. rewrite (nth_map_in _ _ _ 0%nat) by (rewrite seq_length; exact Hi). rewrite seq_nth by exact Hi. cbn [plus]. unfold assumed_code. assert (LF : length (firstn c (rev (seq 0 (m_m a)))) = c) by (rewrite firstn_length, rev_length, seq_length; lia). rewrite LF. apply rsum_ext. intros q Hq. f_equal. f_equal.
  assert (NF : forall k (l : list nat), (q < k)%nat -> nth q (firstn k l) 0%nat = nth q l 0%nat) by (clear; induction q as [|q IH]; intros [|k] [|x l] H; try lia; cbn; try reflexivity; apply IH; lia).
  rewrite NF by exact Hq. rewrite rev_nth by (rewrite seq_length; lia). rewrite seq_length, seq_nth by lia. lia.
Qed.
(** The estimate always lies strictly inside (0, 1/2). *)
Lemma refine_once_range lstsq y tol s : 1 / 10 ^ 10 <= s_freq (refine_once lstsq y tol s) <= 1 / 2 - 1 / 10 ^ 10.
Proof.
  unfold refine_once. cbn [s_freq]. unfold rclip. assert (0 < 1 / 10 ^ 10) by (apply Rdiv_lt_0_compat; [lra|apply pow_lt; lra]). assert (1 / 10 ^ 10 <= 1 / 4) by (unfold Rdiv; rewrite !Rmult_1_l; apply Rinv_le_contravar; [lra|]; simpl; lra).
  set (z := s_freq s + _). split; [apply Rmin_glb; [apply Rmax_r|lra]|apply Rmin_r].
Qed.
Lemma estimate_range lstsq x f : estimate_frequency lstsq x = Ok f -> 1 / 10 ^ 10 <= f <= 1 / 2 - 1 / 10 ^ 10.
Proof.
  unfold estimate_frequency, fit_core. destruct (estimate_frequency_fft x) as [g|]; cbn [bind]; [|discriminate]. cbv zeta. change (1 <? 0)%Z with false. cbv iota. change (Z.to_nat 1) with 1%nat. cbn [refine].
  set (s := mkFs _ _ _ _ _ _ _). intros H. apply Ok_inj in H. cbn [f_frequency] in H. rewrite Rmult_1_r in H. rewrite <- H. pose proof (refine_once_range lstsq x (1 / 10 ^ 9) s) as G. destruct (Rltb _ _); exact G.
Qed.
Lemma c134_range kz cz argsort lstsq a f : auto_frequency kz cz argsort lstsq a = Ok f -> 0 < f < 1 / 2.
Proof.
  unfold auto_frequency. cbv zeta. destruct (compute_spectrum kz cz _ _ _ _ _ _ _ _ _ _) as [rA|]; cbn [bind]; [|discriminate]. destruct (compute_spectrum kz cz _ _ _ _ _ _ _ _ _ _) as [rB|]; cbn [bind]; [|discriminate]. intros H. apply estimate_range in H. assert (0 < 1 / 10 ^ 10) by (apply Rdiv_lt_0_compat; [lra|apply pow_lt; lra]). lra.
Qed.
Lemma spectrum_defined kz cz x : x <> [] -> exists sp, compute_spectrum kz cz [x] 1 ScaleAuto Hann None 1 5 0 None 0 = Ok sp.
Proof. intros Hx. exact (sweep_defined kz cz x 1 Hann Hx ltac:(lra)). Qed.
Lemma signal_length a idx : length (assumed_signal a idx) = m_n a.
Proof. unfold assumed_signal. rewrite map_length, seq_length. reflexivity. Qed.
(** Two samples are enough for an answer; fewer raise ValueError. *)
Lemma c134_defined kz cz argsort lstsq a : if (2 <=? m_n a)%nat then exists f, auto_frequency kz cz argsort lstsq a = Ok f else auto_frequency kz cz argsort lstsq a = Err ValueError.
Proof.
  unfold auto_frequency. cbv zeta. set (sA := assumed_signal a (firstn _ _)). set (sB := assumed_signal a (firstn _ (rev _))). assert (LA : length sA = m_n a) by apply signal_length. assert (LB : length sB = m_n a) by apply signal_length.
  assert (NE : forall x : list R, length x = m_n a -> (0 < m_n a)%nat -> x <> []) by (intros x L P ->; cbn in L; lia).
  destruct (Nat.leb_spec 2 (m_n a)) as [H|H].
  - destruct (spectrum_defined kz cz sA (NE _ LA ltac:(lia))) as (rA & ->). destruct (spectrum_defined kz cz sB (NE _ LB ltac:(lia))) as (rB & ->). cbn [bind]. unfold estimate_frequency, fit_core, estimate_frequency_fft, raise_if. cbv zeta.
    assert (L : length (if xgeb (sp_sndr rA) (sp_sndr rB) then sA else sB) = m_n a) by (destruct (xgeb _ _); assumption). rewrite L. assert (1 <= m_n a / 2)%nat by (apply Nat.div_le_lower_bound; lia). destruct (Nat.eqb_spec (m_n a / 2) 0); [lia|]. destruct (_ && _)%bool; cbn [bind]; eexists; reflexivity.
  - destruct (Nat.eq_dec (m_n a) 0) as [Z|Z].
    + assert (EA : sA = []) by (apply length_zero_iff_nil; lia). rewrite EA. reflexivity.
    + destruct (spectrum_defined kz cz sA (NE _ LA ltac:(lia))) as (rA & ->). destruct (spectrum_defined kz cz sB (NE _ LB ltac:(lia))) as (rB & ->). cbn [bind]. unfold estimate_frequency, fit_core, estimate_frequency_fft, raise_if. cbv zeta.
      assert (L : length (if xgeb (sp_sndr rA) (sp_sndr rB) then sA else sB) = m_n a) by (destruct (xgeb _ _); assumption). rewrite L. replace (m_n a) with 1%nat by lia. reflexivity.
Qed.
(** ** C135: one estimate per data set, from its own samples *)
Lemma auto_ext kz cz argsort lstsq a b : (forall l, Permutation (argsort l) (seq 0 (length l))) -> m_n b = m_n a -> m_m b = m_m a -> (forall i j, (i < m_n a)%nat -> (j < m_m a)%nat -> m_at b i j = m_at a i j) -> auto_frequency kz cz argsort lstsq b = auto_frequency kz cz argsort lstsq a.
Proof.
  intros AS N M E. unfold auto_frequency. cbv zeta. rewrite M.
  assert (T : map (toggles b) (seq 0 (m_m a)) = map (toggles a) (seq 0 (m_m a))).
  { apply map_ext_in. intros j Hj. apply in_seq in Hj. unfold toggles. rewrite N. apply rsum_ext. intros i Hi. rewrite !E by lia. reflexivity. }
  rewrite T. set (o := argsort _). assert (B : forall x, In x o -> (x < m_m a)%nat) by (intros x Hx; apply (Permutation_in _ (AS _)), in_seq in Hx; rewrite map_length, seq_length in Hx; lia).
  rewrite !(signal_ext a b (fun j => j)) by (exact N || (intros i j Hi Hj; apply E; [exact Hi|]; apply B; apply firstn_in in Hj; (exact Hj || (apply in_rev; exact Hj)))). rewrite !map_id. reflexivity.
Qed.
Lemma stack_rows m segs : forall pre, (forall s, In s segs -> m_m s = m) -> forall k, (k < length segs)%nat ->
  let s := nth k segs pre in let off := fold_right Nat.add 0%nat (map m_n (firstn k segs)) in
  forall i j, (i < m_n s)%nat -> m_at (vcat_all m segs) (off + i) j = m_at s i j.
Proof.
  induction segs as [|s segs IH]; intros pre W k Hk; [cbn in Hk; lia|]. cbv zeta. intros i j Hi. destruct k as [|k]; cbn [firstn map fold_right nth] in *.
  - cbn [vcat_all fold_right vcat m_at]. cbn [plus]. destruct (Nat.ltb_spec i (m_n s)); [reflexivity|lia].
  - cbn [vcat_all fold_right vcat m_at]. destruct (Nat.ltb_spec (m_n s + fold_right Nat.add 0%nat (map m_n (firstn k segs)) + i) (m_n s)); [lia|].
    replace (m_n s + fold_right Nat.add 0%nat (map m_n (firstn k segs)) + i - m_n s)%nat with (fold_right Nat.add 0%nat (map m_n (firstn k segs)) + i)%nat by lia. apply (IH pre); [intros u Hu; apply W; right; exact Hu|cbn in Hk; lia|exact Hi].
Qed.
Lemma stack_width segs : forall m, m_m (vcat_all m segs) = match segs with s :: _ => m_m s | [] => m end.
Proof. intros m. destruct segs; reflexivity. Qed.
(** For data sets of one width the estimates are those of the data sets by themselves, in order. *)
Lemma c135_per_set kz cz argsort lstsq segs m : (forall l, Permutation (argsort l) (seq 0 (length l))) -> (forall s, In s segs -> m_m s = m) ->
  auto_frequencies (auto_frequency kz cz argsort lstsq) (stack segs) 0 (map m_n segs) = each (auto_frequency kz cz argsort lstsq) segs.
Proof.
  intros AS W. set (f := auto_frequency kz cz argsort lstsq). unfold stack. set (m0 := match segs with s :: _ => m_m s | [] => 0%nat end). assert (MM : segs <> [] -> m_m (vcat_all m0 segs) = m).
  { intros NE. rewrite stack_width. destruct segs; [contradiction|]. apply W. left. reflexivity. }
  assert (G : forall post pre, segs = pre ++ post -> auto_frequencies f (vcat_all m0 segs) (fold_right Nat.add 0%nat (map m_n pre)) (map m_n post) = each f post).
  { induction post as [|s post IH]; intros pre Es; [reflexivity|]. cbn [map auto_frequencies each]. assert (Hk : (length pre < length segs)%nat) by (rewrite Es, app_length; cbn; lia).
    assert (Nk : nth (length pre) segs s = s) by (rewrite Es, app_nth2, Nat.sub_diag by lia; reflexivity). assert (Fk : firstn (length pre) segs = pre) by (rewrite Es, firstn_app, Nat.sub_diag, firstn_all; cbn; apply app_nil_r).
    assert (NE : segs <> []) by (intros C; rewrite C in Hk; cbn in Hk; lia). assert (Ws : m_m s = m) by (apply W; rewrite Es; apply in_or_app; right; left; reflexivity).
    assert (Q : f (rows_from (fold_right Nat.add 0%nat (map m_n pre)) (m_n s) (vcat_all m0 segs)) = f s).
    { apply auto_ext; [exact AS|reflexivity|cbn [rows_from m_m]; rewrite MM by exact NE; congruence|]. intros i j Hi Hj. cbn [rows_from m_at]. assert (W0 : forall u, In u segs -> m_m u = m0) by (intros u Hu; rewrite (W u Hu); unfold m0; destruct segs as [|s0 l]; [contradiction|]; symmetry; apply W; left; reflexivity).
      pose proof (stack_rows m0 segs s W0 (length pre) Hk) as SR. cbv zeta in SR. rewrite Nk, Fk in SR. apply SR, Hi. }
    rewrite Q. destruct (f s) as [y|]; cbn [bind]; [|reflexivity]. replace (fold_right Nat.add 0%nat (map m_n pre) + m_n s)%nat with (fold_right Nat.add 0%nat (map m_n (pre ++ [s]))).
    2:{ rewrite map_app. clear. induction (map m_n pre) as [|x l IHl]; cbn in *; lia. }
    rewrite (IH (pre ++ [s])); [reflexivity|rewrite <- app_assoc; exact Es]. }
  apply (G segs []). reflexivity.
Qed.

(** The calibration with no frequency given uses these estimates; with a frequency given it uses none. *)
Lemma c135_calibration kz cz argsort lstsq rank bits freq force nominal H lr reltol mi : (forall l, Permutation (argsort l) (seq 0 (length l))) ->
  calibrate_auto kz cz argsort lstsq rank bits freq force nominal H lr reltol mi =
  if existsb (fun x => Rltb (1 / 2) x) (freq_list freq) then Err ValueError
  else match prepare_input bits nominal with
       | Err e => Err e
       | Ok (segs, _, _) => match (if all_zero freq then each (auto_frequency kz cz argsort lstsq) segs else Ok []) with
                            | Err e => Err e
                            | Ok fs => calibrate_weight_sine lstsq rank (fun k => nth k fs 0) bits freq force nominal H lr reltol mi
                            end
       end.
Proof.
  intros AS. unfold calibrate_auto, raise_if. destruct (existsb _ _); [reflexivity|]. destruct (prepare_input bits nominal) as [((segs & bw) & nw)|e] eqn:P; cbn [bind]; [|reflexivity]. destruct (all_zero freq); [|reflexivity].
  assert (W : exists m, forall s, In s segs -> m_m s = m).
  { unfold prepare_input in P. destruct bits as [|b0 bits]; [discriminate|]. destruct (prepare_loop (b0 :: bits) None) as [sg|] eqn:L; cbn [bind] in P; [|discriminate]. destruct (setup_nominal_weights _ _); cbn [bind] in P; [|discriminate]. injection P as <- _ _.
    destruct (proj1 (prepare_loop_spec (b0 :: bits) None) sg L) as (-> & _ & E). exists (width b0). intros s Hs. apply in_map_iff in Hs. destruct Hs as (u & <- & Hu). rewrite <- (E u b0 Hu (or_introl eq_refl)). unfold oriented, width, transpose. destruct (m_n u <? m_m u)%nat eqn:Q; [apply Nat.ltb_lt in Q|apply Nat.ltb_ge in Q]; cbn [m_m m_n]; lia. }
  destruct W as (m & W). rewrite (c135_per_set kz cz argsort lstsq segs m AS W). destruct (each _ segs); reflexivity.
Qed.
(** When the leading bits are exactly a coherent sine and are chosen (or there is only one bit), its frequency is found
    exactly. *)
Lemma c134_exact kz cz argsort lstsq a k A ph off : least_squares lstsq -> (forall l, sorts l (argsort l)) -> (forall j k, (j < k < m_m a)%nat -> (changes a j < changes a k)%nat) ->
  (0 < k)%nat -> (k < m_n a / 2)%nat -> (5 <= m_n a)%nat -> INR (m_n a) <= 10 ^ 10 -> 0 < A ->
  (forall i, (i < m_n a)%nat -> leading_code (Nat.min 6 (m_m a)) a i = sine A (INR k / INR (m_n a)) ph off i) ->
  m_m a = 1%nat \/ (forall x rA rB, compute_spectrum kz cz [map (leading_code (Nat.min 6 (m_m a)) a) (seq 0 (m_n a))] 1 ScaleAuto Hann None 1 5 0 None 0 = Ok rA -> compute_spectrum kz cz [x] 1 ScaleAuto Hann None 1 5 0 None 0 = Ok rB ->
     (forall i, (i < m_n a)%nat -> nth i x 0 = rsum (Nat.min 6 (m_m a)) (fun q => m_at a i (m_m a - 1 - q)%nat * 2 ^ (Nat.min 6 (m_m a) - 1 - q))) -> at_least (sp_sndr rA) (sp_sndr rB)) ->
  auto_frequency kz cz argsort lstsq a = Ok (INR k / INR (m_n a)).
Proof.
  intros LS AS Inc K0 K1 N5 NB PA R W. destruct (c134_leading_bits kz cz argsort lstsq a AS Inc) as (sB & -> & XS & LB & VB). set (c := Nat.min 6 (m_m a)) in *. set (x := map (leading_code c a) (seq 0 (m_n a))) in *.
  assert (Lx : length x = m_n a) by (unfold x; rewrite map_length, seq_length; reflexivity). assert (Nx : forall i, (i < m_n a)%nat -> nth i x 0 = leading_code c a i) by (intros i Hi; unfold x; rewrite (nth_map_in _ _ _ 0%nat) by (rewrite seq_length; exact Hi); rewrite seq_nth by exact Hi; reflexivity).
  destruct (spectrum_defined kz cz x) as (rA & EA); [intros C; rewrite C in Lx; cbn in Lx; lia|]. destruct (spectrum_defined kz cz sB) as (rB & EB); [intros C; rewrite C in LB; cbn in LB; lia|]. rewrite EA, EB. cbn [bind].
  assert (X : (if xgeb (sp_sndr rA) (sp_sndr rB) then x else sB) = x).
  { destruct W as [M1|W]; [|rewrite (proj2 (XS _ _) (W sB rA rB EA EB VB)); reflexivity]. destruct (xgeb _ _); [reflexivity|]. apply (nth_ext _ _ 0 0); [congruence|]. intros i Hi. rewrite LB in Hi. rewrite VB, Nx by exact Hi. unfold leading_code, c. rewrite M1. reflexivity. }
  rewrite X. unfold estimate_frequency. destruct (c84_auto_fit lstsq x k A ph off 1 (1 / 10 ^ 9) LS K0) as (r & -> & F & _); rewrite ?Lx; try assumption; try lia; [apply Rdiv_lt_0_compat; [lra|apply pow_lt; lra]|intros t Ht; rewrite Lx in Ht; rewrite Nx by exact Ht; apply R, Ht|].
  cbn [bind]. rewrite F, Lx, Rmult_1_r. reflexivity.
Qed.
(** ** Examples *)
(** One bit 1,0,0,1,...: a sine of amplitude sqrt(1/2) at a quarter of the rate. *)
Definition one_bit : mat := mkMat 8 1 (fun i _ => nth i [1; 0; 0; 1; 1; 0; 0; 1] 0).
Lemma c134_exact_ex kz cz : auto_frequency kz cz ins_argsort gs_lstsq one_bit = Ok (1 / 4).
Proof.
  replace (1 / 4) with (INR 2 / INR (m_n one_bit)) by (cbn; field). apply (c134_exact kz cz ins_argsort gs_lstsq one_bit 2 (sqrt 2 / 2) (PI / 4) (1 / 2) gs_least_squares ins_argsort_sorts).
  - intros j k' H. cbn [one_bit m_m] in H. lia.
  - lia.
  - cbn. lia.
  - cbn. lia.
  - cbn [one_bit m_n]. apply (Rle_trans _ (10 ^ 1)); [cbn; lra|apply Rle_pow; [lra|lia]].
  - pose proof (sqrt_lt_R0 2 ltac:(lra)). lra.
  - intros i Hi. cbn [one_bit m_n m_m] in *. change (Nat.min 6 1) with 1%nat. unfold leading_code. cbn [rsum one_bit m_at]. unfold sine. rewrite cos_plus, cos_PI4, sin_PI4. replace (2 * PI * (INR 2 / INR 8) * INR i) with (2 * PI * (1 / 4) * INR i) by (cbn; field). rewrite cos_quarter.
    assert (S : sin (2 * PI * (1 / 4) * INR i) = cos (2 * PI * (1 / 4) * INR (i + 3))).
    { rewrite plus_INR. replace (2 * PI * (1 / 4) * (INR i + INR 3)) with (2 * PI * (1 / 4) * INR i + 3 * (PI / 2)) by (cbn; field). rewrite cos_plus, cos_3PI2, sin_3PI2. ring. }
    rewrite S, cos_quarter. assert (Q : sqrt 2 / 2 * (1 / sqrt 2) = 1 / 2) by (field; apply Rgt_not_eq, sqrt_lt_R0; lra).
    do 8 (destruct i as [|i]; [cbn; nra|]). lia.
  - left. reflexivity.
Qed.
(** Two columns in both orders (one toggles 1 time, the other 3 times). *)
Definition two_bits : mat := mkMat 4 2 (fun i j => nth j (nth i [[0; 0]; [0; 1]; [1; 0]; [1; 1]] []) 0).
Definition two_bits_swapped : mat := mkMat 4 2 (fun i j => nth j (nth i [[0; 0]; [1; 0]; [0; 1]; [1; 1]] []) 0).
Lemma two_bits_changes : changes two_bits 0 = 1%nat /\ changes two_bits 1 = 3%nat.
Proof. unfold changes. cbn [two_bits m_n Nat.sub seq filter m_at nth]. repeat (destruct (Req_EM_T _ _) as [?|?]; try (exfalso; lra)). split; reflexivity. Qed.
Lemma c134_column_order_ex kz cz lstsq : auto_frequency kz cz ins_argsort lstsq two_bits = auto_frequency kz cz ins_argsort lstsq two_bits_swapped.
Proof.
  destruct two_bits_changes as (C0' & C1'). apply (c134_column_order kz cz ins_argsort ins_argsort lstsq [1; 0]%nat); [apply ins_argsort_sorts|apply ins_argsort_sorts| |].
  - split; [apply perm_swap|]. split; [reflexivity|]. split; [reflexivity|]. intros i j Hi Hj. cbn [two_bits m_n m_m] in *. destruct j as [|[|j]]; [| |lia]; do 4 (destruct i as [|i]; [reflexivity|]); lia.
  - intros j k Hj Hk Q. cbn [two_bits m_m] in *. destruct j as [|[|j]]; destruct k as [|[|k]]; try lia; rewrite ?C0', ?C1' in Q; discriminate.
Qed.
Lemma c134_leading_bits_ex : map (leading_code 2 two_bits) (seq 0 4) = [0; 1; 2; 3].
Proof. unfold leading_code. cbn. repeat f_equal; ring. Qed.
Lemma c134_defined_ex kz cz lstsq : (exists f, auto_frequency kz cz ins_argsort lstsq two_bits = Ok f /\ 0 < f < 1 / 2) /\ auto_frequency kz cz ins_argsort lstsq (mkMat 1 1 (fun _ _ => 1)) = Err ValueError.
Proof.
  split.
  - destruct (c134_defined kz cz ins_argsort lstsq two_bits) as (f & E). exists f. split; [exact E|]. exact (c134_range kz cz ins_argsort lstsq two_bits f E).
  - exact (c134_defined kz cz ins_argsort lstsq (mkMat 1 1 (fun _ _ => 1))).
Qed.
(** Two data sets of one bit. *)
Lemma c135_per_set_ex kz cz : auto_frequencies (auto_frequency kz cz ins_argsort gs_lstsq) (stack [one_bit; one_bit]) 0 [8; 8]%nat = Ok [1 / 4; 1 / 4].
Proof.
  change [8; 8]%nat with (map m_n [one_bit; one_bit]). rewrite (c135_per_set kz cz ins_argsort gs_lstsq [one_bit; one_bit] 1); [|intros l; apply (ins_argsort_sorts l)|intros s [<-|[<-|[]]]; reflexivity]. cbn [each]. rewrite c134_exact_ex. reflexivity.
Qed.
Lemma c135_calibration_ex kz cz rank : calibrate_auto kz cz ins_argsort gs_lstsq rank [one_bit] FNone None None 1 0.5 (1 / 10 ^ 12) 100 = calibrate_weight_sine gs_lstsq rank (fun k => nth k [1 / 4] 0) [one_bit] FNone None None 1 0.5 (1 / 10 ^ 12) 100.
Proof. rewrite c135_calibration by (intros l; apply (ins_argsort_sorts l)). cbn [freq_list existsb all_zero forallb prepare_input prepare_loop one_bit m_n m_m]. cbn [raise_if Nat.mul Nat.add Nat.eqb Nat.ltb Nat.leb bind setup_nominal_weights each]. change (mkMat 8 1 (fun i _ => nth i [1; 0; 0; 1; 1; 0; 0; 1] 0)) with one_bit. rewrite c134_exact_ex. reflexivity. Qed.
