(** * The remaining MATLAB generators and fits: the final lemmas are named c176_ - c179_. *)
From Verif Require Import Base BaseLemmas Cplx SpecModel SpecLemmas CalModel CalSpec CalProofs TiModel FitModel FitSpec FitProofs AcfModel AcfProofs RampModel EpdfModel NonlinModel NonlinSpec NonlinProofs SiggenModel SiggenSpec SiggenProofs DoutModel DoutSpec DoutProofs SineHistModel SineHistProofs OsrSpec PlotModel DrawSpec DrawProofs DplotModel DplotSpec DplotProofs CapModel MatModel MatSpec MatProofs MsinModel MsinProofs CalExLemmas CalExProofs TiToneProofs SpecToneProofs RearProofs HarmModel HarmSpec HarmProofs MerrModel MerrProofs MgenModel MgenSpec.
From Coq Require Import Psatz ZifyBool Permutation.
Local Open Scope R_scope.

(* ---------- C176: noiseshape ---------- *)
Lemma dot_nth_skip (b : list R) i v h : dot (skipn i b) (v :: h) = nth i b 0 * v + dot (skipn (S i) b) h.
Proof.
  revert i. induction b as [| c b IH]; intros [| i]; cbn [skipn nth dot]; try ring. apply IH.
Qed.
Lemma nth_div (l : list R) s i : nth i (map (fun c => c / s) l) 0 = nth i l 0 / s.
Proof.
  destruct (lt_dec i (length l)) as [L | L]; [rewrite (nth_map_in _ _ _ 0) by exact L; reflexivity |]. rewrite !nth_overflow by (rewrite ?map_length; lia). unfold Rdiv. ring.
Qed.
Lemma filter_forms b a x : forall xh yh z, hd 0 a <> 0 ->
  (forall i, z i = (dot (skipn (S i) b) xh - dot (skipn (S i) a) yh) / hd 0 a) ->
  m_filter_loop (map (fun c => c / hd 0 a) b) (map (fun c => c / hd 0 a) a) z x = lfilter_from b a xh yh x.
Proof.
  induction x as [| v x IH]; intros xh yh z NZ Z; [reflexivity |]. cbn [m_filter_loop lfilter_from].
  assert (Y : nth 0 (map (fun c => c / hd 0 a) b) 0 * v + z 0%nat = (dot b (v :: xh) - dot (tl a) yh) / hd 0 a).
  { rewrite nth_div, Z. pose proof (dot_nth_skip b 0 v xh) as D. change (skipn 0 b) with b in D. rewrite D. replace (skipn 1 a) with (tl a) by (destruct a; reflexivity). field. exact NZ. }
  rewrite Y. f_equal. apply IH; [exact NZ |]. intros i. rewrite Z, !nth_div, !dot_nth_skip. field. exact NZ.
Qed.
(** MATLAB's filter (direct form II transposed, normalised) computes what scipy's does. *)
Lemma c176_filter b a x : b <> [] -> (hd 0 a <> 0 -> exists y, m_filter b a x = Ok y /\ lfilter b a x = Ok y /\ length y = length x /\ forall t, (t < length x)%nat -> convolve a y t = convolve b x t) /\
  (hd 0 a = 0 -> m_filter b a x = Err RuntimeError /\ lfilter b a x = Err ValueError).
Proof.
  intros B. assert (LB : (length b =? 0)%nat = false) by (destruct b; [congruence | reflexivity]). unfold m_filter. rewrite LB.
  assert (H0 : nth 0 a 0 = hd 0 a) by (destruct a; reflexivity). rewrite H0. cbn [orb]. split.
  - intros NZ. assert (LA : (length a =? 0)%nat = false) by (destruct a; [cbn in NZ; congruence | reflexivity]). rewrite LA. destruct (Reqb_spec (hd 0 a) 0); [contradiction |]. cbn [orb raise_if]. exists (lfilter_from b a [] [] x).
    rewrite (filter_forms b a x [] [] (fun _ => 0) NZ). 2:{ intros i. rewrite !dot_nil_r. field. exact NZ. }
    split; [reflexivity |]. assert (E : lfilter b a x = Ok (lfilter_from b a [] [] x)) by (unfold lfilter; destruct (Reqb_spec (hd 0 a) 0); [contradiction | reflexivity]). split; [exact E |]. split; [apply lfilter_length |]. intros t T. apply (lfilter_eq _ _ _ _ t E T).
  - intros Z. unfold lfilter. destruct (Reqb_spec (hd 0 a) 0); [| contradiction]. rewrite Bool.orb_true_r. split; reflexivity.
Qed.
Lemma default_table order : (1 <= order <= 5)%Z -> ntf_table order = Some (m_default_ntf (Z.to_nat order)).
Proof.
  intros O. assert (H : order = 1%Z \/ order = 2%Z \/ order = 3%Z \/ order = 4%Z \/ order = 5%Z) by lia.
  destruct H as [-> | [-> | [-> | [-> | ->]]]]; unfold ntf_table, m_default_ntf; cbn [Z.eqb Pos.eqb]; f_equal;
  match goal with |- context [Z.to_nat ?z] => let v := eval compute in (Z.to_nat z) in change (Z.to_nat z) with v end; cbn [seq map];
  repeat match goal with |- context [nchoosek ?a ?b] => let v := eval compute in (nchoosek a b) in change (nchoosek a b) with v end; cbn [pow]; repeat (apply f_equal2; [lra |]); reflexivity.
Qed.
Lemma default_binomial order : (1 <= order <= 5)%nat -> length (m_default_ntf order) = S order /\ (forall x, rsum (S order) (fun k => nth k (m_default_ntf order) 0 * x ^ k) = (1 - x) ^ order).
Proof.
  intros O. split; [unfold m_default_ntf; rewrite map_length, seq_length; reflexivity |]. intros x.
  assert (H : order = 1%nat \/ order = 2%nat \/ order = 3%nat \/ order = 4%nat \/ order = 5%nat) by lia.
  destruct H as [-> | [-> | [-> | [-> | ->]]]]; unfold m_default_ntf; cbn [rsum seq map nth];
  repeat match goal with |- context [nchoosek ?a ?b] => let v := eval compute in (nchoosek a b) in change (nchoosek a b) with v end; cbn [pow]; ring.
Qed.
Lemma ns_guard o : (ns_valid o -> ((o_N o <=? 0)%Z || Rleb (o_Fs o) 0 || Rleb (o_Fin o) 0 || (o_bits o <=? 0)%Z || Rleb (o_hi o) (o_lo o) || (o_order o <? 1)%Z || (5 <? o_order o)%Z)%bool = false) /\
  (~ ns_valid o -> ((o_N o <=? 0)%Z || Rleb (o_Fs o) 0 || Rleb (o_Fin o) 0 || (o_bits o <=? 0)%Z || Rleb (o_hi o) (o_lo o) || (o_order o <? 1)%Z || (5 <? o_order o)%Z)%bool = true).
Proof.
  unfold ns_valid. split.
  - intros (N & F & I & B & R & O). unfold Rleb. destruct (Rle_dec (o_Fs o) 0), (Rle_dec (o_Fin o) 0), (Rle_dec (o_hi o) (o_lo o)); try lra. lia.
  - intros H. unfold Rleb. destruct (Rle_dec (o_Fs o) 0), (Rle_dec (o_Fin o) 0), (Rle_dec (o_hi o) (o_lo o)); try lia. apply Bool.not_false_iff_true. intros Q. apply H. repeat split; try lra; lia.
Qed.
Definition ns_gen (o : ns_opts) : gen := mkGen (Z.to_nat (o_N o)) (o_Fs o) (o_Fin o) (o_A o) (o_DC o).
Definition some_signal (s : option (list R)) : option (list R) := match s with Some [] => None | _ => s end.
Lemma ns_resolve s o : match s with None | Some [] => map (fun i => o_A o * sin (2 * PI * o_Fin o * (INR i / o_Fs o)) + o_DC o) (seq 0 (Z.to_nat (o_N o))) | Some s => s end = resolve_signal (ns_gen o) (some_signal s).
Proof. destruct s as [[| v l] |]; reflexivity. Qed.
Lemma ns_qerr g n lo hi x : map2 Rminus (map (fun c => c * ((hi - lo) / 2 ^ n) + lo) (map (fun v => Rmin (Rmax (IZR (Zfloor ((v - lo) / ((hi - lo) / 2 ^ n)))) 0) (2 ^ n - 1)) x)) x = map2 (fun a b => a - b) (apply_quantization_noise g (Some x) n lo hi) x.
Proof. unfold apply_quantization_noise. cbn [resolve_signal]. rewrite map_map. reflexivity. Qed.
(** With the options MATLAB accepts and the same transfer function, MATLAB and Python return the same
    record or both refuse. *)
Lemma c176_agrees sigin o p : ns_valid o -> same_ntf (o_ntf o) p ->
  let py := apply_noise_shaping (mkGen (Z.to_nat (o_N o)) (o_Fs o) (o_Fin o) (o_A o) (o_DC o)) (match sigin with Some [] => None | _ => sigin end) (Z.to_nat (o_bits o)) (o_lo o) (o_hi o) (o_order o) p in
  (exists out info, m_noiseshape sigin o = Ok (out, info) /\ py = Ok out) \/ (m_noiseshape sigin o = Err RuntimeError /\ py = Err ValueError).
Proof.
  intros V S py. unfold py. clear py. change (mkGen _ _ _ _ _) with (ns_gen o). change (match sigin with Some [] => None | _ => sigin end) with (some_signal sigin). unfold m_noiseshape. rewrite (proj1 (ns_guard o) V). cbn [raise_if]. rewrite ns_resolve. set (x := resolve_signal (ns_gen o) (some_signal sigin)).
  assert (K : exists num den, num <> [] /\ m_resolve_ntf (o_ntf o) (Z.to_nat (o_order o)) = Ok (num, den) /\
    match p with NtfNone => match ntf_table (o_order o) with Some num => Ok (num, [1]) | None => Err ValueError end | NtfFir num => Ok (num, [1]) | NtfIir num den => Ok (num, den) end = Ok (num, den)).
  { destruct p as [| num | num den]; cbn [same_ntf] in S.
    - destruct V as (_ & _ & _ & _ & _ & O). rewrite (default_table _ O). exists (m_default_ntf (Z.to_nat (o_order o))), [1]. split; [unfold m_default_ntf; discriminate |]. destruct S as [-> | ->]; split; reflexivity.
    - destruct S as (NN & [-> | ->]); exists num, [1]; (split; [exact NN |]); (destruct num; [congruence |]); split; reflexivity.
    - destruct S as (NN & [-> | ->]); exists num, den; (split; [exact NN |]); split; reflexivity. }
  destruct K as (num & den & NN & K1 & K2). rewrite K1. unfold apply_noise_shaping. rewrite K2. cbn [bind fst snd]. fold x. rewrite (ns_qerr (ns_gen o)). set (e := map2 (fun a b => a - b) (apply_quantization_noise (ns_gen o) (Some x) (Z.to_nat (o_bits o)) (o_lo o) (o_hi o)) x).
  destruct (c176_filter num den e NN) as (F1 & F2). destruct (Req_dec (hd 0 den) 0) as [Z | NZ].
  - destruct (F2 Z) as (-> & ->). right. split; reflexivity.
  - destruct (F1 NZ) as (y & -> & -> & _). left. cbn [bind]. eexists. eexists. split; reflexivity.
Qed.
Lemma ns_inv sigin o out i : m_noiseshape sigin o = Ok (out, i) ->
  let x := resolve_signal (ns_gen o) (some_signal sigin) in let n := Z.to_nat (o_bits o) in
  ns_valid o /\ m_resolve_ntf (o_ntf o) (Z.to_nat (o_order o)) = Ok (i_num i, i_den i) /\ m_filter (i_num i) (i_den i) (i_qerr i) = Ok (i_shaped i) /\
  i_clean i = x /\ out = map2 Rplus x (i_shaped i) /\ i_lsb i = (o_hi o - o_lo o) / 2 ^ n /\ i_N i = length x /\
  i_codes i = map (fun v => Rmin (Rmax (IZR (Zfloor ((v - o_lo o) / i_lsb i))) 0) (2 ^ n - 1)) x /\
  i_quantized i = map (fun c => c * i_lsb i + o_lo o) (i_codes i) /\ i_qerr i = map2 Rminus (i_quantized i) x.
Proof.
  unfold m_noiseshape. destruct (ns_guard o) as (G1 & G2). destruct ((o_N o <=? 0)%Z || Rleb (o_Fs o) 0 || Rleb (o_Fin o) 0 || (o_bits o <=? 0)%Z || Rleb (o_hi o) (o_lo o) || (o_order o <? 1)%Z || (5 <? o_order o)%Z)%bool eqn:G; cbn [raise_if]; [discriminate |].
  rewrite ns_resolve. cbv zeta. destruct (m_resolve_ntf (o_ntf o) (Z.to_nat (o_order o))) as [[num den] |] eqn:R; cbn [bind]; [| discriminate]. cbn [fst snd].
  match goal with |- bind (m_filter _ _ ?e) _ = _ -> _ => set (E := e) end. destruct (m_filter num den E) as [sh |] eqn:F; cbn [bind]; [| discriminate].
  intros Q. apply Ok_inj in Q. injection Q as <- <-. cbn. split; [| repeat split; try reflexivity; exact F]. destruct (Rlt_dec 0 (o_Fs o)); [| exfalso]. 2:{ assert (X : ~ ns_valid o) by (unfold ns_valid; tauto). specialize (G2 X). congruence. }
  assert (DV : ns_valid o \/ ~ ns_valid o). { unfold ns_valid. destruct (Rlt_dec 0 (o_Fin o)), (Rlt_dec (o_lo o) (o_hi o)), (Z_lt_dec 0 (o_N o)), (Z_lt_dec 0 (o_bits o)), (Z_le_dec 1 (o_order o)), (Z_le_dec (o_order o) 5); tauto. }
  destruct DV as [V | V]; [exact V | specialize (G2 V); congruence].
Qed.
Lemma ntf_resolved m order num den : (1 <= order <= 5)%nat -> m_resolve_ntf m order = Ok (num, den) -> ntf_means m order num den.
Proof.
  intros O. pose proof (default_binomial order O) as (D1 & D2). unfold m_resolve_ntf, ntf_means. destruct m as [[| c l] | [| l1 [| l2 [| l3 l]]] | [n |] [d |] |]; intros E; try discriminate E; apply Ok_inj in E; injection E as <- <-; try (split; [exact D1 | split; [exact D2 | reflexivity]]); try (split; reflexivity); reflexivity.
Qed.
(** What is returned: codes 0 .. 2^bits - 1, their levels, the error (in (-lsb, 0] while the input is in
    range), that error filtered by the transfer function meant, and the input plus it. *)
Lemma c176_outputs sigin o out i : m_noiseshape sigin o = Ok (out, i) ->
  let lsb := (o_hi o - o_lo o) / 2 ^ Z.to_nat (o_bits o) in let n := i_N i in
  ns_signal sigin o (i_clean i) /\ ntf_means (o_ntf o) (Z.to_nat (o_order o)) (i_num i) (i_den i) /\ i_lsb i = lsb /\
  length (i_clean i) = n /\ length (i_codes i) = n /\ length (i_quantized i) = n /\ length (i_qerr i) = n /\ length (i_shaped i) = n /\ length out = n /\
  forall t, (t < n)%nat -> let x := nth t (i_clean i) 0 in
    (exists k, (0 <= k < 2 ^ o_bits o)%Z /\ nth t (i_codes i) 0 = IZR k /\ nth t (i_quantized i) 0 = o_lo o + IZR k * lsb) /\
    nth t (i_qerr i) 0 = nth t (i_quantized i) 0 - x /\ (o_lo o <= x < o_hi o -> - lsb < nth t (i_qerr i) 0 <= 0) /\
    convolve (i_den i) (i_shaped i) t = convolve (i_num i) (i_qerr i) t /\ nth t out 0 = x + nth t (i_shaped i) 0.
Proof.
  intros E lsb n. destruct (ns_inv _ _ _ _ E) as (V & R & F & CL & OUT & LS & NN & CD & QU & QE). set (x := resolve_signal (ns_gen o) (some_signal sigin)) in *. fold lsb in LS. rewrite LS in *. pose proof V as (VN & VF & VI & VB & VR & VO).
  assert (NX : length x = n) by (unfold n; rewrite NN; reflexivity).
  assert (LC : length (i_codes i) = n) by (rewrite CD, map_length; exact NX). assert (LQ : length (i_quantized i) = n) by (rewrite QU, map_length; exact LC).
  assert (LE : length (i_qerr i) = n) by (rewrite QE, map2_length; lia).
  assert (NUM : i_num i <> []). { intros Z. rewrite Z in F. unfold m_filter in F. cbn [length Nat.eqb orb raise_if] in F. discriminate F. }
  destruct (c176_filter (i_num i) (i_den i) (i_qerr i) NUM) as (F1 & F2). destruct (Req_dec (hd 0 (i_den i)) 0) as [Z | NZ]; [destruct (F2 Z) as (X & _); congruence |].
  destruct (F1 NZ) as (y & Y1 & _ & LY & CV). rewrite F in Y1. apply Ok_inj in Y1. subst y. rewrite LE in LY, CV.
  split. { unfold ns_signal. rewrite CL. unfold x. destruct sigin as [[| v l] |]; cbn [some_signal resolve_signal]; [| reflexivity |]; unfold clean_signal, ns_gen, clean_at; cbn [g_N g_Fs g_Fin g_A g_DC]; rewrite map_length, seq_length; (split; [reflexivity |]); intros t T; rewrite (nth_map_in _ _ _ 0%nat) by (rewrite seq_length; exact T); rewrite seq_nth by exact T; cbn [Nat.add]; do 3 f_equal; field; lra. }
  split; [apply ntf_resolved; [lia | exact R] |]. split; [reflexivity |]. split; [rewrite CL; exact NX |]. split; [exact LC |]. split; [exact LQ |]. split; [exact LE |]. split; [exact LY |]. split; [rewrite OUT, map2_length; lia |].
  intros t T xt. set (nb := Z.to_nat (o_bits o)) in *. assert (XT : xt = nth t x 0) by (unfold xt; rewrite CL; reflexivity).
  pose proof (quantise_code nb (o_lo o) (o_hi o) xt) as QC.
  assert (LSB : lsb_of nb (o_lo o) (o_hi o) = lsb) by reflexivity. rewrite LSB in QC.
  assert (QT : nth t (i_quantized i) 0 = quantise nb (o_lo o) (o_hi o) xt). { rewrite QU, (nth_map_in _ _ _ 0) by lia. rewrite CD, (nth_map_in _ _ _ 0) by lia. rewrite <- XT. reflexivity. }
  set (k := Z.min (Z.max (Zfloor ((xt - o_lo o) / lsb)) 0) (2 ^ Z.of_nat nb - 1)) in *.
  assert (QE' : nth t (i_qerr i) 0 = nth t (i_quantized i) 0 - xt) by (rewrite QE, (map2_nth _ _ _ t 0 0) by lia; rewrite XT; reflexivity).
  assert (LP : 0 < lsb) by (unfold lsb; apply Rdiv_lt_0_compat; [lra | apply pow_lt; lra]).
  split; [| split; [exact QE' | split; [| split; [apply CV; exact T |]]]].
  - exists k. pose proof (M_pos nb) as P. assert (KB : (0 <= k < 2 ^ Z.of_nat nb)%Z) by (unfold k; lia). unfold nb in KB. rewrite Z2Nat.id in KB by lia. split; [exact KB |]. split; [| rewrite QT; exact QC].
    assert (X : nth t (i_codes i) 0 * lsb + o_lo o = o_lo o + IZR k * lsb). { rewrite <- QC, <- QT, QU, (nth_map_in _ _ _ 0) by lia. ring. } apply (Rmult_eq_reg_r lsb); lra.
  - intros XB. rewrite QE', QT. destruct (c48_error nb (o_lo o) (o_hi o) xt VR) as (H & _). specialize (H XB). rewrite LSB in H. lra.
  - rewrite OUT, (map2_nth _ _ _ t 0 0) by lia. rewrite XT. reflexivity.
Qed.
(** Exactly which calls are refused: an option out of its range, a malformed transfer function, an empty
    numerator, or a denominator that is empty or starts with zero. *)
Lemma c176_refuses sigin o : let good := ns_valid o /\ exists num den, ntf_means (o_ntf o) (Z.to_nat (o_order o)) num den /\ num <> [] /\ hd 0 den <> 0 in
  (good -> exists r, m_noiseshape sigin o = Ok r) /\ (~ good -> m_noiseshape sigin o = Err RuntimeError).
Proof.
  intros good. destruct (m_noiseshape sigin o) as [[out i] | e] eqn:E.
  - split; [intros _; exists (out, i); reflexivity |]. intros NG. exfalso. apply NG. destruct (ns_inv _ _ _ _ E) as (V & R & F & _). split; [exact V |]. exists (i_num i), (i_den i). split; [apply ntf_resolved; [destruct V as (_ & _ & _ & _ & _ & V); lia | exact R] |].
    unfold m_filter in F. destruct (i_num i); [discriminate F |]. split; [discriminate |]. destruct (i_den i) as [| d0 d]; [discriminate F |]. cbn [length Nat.eqb orb nth hd] in F |- *. destruct (Reqb_spec d0 0); [discriminate F | assumption].
  - assert (EE : e = RuntimeError). { unfold m_noiseshape in E. match type of E with raise_if ?b _ _ = _ => destruct b; cbn [raise_if] in E; [congruence |] end. cbv zeta in E. destruct (m_resolve_ntf (o_ntf o) (Z.to_nat (o_order o))) as [nd | e'] eqn:R; cbn [bind] in E.
      - unfold m_filter in E. match type of E with bind (raise_if ?b _ _) _ = _ => destruct b; cbn [raise_if bind] in E; [congruence | discriminate E] end.
      - unfold m_resolve_ntf in R. destruct (o_ntf o) as [[| c l] | [| l1 [| l2 [| l3 l]]] | [n |] [d |] |]; congruence. }
    split; [| intros _; rewrite EE; reflexivity]. intros (V & num & den & M & NN & ND). exfalso.
    unfold m_noiseshape in E. rewrite (proj1 (ns_guard o) V) in E. cbn [raise_if] in E. cbv zeta in E.
    assert (R : exists num', m_resolve_ntf (o_ntf o) (Z.to_nat (o_order o)) = Ok (num', den) /\ num' <> []).
    { unfold ntf_means in M. unfold m_resolve_ntf. destruct (o_ntf o) as [[| c l] | [| l1 [| l2 [| l3 l]]] | [n |] [d |] |]; try contradiction; try discriminate M; try (destruct M as (M & _); discriminate M).
      - destruct M as (_ & _ & ->). exists (m_default_ntf (Z.to_nat (o_order o))). split; [reflexivity | unfold m_default_ntf; discriminate].
      - destruct M as (-> & ->). exists (c :: l). split; [reflexivity | discriminate].
      - destruct M as (_ & _ & ->). exists (m_default_ntf (Z.to_nat (o_order o))). split; [reflexivity | unfold m_default_ntf; discriminate].
      - injection M as -> ->. exists num. split; [reflexivity | exact NN].
      - destruct M as (M & ->). injection M as ->. exists num. split; [reflexivity | exact NN].
      - destruct M as (M & ->). injection M as ->. exists num. split; [reflexivity | exact NN]. }
    destruct R as (num' & R & NN'). rewrite R in E. cbn [bind fst snd] in E.
    match type of E with bind (m_filter _ _ ?e) _ = _ => destruct (proj1 (c176_filter num' den e NN') ND) as (y & Y & _) end. rewrite Y in E. discriminate E.
Qed.
(** With an explicit transfer function the order is not used, but MATLAB still checks it; Python does
    not. *)
Lemma c176_order_refuted : exists o x num, o_ntf o = MNum num /\ m_noiseshape (Some x) o = Err RuntimeError /\
  exists out, apply_noise_shaping (mkGen 1 1 (1 / 64) 0.4 0) (Some x) (Z.to_nat (o_bits o)) (o_lo o) (o_hi o) (o_order o) (NtfFir num) = Ok out.
Proof.
  exists (mkNsOpts 8192 1 (1 / 64) 0.4 0 10 (-0.5) 0.5 6 (MNum [1])), [0], [1]. split; [reflexivity |]. split.
  - apply (proj2 (c176_refuses (Some [0]) _)). intros ((_ & _ & _ & _ & _ & O) & _). cbn in O. lia.
  - unfold apply_noise_shaping. cbn [bind fst snd]. unfold lfilter. cbn [hd]. destruct (Reqb_spec 1 0); [lra |]. eexists. reflexivity.
Qed.
(** One bit over (0, 1), second order: 0.75, 0.75, 0.25 become 0.5, 1, 0.25. *)
Example c176_outputs_ex : exists i, m_noiseshape (Some [0.75; 0.75; 0.25]) (mkNsOpts 100 1 (1 / 64) 0.4 0 1 0 1 2 (MNum [])) = Ok ([0.5; 1; 0.25], i) /\ i_codes i = [1; 1; 0] /\ i_num i = [1; -2; 1] /\
  apply_noise_shaping (mkGen 100 1 (1 / 64) 0.4 0) (Some [0.75; 0.75; 0.25]) 1 0 1 2 NtfNone = Ok [0.5; 1; 0.25].
Proof.
  set (o := mkNsOpts 100 1 (1 / 64) 0.4 0 1 0 1 2 (MNum [])).
  assert (V : ns_valid o) by (unfold ns_valid, o; cbn; repeat split; try lra; lia).
  destruct (c176_agrees (Some [0.75; 0.75; 0.25]) o NtfNone V) as [(out & i & E & P) | (E & _)]; [left; reflexivity | |].
  2:{ exfalso. destruct (proj1 (c176_refuses (Some [0.75; 0.75; 0.25]) o)) as (r & Q); [| congruence]. split; [exact V |]. exists (m_default_ntf 2), [1]. split; [destruct (default_binomial 2 ltac:(lia)) as (A & B); split; [exact A | split; [exact B | reflexivity]] |]. split; [unfold m_default_ntf; discriminate | cbn; lra]. }
  destruct (ns_inv _ _ _ _ E) as (_ & R & F & _ & OUT & LS & _ & CD & QU & QE). cbn [some_signal resolve_signal] in *. unfold o in LS, R, CD, QU. cbn [o_hi o_lo o_bits o_ntf o_order] in LS, R, CD, QU. change (Z.to_nat 1) with 1%nat in *. change (Z.to_nat 2) with 2%nat in R.
  rewrite LS in CD, QU. cbn [map] in CD.
  assert (F1 : Zfloor ((0.75 - 0) / ((1 - 0) / 2 ^ 1)) = 1%Z) by (apply Zfloor_imp; cbn; lra). assert (F2 : Zfloor ((0.25 - 0) / ((1 - 0) / 2 ^ 1)) = 0%Z) by (apply Zfloor_imp; cbn; lra).
  rewrite F1, F2 in CD. replace (Rmin (Rmax 1 0) (2 ^ 1 - 1)) with 1 in CD by (rewrite Rmax_left by lra; rewrite Rmin_left by lra; reflexivity). replace (Rmin (Rmax 0 0) (2 ^ 1 - 1)) with 0 in CD by (rewrite Rmax_left by lra; rewrite Rmin_left by lra; reflexivity).
  assert (NUM : i_num i = [1; -2; 1] /\ i_den i = [1]). { cbn [m_resolve_ntf] in R. apply Ok_inj in R. injection R as R1 R2. rewrite <- R1, <- R2. split; [| reflexivity]. pose proof (default_table 2 ltac:(lia)) as D. change (Z.to_nat 2) with 2%nat in D. assert (D' : forall u v : list R, Some u = Some v -> u = v) by (intros u v H; congruence). symmetry. exact (D' _ _ D). }
  destruct NUM as (NUM & DEN). rewrite CD in QU. cbn [map] in QU. rewrite QU in QE. cbn [map2] in QE. rewrite NUM, DEN, QE in F. unfold m_filter in F. cbn [length Nat.eqb orb nth] in F. destruct (Reqb_spec 1 0); [lra |]. cbn [raise_if map m_filter_loop nth] in F. apply Ok_inj in F.
  assert (O : out = [0.5; 1; 0.25]). { rewrite OUT, <- F. cbn [map2 nth]. repeat (apply f_equal2; [lra |]). reflexivity. }
  exists i. rewrite O in E. split; [exact E |]. split; [exact CD |]. split; [exact NUM |]. rewrite <- O. exact P.
Qed.
(* ---------- C177: plotwgt ---------- *)
Lemma m_insert_perm a i l : Permutation (m_insert a i l) (i :: l).
Proof.
  induction l as [| j l IH]; cbn [m_insert]; [reflexivity |]. destruct (Rltb _ _); [| reflexivity]. rewrite IH. apply perm_swap.
Qed.
Lemma m_order_perm a : Permutation (m_order_of a) (seq 0 (length a)).
Proof. unfold m_order_of. induction (seq 0 (length a)) as [| i l IH]; cbn [fold_right]; [reflexivity |]. rewrite m_insert_perm, IH. reflexivity. Qed.
(** Positions in the order of sort(..., 'descend'): larger values first, equal ones as they come. *)
Definition before (a : list R) (i j : nat) : Prop := nth j a 0 < nth i a 0 \/ (nth j a 0 = nth i a 0 /\ (i < j)%nat).
Lemma m_insert_sorted a i l : Sorted.StronglySorted (before a) l -> (forall j, In j l -> (i < j)%nat) -> Sorted.StronglySorted (before a) (m_insert a i l).
Proof.
  induction l as [| j l IH]; intros S H; cbn [m_insert]; [repeat constructor |]. inversion S as [| ? ? S1 S2]; subst. unfold Rltb. destruct (Rlt_dec (nth i a 0) (nth j a 0)) as [L | L].
  - constructor; [apply IH; [exact S1 | intros k K; apply H; right; exact K] |]. apply Forall_forall. intros k K. apply (Permutation_in _ (m_insert_perm a i l)) in K. destruct K as [<- | K]; [left; exact L |]. rewrite Forall_forall in S2. apply S2. exact K.
  - constructor; [exact S |]. apply Forall_forall. intros k [<- | K].
    + destruct (Req_dec (nth j a 0) (nth i a 0)); [right; split; [assumption | apply H; left; reflexivity] | left; lra].
    + rewrite Forall_forall in S2. specialize (S2 k K). unfold before in *. destruct S2 as [S2 | (S2 & S3)]; [left; lra |]. destruct (Req_dec (nth k a 0) (nth i a 0)); [right; split; [assumption | apply H; right; exact K] | left; lra].
Qed.
Lemma m_order_sorted a : Sorted.StronglySorted (before a) (m_order_of a).
Proof.
  unfold m_order_of. generalize (length a) as n. generalize 0%nat as s. intros s n. revert s. induction n as [| n IH]; intros s; cbn [seq fold_right]; [constructor |]. apply m_insert_sorted; [apply IH |]. intros j J.
  assert (P : Permutation (fold_right (m_insert a) [] (seq (S s) n)) (seq (S s) n)). { generalize (seq (S s) n). intros l. induction l as [| i l IHl]; cbn [fold_right]; [reflexivity |]. rewrite m_insert_perm, IHl. reflexivity. }
  apply (Permutation_in _ P) in J. apply in_seq in J. lia.
Qed.
Lemma map_nth_seq (a : list R) : map (fun i => nth i a 0) (seq 0 (length a)) = a.
Proof. apply nth_ext with (d := 0) (d' := 0); [rewrite map_length, seq_length; reflexivity |]. intros i I. rewrite map_length, seq_length in I. rewrite (nth_map_in _ _ _ 0%nat) by (rewrite seq_length; exact I). rewrite seq_nth by exact I. reflexivity. Qed.
Lemma m_sorted_perm a : Permutation (map (fun i => nth i a 0) (m_order_of a)) a.
Proof. rewrite (Permutation_map (fun i => nth i a 0) (m_order_perm a)), map_nth_seq. reflexivity. Qed.
Lemma strong_nth {A} (R : A -> A -> Prop) l d : Sorted.StronglySorted R l -> forall i j, (i < j < length l)%nat -> R (nth i l d) (nth j l d).
Proof.
  induction 1 as [| x l S IH F]; intros i j [I J]; [cbn in J; lia |]. destruct j as [| j]; [lia |]. cbn [length] in J. destruct i as [| i]; cbn [nth]; [rewrite Forall_forall in F; apply F, nth_In; lia | apply IH; lia].
Qed.
Lemma m_sorted_dec a : decreasing (map (fun i => nth i a 0) (m_order_of a)).
Proof.
  intros i j IJ J. rewrite map_length in J. rewrite !(nth_map_in _ _ _ 0%nat) by lia. destruct (Nat.eq_dec i j) as [-> | NE]; [lra |]. destruct (strong_nth _ _ 0%nat (m_order_sorted a) i j ltac:(lia)) as [H | (H & _)]; lra.
Qed.
Lemma m_sorted_eq a : map (fun i => nth i a 0) (m_order_of a) = sort_desc a.
Proof. rewrite <- (sort_desc_id _ (m_sorted_dec a)). unfold sort_desc. f_equal. apply rsort_perm_eq, m_sorted_perm. Qed.
Lemma filter_shift (f : nat -> bool) l : filter f (map S l) = map S (filter (fun i => f (S i)) l).
Proof. induction l as [| i l IH]; [reflexivity |]. cbn [map filter]. destruct (f (S i)); cbn [map]; rewrite IH; reflexivity. Qed.
Lemma first_big (r : list R) : match filter (fun i => Rleb 3 (nth i r 0)) (seq 0 (length r)) with [] => length r | i :: _ => i end = sig_index r.
Proof.
  induction r as [| v r IH]; [reflexivity |]. cbn [length seq]. rewrite <- seq_shift. cbn [filter]. rewrite filter_shift. change (nth 0 (v :: r) 0) with v. cbn [sig_index]. destruct (Rleb 3 v); [reflexivity |]. rewrite <- IH. 
  rewrite (filter_ext (fun i => Rleb 3 (nth (S i) (v :: r) 0)) (fun i => Rleb 3 (nth i r 0)) (fun i => eq_refl)). destruct (filter _ _); reflexivity.
Qed.
Lemma last_sig_eq s : m_last_sig s = sig_index (neighbour_ratios s).
Proof.
  rewrite <- first_big. unfold m_last_sig. rewrite ratios_length. rewrite (filter_ext_in (fun i => Rleb 3 (nth i s 0 / nth (S i) s 0)) (fun i => Rleb 3 (nth i (neighbour_ratios s) 0))); [reflexivity |]. intros i I. apply in_seq in I. rewrite ratios_nth by lia. reflexivity.
Qed.
Lemma m_round_dist x : (x - IZR (m_round x)) ^ 2 = int_dist x ^ 2.
Proof.
  unfold m_round, int_dist, Rleb. pose proof (floor_split x) as [L U]. set (k := Zfloor x) in *. destruct (Rle_dec 0 x) as [P | P].
  - destruct (Rlt_dec (x - IZR k) (1 / 2)) as [H | H].
    + rewrite (floor_is (x + 1 / 2) k) by lra. rewrite Rmin_left by lra. reflexivity.
    + rewrite (floor_is (x + 1 / 2) (k + 1)) by (rewrite plus_IZR; lra). rewrite plus_IZR, Rmin_right by lra. ring.
  - destruct (Rle_dec (x - IZR k) (1 / 2)) as [H | H].
    + rewrite (Zceil_imp k (x - 1 / 2)) by (rewrite minus_IZR; lra). rewrite Rmin_left by lra. reflexivity.
    + rewrite (Zceil_imp (k + 1) (x - 1 / 2)) by (rewrite minus_IZR, plus_IZR; lra). rewrite plus_IZR, Rmin_right by lra. ring.
Qed.
Lemma m_rms_eq sig s : m_round_rms sig s = round_err sig s.
Proof. unfold m_round_rms, round_err. do 2 f_equal. apply map_ext. intros w. rewrite m_round_dist, round_dist. reflexivity. Qed.
Lemma m_search_eq sig top cands : forall st, fold_left (fun st c => let s := IZR c / top in let e := m_round_rms sig s in if Rltb e (fst st) then (e, s) else st) cands st = refine sig top cands st.
Proof. induction cands as [| c l IH]; intros st; [reflexivity |]. cbn [fold_left refine]. rewrite IH. cbv zeta. rewrite !m_rms_eq. reflexivity. Qed.
Lemma last_nth_R (l : list R) : nth (length l - 1) l 0 = last l 0.
Proof. symmetry. apply last_nth. Qed.
Definition m_range (i0 : Z) : Z * Z := let lo := Z.max 1 (m_round (IZR i0 * 0.5)) in (lo, Z.max lo (m_round (IZR i0 * 1.5))).
Lemma m_wgtsca_eq sig top : m_wgtsca sig top = let w0 := 1 / last sig 0 in let r := m_range (m_round (top * w0)) in snd (refine sig top (zrange (fst r) (snd r)) (round_err sig w0, w0)).
Proof. unfold m_wgtsca. rewrite m_search_eq, m_rms_eq, last_nth_R. reflexivity. Qed.
Lemma plotwgt_inv w : w <> [] -> m_plotwgt w = Ok (m_radix (map Rabs w), m_wgtsca (significant (map Rabs w)) (hd 0 (sort_desc (map Rabs w))), effres_of (significant (map Rabs w))).
Proof.
  intros N. unfold m_plotwgt. destruct w as [| w0 w]; [congruence |]. cbn [length Nat.eqb raise_if]. rewrite m_sorted_eq, last_sig_eq. unfold significant. cbv zeta. rewrite last_nth_R. unfold effres_of. replace (nth 0 (sort_desc (map Rabs (w0 :: w))) 0) with (hd 0 (sort_desc (map Rabs (w0 :: w)))) by (destruct (sort_desc (map Rabs (w0 :: w))); reflexivity). reflexivity.
Qed.
Lemma radix_same a : a <> [] -> radix_list a = NaN :: map Fin (m_radix a).
Proof.
  intros N. unfold radix_list. f_equal. unfold m_radix. rewrite map_map. apply nth_ext with (d := NaN) (d' := NaN).
  - rewrite map2_length; rewrite ?map_length, ?seq_length, ?removelast_len, ?tl_len; reflexivity.
  - intros i I. rewrite map2_length in I by (rewrite removelast_len, tl_len; reflexivity). rewrite removelast_len in I. rewrite (map2_nth _ _ _ i 0 0) by (rewrite ?removelast_len, ?tl_len; lia). rewrite (nth_map_in _ _ _ 0%nat) by (rewrite seq_length; exact I). rewrite seq_nth by exact I. rewrite removelast_nth' by lia. rewrite tl_nth. reflexivity.
Qed.
Lemma sig_of w : w <> [] -> significant_of (map Rabs w) (sort_desc (map Rabs w)) (significant (map Rabs w)).
Proof.
  intros N. assert (NA : map Rabs w <> []) by (destruct w; [congruence | discriminate]). destruct (significant_prefix (map Rabs w) NA) as (E & L & LE). destruct (sig_index_spec (neighbour_ratios (sort_desc (map Rabs w)))) as (K & K1 & K2). rewrite ratios_length in K, K2. set (s := sort_desc (map Rabs w)) in *. set (k := sig_index (neighbour_ratios s)) in *.
  unfold significant_of. rewrite L. split; [apply sort_desc_perm |]. split; [intros i j (IJ & J); apply sort_desc_decreasing; assumption |]. split; [exact E |]. split; [lia |]. split.
  - intros i I. rewrite <- ratios_nth by lia. apply K1. lia.
  - intros I. replace (S k - 1)%nat with k by lia. rewrite <- ratios_nth by lia. apply K2. lia.
Qed.
Lemma sig_unique l s sig s' sig' : significant_of l s sig -> significant_of l s' sig' -> s = s' /\ sig = sig'.
Proof.
  intros (P & D & E & L & A & B) (P' & D' & E' & L' & A' & B').
  assert (S : s = s'). { assert (Ds : decreasing s) by (intros i j I J; apply D; lia). assert (Ds' : decreasing s') by (intros i j I J; apply D'; lia). rewrite <- (sort_desc_id s Ds), <- (sort_desc_id s' Ds'). unfold sort_desc. f_equal. apply rsort_perm_eq. rewrite <- P. exact P'. }
  subst s'. split; [reflexivity |]. assert (LL : length sig = length sig'). { destruct (lt_eq_lt_dec (length sig) (length sig')) as [[H | H] | H]; [exfalso | exact H | exfalso].
    - specialize (B ltac:(lia)). specialize (A' (length sig - 1)%nat ltac:(lia)). replace (S (length sig - 1)) with (length sig) in A' by lia. lra.
    - specialize (B' ltac:(lia)). specialize (A (length sig' - 1)%nat ltac:(lia)). replace (S (length sig' - 1)) with (length sig') in A by lia. lra. }
  rewrite E, E', LL. reflexivity.
Qed.
Lemma even_no_tie i0 : Z.Even i0 -> ~ tie (IZR i0 * 0.5) /\ ~ tie (IZR i0 * 1.5).
Proof.
  intros (h & ->). rewrite mult_IZR. split; intros (k & _ & E).
  - assert (X : IZR (2 * h) = IZR (2 * k + 1)) by (rewrite plus_IZR, !mult_IZR; lra). apply eq_IZR in X. lia.
  - assert (X : IZR (6 * h) = IZR (2 * k + 1)) by (rewrite plus_IZR, !mult_IZR; lra). apply eq_IZR in X. lia.
Qed.
(** Radix (without Python's leading NaN) and effective resolution are the same; the scale is the same
    when the ratio r of the largest to the smallest significant weight is not half-way between two
    integers and rounds to an even one. *)
Lemma c177_agrees w s sig : w <> [] -> (forall x, In x w -> x <> 0) -> significant_of (map Rabs w) s sig -> let r := nth 0 s 0 / nth (length sig - 1) s 0 in
  exists radix sca sca' er, m_plotwgt w = Ok (radix, sca, er) /\ analyze_weight_radix w = Ok (NaN :: map Fin radix, sca', er) /\ length radix = (length w - 1)%nat /\
  (forall i, (S i < length w)%nat -> nth i radix 0 * Rabs (nth (S i) w 0) = Rabs (nth i w 0)) /\ er = lg2 (lsum sig / nth (length sig - 1) s 0 + 1) /\
  (~ tie r -> Z.Even (m_round r) -> sca = sca').
Proof.
  intros N NZ SG r. rewrite (plotwgt_inv w N). destruct (sig_unique _ _ _ _ _ SG (sig_of w N)) as (Es & Eg). pose proof SG as (_ & _ & EF & LS & _ & _).
  assert (PY : analyze_weight_radix w = Ok (NaN :: map Fin (m_radix (map Rabs w)), wgtsca_of (significant (map Rabs w)) (hd 0 (sort_desc (map Rabs w))), effres_of (significant (map Rabs w)))).
  { unfold analyze_weight_radix. destruct w as [| w0 w]; [congruence |]. rewrite radix_same by discriminate. reflexivity. }
  exists (m_radix (map Rabs w)), (m_wgtsca (significant (map Rabs w)) (hd 0 (sort_desc (map Rabs w)))), (wgtsca_of (significant (map Rabs w)) (hd 0 (sort_desc (map Rabs w)))), (effres_of (significant (map Rabs w))).
  assert (LR : length (m_radix (map Rabs w)) = (length w - 1)%nat) by (unfold m_radix; rewrite map_length, seq_length, map_length; reflexivity).
  split; [reflexivity |]. split; [exact PY |]. split; [exact LR |].
  assert (LN : last sig 0 = nth (length sig - 1) s 0). { rewrite last_nth. rewrite EF at 2. rewrite firstn_nth by lia. reflexivity. }
  split; [| split].
  - intros i I. unfold m_radix. rewrite map_length. rewrite (nth_map_in _ _ _ 0%nat) by (rewrite seq_length; lia). rewrite seq_nth by lia. cbn [Nat.add]. rewrite !(nth_map_in Rabs _ _ 0) by lia. field. apply Rabs_no_R0. apply NZ, nth_In. exact I.
  - rewrite <- Eg. unfold effres_of, lg2. rewrite LN. reflexivity.
  - intros NT EV. rewrite m_wgtsca_eq. unfold wgtsca_of. rewrite <- Eg, <- Es. rewrite LN. cbv zeta. assert (H0 : hd 0 s = nth 0 s 0) by (destruct s; reflexivity). rewrite H0.
    assert (PS : forall i, (i < length s)%nat -> 0 < nth i s 0). { intros i I. destruct SG as (P & _). assert (Q : In (nth i s 0) (map Rabs w)) by (apply (Permutation_in _ (Permutation_sym P)), nth_In, I). apply in_map_iff in Q. destruct Q as (x & <- & Q). apply Rabs_pos_lt, NZ, Q. }
    pose proof (PS 0%nat ltac:(lia)) as P0. pose proof (PS (length sig - 1)%nat ltac:(lia)) as P1.
    replace (nth 0 s 0 * (1 / nth (length sig - 1) s 0)) with r by (unfold r; field; lra). assert (RP : 0 <= r) by (unfold r; apply Rdiv_le_0_compat; lra).
    rewrite (proj2 (round_same r RP) NT). rewrite (proj2 (round_same r RP) NT) in EV. set (i0 := round_he r) in *.
    assert (I0 : 0 <= IZR i0). { unfold i0. rewrite <- (proj2 (round_same r RP) NT). apply IZR_le. unfold m_round, Rleb. destruct (Rle_dec 0 r); [| lra]. pose proof (floor_split (r + 1 / 2)) as (F1 & F2). assert (X : IZR (-1) < IZR (Zfloor (r + 1 / 2))) by (cbn; lra). apply lt_IZR in X. lia. }
    destruct (even_no_tie i0 EV) as (T1 & T2). unfold m_range. cbv zeta. cbn [fst snd]. rewrite (proj2 (round_same (IZR i0 * 0.5) ltac:(lra)) T1), (proj2 (round_same (IZR i0 * 1.5) ltac:(lra)) T2). reflexivity.
Qed.
(** wgtsca is positive and no worse than 1/min or than any z/max with z between half and one and a half
    times the rounded ratio (halves away from zero); it is 1/min when that makes every significant
    weight an integer. *)
Lemma c177_scale w s sig radix sca er : m_plotwgt w = Ok (radix, sca, er) -> (forall x, In x w -> x <> 0) -> significant_of (map Rabs w) s sig ->
  let mn := nth (length sig - 1) s 0 in let mx := nth 0 s 0 in let i0 := m_round (mx / mn) in
  0 < sca /\ scale_error sig sca <= scale_error sig (1 / mn) /\
  (forall z, (1 <= z)%Z -> (m_round (IZR i0 * 0.5) <= z <= m_round (IZR i0 * 1.5))%Z -> scale_error sig sca <= scale_error sig (IZR z / mx)) /\
  (scale_error sig (1 / mn) = 0 -> sca = 1 / mn).
Proof.
  intros E NZ SG mn mx i0. assert (N : w <> []) by (intros ->; discriminate E). rewrite (plotwgt_inv w N) in E. apply Ok_inj in E. injection E as _ E _. destruct (sig_unique _ _ _ _ _ SG (sig_of w N)) as (Es & Eg). pose proof SG as (P & _ & EF & LS & _ & _).
  rewrite <- Es, <- Eg, m_wgtsca_eq in E. cbv zeta in E.
  assert (LN : last sig 0 = mn). { unfold mn. rewrite last_nth. rewrite EF at 2. rewrite firstn_nth by lia. reflexivity. } assert (H0 : hd 0 s = mx) by (unfold mx; destruct s; reflexivity).
  assert (PS : forall i, (i < length s)%nat -> 0 < nth i s 0). { intros i I. assert (Q : In (nth i s 0) (map Rabs w)) by (apply (Permutation_in _ (Permutation_sym P)), nth_In, I). apply in_map_iff in Q. destruct Q as (x & <- & Q). apply Rabs_pos_lt, NZ, Q. }
  pose proof (PS 0%nat ltac:(lia)) as P0. pose proof (PS (length sig - 1)%nat ltac:(lia)) as P1. fold mx in P0. fold mn in P1.
  rewrite LN, H0 in E. replace (mx * (1 / mn)) with (mx / mn) in E by (field; lra). fold i0 in E. unfold m_range in E. cbv zeta in E. cbn [fst snd] in E. set (lo := Z.max 1 (m_round (IZR i0 * 0.5))) in *. set (hi := Z.max lo (m_round (IZR i0 * 1.5))) in *.
  destruct (refine_best sig mx (zrange lo hi) (round_err sig (1 / mn), 1 / mn) eq_refl) as (R1 & R2 & R3 & R4 & R5). set (rr := refine sig mx (zrange lo hi) (round_err sig (1 / mn), 1 / mn)) in *. cbn [fst snd] in R2, R4, R5. rewrite <- !round_err_eq. rewrite <- E, <- R1. split; [| split; [exact R2 | split]].
  - destruct R4 as [R4 | (z & Hz & R4)]; rewrite R4; [apply Rdiv_lt_0_compat; lra |]. apply zrange_in in Hz. apply Rdiv_lt_0_compat; [apply (IZR_lt 0); lia | exact P0].
  - intros z Hz Hz2. rewrite <- round_err_eq. apply R3, zrange_in. lia.
  - intros Z. assert (K : rr = (round_err sig (1 / mn), 1 / mn)) by (apply R5; rewrite Z, R1; apply round_err_nonneg). rewrite K. reflexivity.
Qed.
Lemma sorted3 a b c : c <= b -> b <= a -> forall i j, (i <= j < 3)%nat -> nth j [a; b; c] 0 <= nth i [a; b; c] 0.
Proof. intros H K i j [I J]. destruct i as [| [| [| i]]], j as [| [| [| j]]]; cbn [nth]; try lia; lra. Qed.
Lemma sig532 : significant_of (map Rabs [5; 3; 2]) [5; 3; 2] [5; 3; 2].
Proof.
  unfold significant_of. cbn [map length]. rewrite !Rabs_right by lra. split; [reflexivity |]. split; [apply sorted3; lra |]. split; [reflexivity |]. split; [lia |]. split; [| intros; lia].
  intros i I. destruct i as [| [| i]]; cbn [nth]; [lra | lra | lia].
Qed.
Lemma dist_int k : int_dist (IZR k) = 0.
Proof. unfold int_dist. rewrite Zfloor_IZR. rewrite Rmin_left by lra. ring. Qed.
Lemma error_pos sig s i : (i < length sig)%nat -> 0 < int_dist (nth i sig 0 * s) -> 0 < scale_error sig s.
Proof.
  intros I P. unfold scale_error. apply sqrt_lt_R0. apply Rdiv_lt_0_compat; [| apply lt_0_INR; lia]. set (g := fun i => int_dist (nth i sig 0 * s) ^ 2).
  destruct (Rle_lt_dec (rsum (length sig) g) 0) as [Z | Z]; [exfalso | exact Z]. assert (G : g i = 0) by (apply (rsum_nonneg_zero (length sig) g); [intros; apply pow2_ge_0 | exact Z | exact I]). unfold g in G. pose proof (pow_lt _ 2 P). lra.
Qed.
(** The weights 5, 3, 2: MATLAB finds a scale that makes all of them integers, Python's search ends
    before it (2.5 is rounded to 2 by Python and to 3 by MATLAB). *)
Lemma c177_scale_refuted : exists w radix sca er r sca' er', significant_of (map Rabs w) w w /\ m_plotwgt w = Ok (radix, sca, er) /\ analyze_weight_radix w = Ok (r, sca', er') /\ scale_error w sca = 0 /\ 0 < scale_error w sca'.
Proof.
  exists [5; 3; 2]. assert (NZ : forall x, In x [5; 3; 2] -> x <> 0) by (intros x [<- | [<- | [<- | []]]]; lra). assert (N : [5; 3; 2] <> []) by discriminate.
  destruct (c177_agrees _ _ _ N NZ sig532) as (radix & sca & sca' & er & M & P & _). exists radix, sca, er, (NaN :: map Fin radix), sca', er. split; [exact sig532 |]. split; [exact M |]. split; [exact P |].
  assert (R25 : forall k, m_round (IZR k + 1 / 2) = if (0 <=? k)%Z then (k + 1)%Z else m_round (IZR k + 1 / 2)). { intros k. destruct (Z.leb_spec 0 k); [| reflexivity]. apply IZR_le in H. unfold m_round, Rleb. destruct (Rle_dec 0 (IZR k + 1 / 2)); [| lra]. apply floor_is. rewrite plus_IZR. lra. }
  split.
  - destruct (c177_scale _ _ _ _ _ _ M NZ sig532) as (_ & _ & B & _). cbn [nth length Nat.sub] in B.
    assert (I0 : m_round (5 / 2) = 3%Z) by (replace (5 / 2) with (IZR 2 + 1 / 2) by lra; rewrite R25; reflexivity). rewrite I0 in B.
    assert (H1 : m_round (3 * 1.5) = 5%Z) by (replace (3 * 1.5) with (IZR 4 + 1 / 2) by lra; rewrite R25; reflexivity). assert (H2 : m_round (3 * 0.5) = 2%Z) by (replace (3 * 0.5) with (IZR 1 + 1 / 2) by lra; rewrite R25; reflexivity). rewrite H1, H2 in B.
    specialize (B 5%Z ltac:(lia) ltac:(lia)). apply Rle_antisym; [| apply sqrt_pos]. eapply Rle_trans; [exact B |]. unfold scale_error. cbn [length rsum nth]. replace (5 * (5 / 5)) with (IZR 5) by lra. replace (3 * (5 / 5)) with (IZR 3) by lra. replace (2 * (5 / 5)) with (IZR 2) by lra. rewrite !dist_int. replace ((0 + 0 ^ 2 + 0 ^ 2 + 0 ^ 2) / INR 3) with 0 by (cbn; field). rewrite sqrt_0. lra.
  - destruct (radix_inv _ _ _ _ P) as (_ & _ & ES & _). destruct (sig_unique _ _ _ _ _ sig532 (sig_of _ N)) as (E1 & E2). rewrite <- E1, <- E2 in ES. unfold wgtsca_of in ES. cbn [last hd] in ES. cbv zeta in ES.
    replace (round_he (5 * (1 / 2))) with 2%Z in ES by (replace (5 * (1 / 2)) with (IZR 2 + 1 / 2) by lra; rewrite he_half; reflexivity).
    replace (2 * 0.5) with (IZR 1) in ES by lra. replace (2 * 1.5) with (IZR 3) in ES by lra. rewrite (proj2 (round_int 1 ltac:(lia))), (proj2 (round_int 3 ltac:(lia))) in ES. change (Z.max 1 1) with 1%Z in ES. change (Z.max 1 3) with 3%Z in ES.
    destruct (refine_best [5; 3; 2] 5 (zrange 1 3) (round_err [5; 3; 2] (1 / 2), 1 / 2) eq_refl) as (_ & _ & _ & R4 & _). rewrite <- ES in R4. cbn [snd] in R4.
    assert (D : forall z (t : R), IZR z + 1 / 10 <= t <= IZR z + 9 / 10 -> 0 < int_dist t). { intros z t T. unfold int_dist. rewrite (floor_is t z) by lra. apply Rmin_glb_lt; lra. }
    destruct R4 as [R4 | (z & Z & R4)]; [rewrite R4; apply (error_pos _ _ 0); [cbn; lia |]; cbn [nth]; apply (D 2%Z); lra |]. apply zrange_in in Z. apply (error_pos _ _ 1); [cbn; lia |]. cbn [nth]. rewrite R4.
    assert (ZZ : z = 1%Z \/ z = 2%Z \/ z = 3%Z) by lia. destruct ZZ as [-> | [-> | ->]]; [apply (D 0%Z) | apply (D 1%Z) | apply (D 1%Z)]; lra.
Qed.
(** No weights: an error, as in Python. *)
Lemma c177_empty : m_plotwgt [] = Err RuntimeError /\ analyze_weight_radix [] = Err IndexError.
Proof. split; reflexivity. Qed.
(** 4, 2, 1 has radix 2, 2, effective resolution 3 and scale 1. *)
Example c177_agrees_ex : exists sca', m_plotwgt [4; -2; 1] = Ok ([2; 2], 1, lg2 8) /\ analyze_weight_radix [4; -2; 1] = Ok ([NaN; Fin 2; Fin 2], sca', lg2 8) /\ sca' = 1.
Proof.
  assert (NZ : forall x, In x [4; -2; 1] -> x <> 0) by (intros x [<- | [<- | [<- | []]]]; lra). assert (N : [4; -2; 1] <> []) by discriminate.
  assert (A : map Rabs [4; -2; 1] = [4; 2; 1]) by (cbn [map]; rewrite (Rabs_right 4), (Rabs_left (-2)), (Rabs_right 1) by lra; repeat (apply f_equal2; [lra |]); reflexivity).
  assert (SG : significant_of (map Rabs [4; -2; 1]) [4; 2; 1] [4; 2; 1]). { rewrite A. unfold significant_of. cbn [length]. split; [reflexivity |]. split; [apply sorted3; lra |]. split; [reflexivity |]. split; [lia |]. split; [| intros; lia]. intros i I. destruct i as [| [| i]]; cbn [nth]; [lra | lra | lia]. }
  destruct (c177_agrees _ _ _ N NZ SG) as (radix & sca & sca' & er & M & P & L & RX & ER & SC). cbn [nth length Nat.sub] in ER, SC. cbn [length Nat.sub] in L.
  assert (R4 : m_round (4 / 1) = 4%Z) by (replace (4 / 1) with (IZR 4) by lra; apply round_int; lia). rewrite R4 in SC. specialize (SC ltac:(intros (k & _ & X); assert (Y : IZR (2 * k + 1) = IZR 8) by (rewrite plus_IZR, mult_IZR; lra); apply eq_IZR in Y; lia) ltac:(exists 2%Z; reflexivity)).
  destruct (c177_scale _ _ _ _ _ _ M NZ SG) as (_ & _ & _ & S1). cbn [nth length Nat.sub] in S1.
  assert (Z : scale_error [4; 2; 1] (1 / 1) = 0). { unfold scale_error. cbn [length rsum nth]. replace (4 * (1 / 1)) with (IZR 4) by lra. replace (2 * (1 / 1)) with (IZR 2) by lra. replace (1 * (1 / 1)) with (IZR 1) by lra. rewrite !dist_int. replace ((0 + 0 ^ 2 + 0 ^ 2 + 0 ^ 2) / INR 3) with 0 by (cbn; field). apply sqrt_0. }
  specialize (S1 Z). assert (SE : sca = 1) by lra. assert (EE : er = lg2 8) by (rewrite ER; f_equal; cbn; lra).
  destruct radix as [| r1 [| r2 [| r3 radix]]]; try discriminate L. pose proof (RX 0%nat ltac:(cbn; lia)) as X1. pose proof (RX 1%nat ltac:(cbn; lia)) as X2. cbn [nth] in X1, X2. rewrite (Rabs_right 4), (Rabs_left (-2)) in X1 by lra. rewrite (Rabs_left (-2)), (Rabs_right 1) in X2 by lra.
  assert (E1 : r1 = 2) by lra. assert (E2 : r2 = 2) by lra. rewrite EE, SE, E1, E2 in M. rewrite EE, E1, E2 in P. exists sca'. split; [exact M |]. split; [exact P |]. lra.
Qed.

(** The figure: the same line, markers, ratios and limits as Python's; the same positions for MSB and LSB when
    no two weights have the same magnitude. *)
Lemma c177_figure argsort w radix sca er : m_plotwgt w = Ok (radix, sca, er) -> (forall a, sorts a (argsort a)) -> (forall x, In x w -> x <> 0) ->
  let g := m_plotwgt_figure w radix er in let h := plot_weight_radix argsort w (NaN :: map Fin radix) er in
  mw_line g = rf_line h /\ mw_pos g = rf_pos h /\ mw_neg g = rf_neg h /\ mw_effres g = rf_effres h /\ mw_radix g = rf_radix h /\ mw_xlim g = rf_xlim h /\
  (In false (mw_legend g) <-> rf_legend h = true) /\ (forall i, (i < length w)%nat -> fst (mw_ylim g) < Rabs (nth i w 0) < snd (mw_ylim g)) /\
  (NoDup (map Rabs w) -> mw_msb g = rf_msb h /\ mw_lsb g = rf_lsb h).
Proof.
  intros E SO NZ g h. assert (N : w <> []) by (intros ->; discriminate E). set (a := map Rabs w) in *. assert (LA : length a = length w) by (unfold a; apply map_length).
  rewrite (plotwgt_inv w N) in E. apply Ok_inj in E. injection E as ER _ EE. fold a in ER. unfold g, h, m_plotwgt_figure, plot_weight_radix. cbn [mw_line mw_pos mw_neg mw_effres mw_radix mw_xlim mw_legend mw_ylim mw_msb mw_lsb rf_line rf_pos rf_neg rf_effres rf_radix rf_xlim rf_legend rf_msb rf_lsb]. fold a.
  set (neg := fun i => Rltb (nth i w 0) 0). set (n := length w) in *.
  split; [reflexivity |]. split; [reflexivity |]. split; [reflexivity |]. split; [reflexivity |].
  assert (NP : (0 < n)%nat) by (unfold n; destruct w; [congruence | cbn; lia]).
  split. { rewrite <- (seq_shift (n - 1) 1), map_map. apply map_ext_in. intros i I. apply in_seq in I. destruct i as [| i]; [lia |]. cbn [nth Nat.sub]. rewrite Nat.sub_0_r. rewrite (nth_indep (map Fin radix) NaN (Fin 0)) by (rewrite <- ER; unfold m_radix; rewrite !map_length, seq_length; lia). rewrite map_nth. cbn [fmt2]. replace (S i + 1)%nat with (S (S i)) by lia. replace (15 / 10) with 1.5 by lra. reflexivity. }
  split; [f_equal; lra |].
  split. { set (P := filter (fun i => negb (Rltb (nth i w 0) 0)) (seq 0 n)). assert (X : existsb neg (seq 0 n) = true <-> filter neg (seq 0 n) <> []). { rewrite existsb_exists. split; [intros (i & I & B) Z; assert (Q : In i (filter neg (seq 0 n))) by (apply filter_In; split; assumption); rewrite Z in Q; exact Q |]. intros Z. destruct (filter neg (seq 0 n)) as [| i l] eqn:F; [congruence |]. exists i. apply filter_In. rewrite F. left. reflexivity. }
    rewrite X. destruct (filter neg (seq 0 n)) as [| i l]; [split; [intros X0; exfalso; revert X0; destruct P; cbn; tauto | congruence] |]. split; [discriminate | intros _; destruct P; cbn; auto]. }
  assert (PA : forall v, In v a -> 0 < v) by (intros v V; unfold a in V; apply in_map_iff in V; destruct V as (x & <- & I); apply Rabs_pos_lt, NZ, I).
  assert (FA : filter (fun v => Rltb 0 v) a = a). { clear - PA. induction a as [| v a IH]; [reflexivity |]. cbn [filter]. destruct (Rltb_spec 0 v); [rewrite IH; [reflexivity | intros u U; apply PA; right; exact U] |]. specialize (PA v (or_introl eq_refl)). lra. }
  assert (AN : a <> []) by (unfold a; destruct w; [congruence | discriminate]).
  split. { intros i I. rewrite FA. cbn [fst snd]. assert (J : In (Rabs (nth i w 0)) a) by (unfold a; apply in_map, nth_In; exact I). pose proof (PA _ (rmin_list_in a AN)). pose proof (PA _ (rmax_list_in a AN)). destruct (rlist_extremes a AN) as (_ & _ & B). specialize (B _ J). cbn [fst snd] in B. lra. }
  intros ND. destruct (SO a) as (SP & SS). destruct (order_desc a (argsort a) (conj SP SS)) as (OD & OL & OND & OI).
  assert (EQ : m_order_of a = rev (argsort a)). { 
    apply nth_ext with (d := 0%nat) (d' := 0%nat); [rewrite rev_length, OL, (Permutation_length (m_order_perm a)), seq_length; reflexivity |]. intros i I.
    assert (LM : length (m_order_of a) = n) by (rewrite (Permutation_length (m_order_perm a)), seq_length; exact LA).
    assert (V : nth (nth i (m_order_of a) 0%nat) a 0 = nth (nth i (rev (argsort a)) 0%nat) a 0). { rewrite <- (nth_map_in (fun i => nth i a 0) _ _ 0%nat 0) by exact I. rewrite <- (nth_map_in (fun i => nth i a 0) (rev (argsort a)) i 0%nat 0) by (rewrite rev_length, OL; lia). rewrite m_sorted_eq, OD. reflexivity. }
    apply (proj1 (NoDup_nth a 0) ND); [| | exact V].
    - assert (X : In (nth i (m_order_of a) 0%nat) (seq 0 (length a))) by (apply (Permutation_in _ (m_order_perm a)), nth_In; exact I). apply in_seq in X. lia.
    - apply OI. apply in_rev. apply nth_In. rewrite rev_length, OL. lia. }
  rewrite EQ, last_sig_eq. set (o := rev (argsort a)). set (k := sig_index (neighbour_ratios (map (fun i => nth i a 0) o))). replace (15 / 10) with 1.5 by lra. split; reflexivity.
Qed.
(* ---------- C178: cap2weight, errac, errpdf ---------- *)
(** The legacy wrapper has the order of the Python function: same capacitor lists accepted, same weights
    and total capacitance. *)
Lemma c178_cap cd cb cp : (cap_valid (rev cd) (rev cb) (rev cp) -> exists w c, m_cap2weight cd cb cp = Ok (w, c) /\ convert_cap_to_weight cd cb cp = Ok (w, c)) /\
  (~ cap_valid (rev cd) (rev cb) (rev cp) -> m_cap2weight cd cb cp = Err RuntimeError).
Proof.
  destruct (c164_agree (rev cd) (rev cb) (rev cp)) as (A & B). unfold m_cap2weight. split.
  - intros V. destruct (A V) as (w & c & E & P). rewrite !rev_involutive in P. rewrite E. cbn [bind fst snd]. exists (rev w), c. split; [reflexivity | exact P].
  - intros V. rewrite (B V). reflexivity.
Qed.
Lemma skip_first (e : list R) k : (k <= length e)%nat -> length (firstn (length e - k) e) = length (skipn k e).
Proof. intros K. rewrite firstn_length, skipn_length. lia. Qed.
Lemma acf_same e lag : (Z.abs lag <= Z.of_nat (length e))%Z -> acf_at e lag = Ok (m_acf_at e lag).
Proof.
  intros L. unfold acf_at, m_acf_at. set (N := length e) in *. set (k := Z.to_nat (Z.abs lag)).
  assert (BM : forall a b : list R, length a = length b -> bmul a b = Ok (map2 Rmult a b)) by (intros a b H; unfold bmul; rewrite H, Nat.eqb_refl; reflexivity).
  assert (TK : forall z, (0 <= z)%Z -> take_py e z = firstn (Z.to_nat z) e) by (intros z Z; unfold take_py; destruct (Z.ltb_spec z 0); [lia | reflexivity]).
  destruct (Z.leb_spec 0 lag) as [P | P].
  - destruct (Z.ltb_spec 0 lag) as [Q | Q].
    + rewrite TK by lia. replace (Z.to_nat (Z.of_nat N - lag)) with (N - k)%nat by lia. unfold drop_py. replace (Z.to_nat lag) with k by lia. rewrite BM by (apply skip_first; lia). reflexivity.
    + assert (K0 : k = 0%nat) by lia. rewrite K0, Nat.sub_0_r. unfold N. rewrite firstn_all. rewrite BM by reflexivity. reflexivity.
  - rewrite TK by lia. replace (Z.to_nat (Z.of_nat N - - lag)) with (N - k)%nat by lia. unfold drop_py. replace (Z.to_nat (- lag)) with k by lia. rewrite BM by (symmetry; apply skip_first; lia). cbn [bind]. f_equal. f_equal.
    generalize (firstn (N - k) e), (skipn k e). induction l as [| x l IH]; intros [| y l']; cbn [map2]; try reflexivity. rewrite IH. f_equal. ring.
Qed.
Lemma lag_same max_lag : (0 <= max_lag)%Z -> map (fun i => (- max_lag + Z.of_nat i)%Z) (seq 0 (Z.to_nat (2 * max_lag + 1))) = lag_list max_lag.
Proof. intros M. unfold lag_list. apply map_ext. intros i. lia. Qed.
Lemma lag_nth max_lag i : (0 <= max_lag)%Z -> (i <= 2 * Z.to_nat max_lag)%nat -> nth i (lag_list max_lag) 0%Z = (Z.of_nat i - max_lag)%Z.
Proof. intros M I. unfold lag_list. rewrite (nth_map_in _ _ _ 0%nat) by (rewrite seq_length; lia). rewrite seq_nth by lia. reflexivity. Qed.
(** Up to as many lags as there are samples MATLAB and Python return the same values; beyond, Python fails
    (three samples or more, C87) and MATLAB goes on, with NaN at every lag that leaves no product. *)
Lemma c178_acf err max_lag normalize : (0 <= max_lag)%Z -> let r := m_errac err max_lag normalize in
  snd r = lag_list max_lag /\ length (fst r) = length (snd r) /\ ((max_lag <= Z.of_nat (length err))%Z -> error_acf err max_lag normalize = Ok (fst r)) /\
  (forall i, (i < length (snd r))%nat -> (Z.of_nat (length err) <= Z.abs (nth i (snd r) 0%Z))%Z -> nth i (fst r) (Fin 0) = NaN).
Proof.
  intros M r. unfold r, m_errac. cbn [fst snd]. rewrite lag_same by exact M. set (e := map (fun v => v - lmean err) err). assert (LE : length e = length err) by (unfold e; apply map_length).
  split; [reflexivity |]. split; [destruct normalize; rewrite ?map_length; reflexivity |]. split.
  - intros L. unfold error_acf. fold e. rewrite (acf_all_ok e (m_acf_at e)).
    + cbn [bind]. f_equal. destruct normalize; [| reflexivity]. apply map_ext. intros v. f_equal. rewrite (nth_map_in _ _ _ 0%Z) by (unfold lag_list; rewrite map_length, seq_length; lia). rewrite lag_nth by lia. f_equal. lia.
    + intros k K. apply acf_same. unfold lag_list in K. apply in_map_iff in K. destruct K as (i & <- & I). apply in_seq in I. rewrite LE. lia.
  - intros i I B. set (lag := nth i (lag_list max_lag) 0%Z) in *.
    assert (Z : m_acf_at e lag = NaN). { unfold m_acf_at. rewrite skipn_all2 by lia. destruct (firstn (length e - Z.to_nat (Z.abs lag)) e); reflexivity. }
    destruct normalize.
    + rewrite map_map. rewrite (nth_map_in _ _ _ 0%Z) by exact I. fold lag. rewrite Z. reflexivity.
    + rewrite (nth_map_in _ _ _ 0%Z) by exact I. exact Z.
Qed.
(** A record of N samples and a maximum lag of N + 1: refused by Python, done by MATLAB. *)
Lemma c178_acf_refuted : exists err, error_acf err (Z.of_nat (length err) + 1) true = Err ValueError /\ exists v, nth (length err + 1) (fst (m_errac err (Z.of_nat (length err) + 1) true)) NaN = Fin v.
Proof.
  exists [1; 0; -1]. split.
  - apply (proj2 (c87_lag_limit [1; 0; -1] 4 true)); cbn; lia.
  - exists 1. unfold m_errac. cbn [fst length]. change (Z.of_nat 3 + 1)%Z with 4%Z. rewrite map_map. rewrite (nth_map_in _ _ _ 0%Z) by (rewrite map_length, seq_length; cbn; lia).
    assert (LM : lmean [1; 0; -1] = 0) by (unfold lmean; cbn; field). rewrite LM. cbn [map]. rewrite !Rminus_0_r.
    replace (nth (3 + 1) (map (fun i => (- (4) + Z.of_nat i)%Z) (seq 0 (Z.to_nat (2 * 4 + 1)))) 0%Z) with 0%Z by reflexivity.
    assert (A : m_acf_at [1; 0; -1] 0 = Fin (2 / 3)). { unfold m_acf_at. cbn [length Z.abs Z.to_nat Nat.sub firstn skipn map2 xmean]. f_equal. unfold lmean. cbn. field. }
    rewrite A. cbn [xdivide]. destruct (Reqb_spec (2 / 3) 0); [lra |]. f_equal. field.
Qed.
(** The density estimate from two samples or more is that of Python; of one sample MATLAB reports the
    deviation 0, Python NaN, and both no densities. *)
Lemma c178_pdf err resolution full_scale : let lsb := full_scale / powerRZ 2 resolution in let e := map (fun v => v / lsb) err in
  (full_scale = 0 -> m_errpdf err resolution full_scale = NotFinite) /\
  (full_scale <> 0 -> (2 <= length err)%nat -> m_errpdf err resolution full_scale = Numbers (pdf_of e)) /\
  (full_scale <> 0 -> length err = 1%nat -> exists p, m_errpdf err resolution full_scale = Numbers p /\ p_sigma p = Fin 0 /\ p_sigma (pdf_of e) = NaN /\
     p_err p = p_err (pdf_of e) /\ p_mu p = p_mu (pdf_of e) /\ p_x p = p_x (pdf_of e) /\ p_pdf p = None /\ p_gauss p = None /\ p_kl p = None /\ p_pdf (pdf_of e) = None /\ p_gauss (pdf_of e) = None /\ p_kl (pdf_of e) = None).
Proof.
  intros lsb e. assert (P2 : powerRZ 2 resolution <> 0) by (apply powerRZ_NOR; lra). unfold m_errpdf. fold lsb. fold e. assert (LE : length e = length err) by (unfold e; apply map_length).
  assert (LX : forall lim, map (fun i => - lim + INR i * ((lim - - lim) / 199)) (seq 0 200) = map (linspace_at (- lim) lim 200) (seq 0 200)).
  { intros lim. apply map_ext. intros i. unfold linspace_at. replace (INR 200 - 1) with 199; [reflexivity |]. rewrite INR_IZR_INZ. change (Z.of_nat 200) with 200%Z. lra. }
  split; [| split].
  - intros Z. destruct (Reqb_spec lsb 0) as [| NZ]; [reflexivity |]. exfalso. apply NZ. unfold lsb. rewrite Z. unfold Rdiv. ring.
  - intros FS N. destruct (Reqb_spec lsb 0) as [Z |]. { exfalso. unfold lsb, Rdiv in Z. apply Rmult_integral in Z. destruct Z as [Z | Z]; [contradiction |]. apply (Rinv_neq_0_compat _ P2). exact Z. }
    f_equal. unfold pdf_of, m_std, std1. destruct (Nat.leb_spec (length e) 1); [lia |]. cbv zeta. rewrite LX. set (s := sqrt _). destruct (Reqb_spec s 0); [reflexivity |].
    unfold kde, bandwidth, gauss, eps64. replace (- 0.5) with (- (1 / 2)) by lra. set (lim := Rmax _ _). set (x := map (linspace_at (- lim) lim 200) (seq 0 200)).
    reflexivity.
  - intros FS N. destruct (Reqb_spec lsb 0) as [Z |]. { exfalso. unfold lsb, Rdiv in Z. apply Rmult_integral in Z. destruct Z as [Z | Z]; [contradiction |]. apply (Rinv_neq_0_compat _ P2). exact Z. }
    eexists. split; [reflexivity |]. unfold pdf_of, m_std, std1. destruct (Nat.leb_spec (length e) 1); [| lia]. cbv zeta. rewrite LX. destruct (Reqb_spec 0 0); [| congruence]. cbn [p_sigma p_err p_mu p_x p_pdf p_gauss p_kl]. repeat split.
Qed.
(** The errors 1, -1 at one LSB: mean 0 and deviation sqrt 2; one error: deviation 0. *)
Example c178_pdf_ex : exists p q, m_errpdf [1; -1] 0 1 = Numbers p /\ p_mu p = 0 /\ p_sigma p = Fin (sqrt 2) /\ m_errpdf [1] 0 1 = Numbers q /\ p_sigma q = Fin 0.
Proof.
  destruct (c178_pdf [1; -1] 0 1) as (_ & A & _). destruct (c178_pdf [1] 0 1) as (_ & _ & B). destruct (B ltac:(lra) eq_refl) as (q & Q & QS & _). exists (pdf_of (map (fun v => v / (1 / powerRZ 2 0)) [1; -1])), q. split; [apply A; [lra | cbn; lia] |].
  cbn [map powerRZ]. replace (1 / (1 / 1)) with 1 by field. replace (-1 / (1 / 1)) with (-1) by field. unfold pdf_of, std1. cbn [length Nat.leb]. assert (M : lmean [1; -1] = 0) by (unfold lmean; cbn; field). rewrite M. cbn [map].
  replace (lsum [(1 - 0) ^ 2; (-1 - 0) ^ 2] / (INR 2 - 1)) with 2 by (cbn; field). destruct (Reqb_spec (sqrt 2) 0) as [Z |]; [exfalso; pose proof (sqrt_lt_R0 2 ltac:(lra)); lra |]. cbn [p_mu p_sigma]. repeat split; assumption.
Qed.
Example c178_cap_ex : exists w, m_cap2weight [1; 2] [0; 0] [0; 0] = Ok (w, 3) /\ convert_cap_to_weight [1; 2] [0; 0] [0; 0] = Ok (w, 3).
Proof. destruct c164_agree_ex as (w & E & P). exists (rev w). split; [| exact P]. unfold m_cap2weight. cbn [rev app]. rewrite E. reflexivity. Qed.
(* ---------- C179: fitstaticnl ---------- *)
Lemma some_inj (u v : nonlin_result) : Some u = Some v -> u = v.
Proof. intros H. injection H. trivial. Qed.
Lemma fitnl_inv lin sig order freq r : m_fitstaticnl lin sig order freq = Ok (Some r) ->
  exists fit, let n := length sig in let mf := lmean (mf_fitout fit) in let X := map (fun v => v - mf) (mf_fitout fit) in let Y := map (fun v => v - lmean sig) sig in
  let xm := lmax1 (hd 0 (map Rabs X)) (map Rabs X) in let deg := Z.to_nat order in let p := m_polyfit lin (map (fun v => v / xm) X) Y deg in
  m_sinfit lin (map (fun v => [v]) sig) freq (1 / 10 ^ 12) (1 / 2) false 100 = Ok (Some fit) /\ (2 <= order)%Z /\ (order + 2 <= Z.of_nat n)%Z /\ 1 / 10 ^ 10 <= xm /\ nl_fitted r = mf_fitout fit /\ length (mf_fitout fit) = n /\
  nl_k2 r = xdivide (Fin (p (deg - 2)%nat / xm ^ 2)) (Fin (p (deg - 1)%nat / xm)) /\
  nl_k3 r = (if (3 <=? order)%Z then xdivide (Fin (p (deg - 3)%nat / xm ^ 3)) (Fin (p (deg - 1)%nat / xm)) else NaN) /\
  nl_x r = map (linspace_at (lmin1 (hd 0 (mf_fitout fit)) (mf_fitout fit)) (lmax1 (hd 0 (mf_fitout fit)) (mf_fitout fit)) 1000) (seq 0 1000) /\
  nl_y r = map (fun v => rsum (S deg) (fun j => p j * ((v - mf) / xm) ^ (deg - j)) + lmean sig) (nl_x r).
Proof.
  unfold m_fitstaticnl, raise_if. destruct (Z.ltb_spec order 2); [discriminate |]. destruct (Rltb freq 0 || Rleb 0.5 freq)%bool; [discriminate |]. destruct (Z.ltb_spec (Z.of_nat (length sig)) (order + 2)); [discriminate |].
  destruct (m_sinfit lin (map (fun v => [v]) sig) freq (1 / 10 ^ 12) (1 / 2) false 100) as [[fit |] |] eqn:SF; cbn [bind]; [| discriminate | discriminate]. cbv zeta. match goal with |- (if Rltb ?a ?b then _ else _) = _ -> _ => destruct (Rltb_spec a b) as [| G]; [discriminate |] end.
  intros E. apply Ok_inj, some_inj in E. subst r. exists fit. cbn [nl_fitted nl_k2 nl_k3 nl_x nl_y].
  destruct (c168_outputs _ _ _ _ _ _ _ _ SF) as (LF & _). rewrite column_single in LF.
  assert (LX : map (fun i => rmin_list (mf_fitout fit) + INR i * ((rmax_list (mf_fitout fit) - rmin_list (mf_fitout fit)) / 999)) (seq 0 1000) = map (linspace_at (lmin1 (hd 0 (mf_fitout fit)) (mf_fitout fit)) (lmax1 (hd 0 (mf_fitout fit)) (mf_fitout fit)) 1000) (seq 0 1000)).
  { apply map_ext. intros i. unfold linspace_at. change (rmin_list (mf_fitout fit)) with (lmin1 (hd 0 (mf_fitout fit)) (mf_fitout fit)). change (rmax_list (mf_fitout fit)) with (lmax1 (hd 0 (mf_fitout fit)) (mf_fitout fit)). replace (INR 1000 - 1) with 999; [reflexivity |]. rewrite INR_IZR_INZ. change (Z.of_nat 1000) with 1000%Z. lra. }
  split; [reflexivity |]. split; [assumption |]. split; [assumption |]. split; [exact G |]. split; [reflexivity |]. split; [exact LF |]. split; [reflexivity |]. split; [reflexivity |]. split; [exact LX | reflexivity].
Qed.
(** The coefficients are those of the least-squares polynomial of the zero-mean record in the zero-mean
    fitted sine; k2 and k3 their ratios to the linear one, the curve that polynomial over the range of the
    fitted sine: what Python returns (C97), around MATLAB's own sine fit. *)
Lemma c179_transfer lin sig order freq r : least_squares lin -> m_fitstaticnl lin sig order freq = Ok (Some r) ->
  let n := length sig in let deg := Z.to_nat order in
  let F := fun t => nth t (nl_fitted r) 0 in let S := fun t => nth t sig 0 in
  let x := fun t => F t - average n F in let y := fun t => S t - average n S in
  length (nl_fitted r) = n /\
  exists c, (forall d, rsum n (fun t => (y t - poly deg c (x t)) ^ 2) <= rsum n (fun t => (y t - poly deg d (x t)) ^ 2)) /\
  quotient (c 2%nat) (c 1%nat) (nl_k2 r) /\ ((3 <= order)%Z -> quotient (c 3%nat) (c 1%nat) (nl_k3 r)) /\ (order = 2%Z -> nl_k3 r = NaN) /\
  length (nl_x r) = 1000%nat /\ length (nl_y r) = 1000%nat /\
  (forall i, (i < 1000)%nat -> nth i (nl_y r) 0 = average n S + poly deg c (nth i (nl_x r) 0 - average n F)) /\
  (forall lo hi, spans n F lo hi -> forall i, (i < 1000)%nat -> nth i (nl_x r) 0 = lo + INR i * ((hi - lo) / 999)).
Proof.
  intros L E n deg F S x y. destruct (fitnl_inv _ _ _ _ _ E) as (fit & FC & O2 & NO & XM & FT & LF & K2 & K3 & NX & NY). cbv zeta in FC, O2, NO, XM, FT, LF, K2, K3, NX, NY. fold n in NO, LF. fold deg in K2, K3, NY.
  split; [rewrite FT; exact LF |].
  assert (MF : lmean (mf_fitout fit) = average n F) by (rewrite mean_average, LF; unfold F; rewrite FT; reflexivity).
  assert (MS : lmean sig = average n S) by apply mean_average.
  set (X := map (fun v => v - lmean (mf_fitout fit)) (mf_fitout fit)) in *. set (Y := map (fun v => v - lmean sig) sig) in *. set (xm := lmax1 (hd 0 (map Rabs X)) (map Rabs X)) in *.
  assert (EPS : 0 < 1 / 10 ^ 10) by (apply Rdiv_lt_0_compat; [lra | apply pow_lt; lra]). assert (XP : 0 < xm) by lra.
  set (p := m_polyfit lin (map (fun v => v / xm) X) Y deg) in *. assert (LX : length X = n) by (unfold X; rewrite map_length; exact LF).
  assert (XT : forall t, (t < n)%nat -> nth t X 0 = x t). { intros t T. unfold X. rewrite (nth_map_in _ _ _ 0) by lia. unfold x, F. rewrite <- FT in *. rewrite MF. reflexivity. }
  assert (YT : forall t, (t < n)%nat -> nth t Y 0 = y t). { intros t T. unfold Y. rewrite (nth_map_in _ _ _ 0) by exact T. unfold y. rewrite MS. reflexivity. }
  set (c := fun i => p (deg - i)%nat / xm ^ i). exists c.
  assert (PC : forall v, poly deg c v = poly deg (fun i => p (deg - i)%nat) (v / xm)) by (intros v; rewrite poly_scale by lra; reflexivity).
  assert (DG : (2 <= deg)%nat) by (unfold deg; lia).
  split; [| split; [| split; [| split; [| split; [| split; [| split]]]]]].
  - intros d. pose proof (L (mkMat (length (map (fun v => v / xm) X)) (Datatypes.S deg) (fun t j => nth t (map (fun v => v / xm) X) 0 ^ (deg - j))) (fun t => nth t Y 0) (fun j => d (deg - j)%nat * xm ^ (deg - j))) as Q. fold (m_polyfit lin (map (fun v => v / xm) X) Y deg) in Q. fold p in Q. cbn [m_n m_m m_at] in Q. rewrite map_length, LX in Q.
    eapply Rle_trans; [eapply Rle_trans; [| exact Q] |].
    + apply Req_le, rsum_ext. intros t T. rewrite (nth_map_in _ _ _ 0) by lia. rewrite PC, (poly_rev deg p), YT, XT by exact T. rewrite (rsum_ext (Datatypes.S deg) (fun j => (x t / xm) ^ (deg - j) * p j) (fun j => p j * (x t / xm) ^ (deg - j))) by (intros; ring). ring.
    + apply Req_le, rsum_ext. intros t T. rewrite (nth_map_in _ _ _ 0) by lia. rewrite YT, XT by exact T.
      assert (PD : poly deg d (x t) = rsum (Datatypes.S deg) (fun j => (x t / xm) ^ (deg - j) * (d (deg - j)%nat * xm ^ (deg - j)))).
      { rewrite (poly_ext deg d (fun i => (fun j => d (deg - j)%nat) (deg - i)%nat)) by (intros i I; f_equal; lia). rewrite (poly_rev deg (fun j => d (deg - j)%nat)). apply rsum_ext. intros j J. unfold Rdiv. rewrite Rpow_mult_distr, pow_inv. field. apply pow_nonzero. lra. }
      rewrite PD. ring.
  - rewrite K2. unfold c. rewrite pow_1. apply quotient_xdivide.
  - intros O3. rewrite K3. destruct (Z.leb_spec 3 order); [| lia]. unfold c. rewrite pow_1. apply quotient_xdivide.
  - intros ->. rewrite K3. reflexivity.
  - rewrite NX, map_length, seq_length. reflexivity.
  - rewrite NY, NX, !map_length, seq_length. reflexivity.
  - intros i I. rewrite NY. rewrite (nth_map_in _ _ _ 0) by (rewrite NX, map_length, seq_length; exact I). rewrite PC, poly_rev, MF, MS. ring.
  - intros lo hi ((i0 & I0 & LO) & (j0 & J0 & HI) & B) i I. rewrite NX, (nth_map_in _ _ _ 0%nat) by (rewrite seq_length; exact I). rewrite seq_nth by exact I. cbn [Nat.add]. unfold linspace_at.
    assert (IN : forall v, In v (mf_fitout fit) -> lo <= v <= hi) by (intros v V; destruct (In_nth _ _ 0 V) as (t & T & <-); rewrite <- FT; apply B; lia).
    assert (HD : In (hd 0 (mf_fitout fit)) (mf_fitout fit)) by (destruct (mf_fitout fit); [cbn in LF; lia | left; reflexivity]).
    assert (I1 : In lo (mf_fitout fit)) by (rewrite <- LO; unfold F; rewrite FT; apply nth_In; lia). assert (J1 : In hi (mf_fitout fit)) by (rewrite <- HI; unfold F; rewrite FT; apply nth_In; lia).
    replace (lmax1 (hd 0 (mf_fitout fit)) (mf_fitout fit)) with hi. replace (lmin1 (hd 0 (mf_fitout fit)) (mf_fitout fit)) with lo. { replace (INR 1000 - 1) with 999; [reflexivity |]. rewrite INR_IZR_INZ. change (Z.of_nat 1000) with 1000%Z. lra. }
    + apply Rle_antisym; [destruct (lmin1_in (hd 0 (mf_fitout fit)) (mf_fitout fit)) as [<- | Z]; [apply IN; exact HD | apply IN; exact Z] | apply lmin1_le; exact I1].
    + apply Rle_antisym; [apply lmax1_ge; exact J1 | destruct (lmax1_in (hd 0 (mf_fitout fit)) (mf_fitout fit)) as [<- | Z]; [apply IN; exact HD | apply IN; exact Z]].
Qed.
Lemma quotient_unique a b u v : quotient a b u -> quotient a b v -> u = v.
Proof.
  intros (A1 & A2 & A3 & A4) (B1 & B2 & B3 & B4). destruct (Req_dec b 0) as [Z | Z]; [| rewrite A1, B1 by exact Z; reflexivity]. destruct (Rtotal_order a 0) as [Q | [Q | Q]]; [rewrite A4, B4 | rewrite A2, B2 | rewrite A3, B3]; try assumption; reflexivity.
Qed.
Lemma poly_unique n (x y : nat -> R) deg c c' :
  (forall d, rsum n (fun t => (y t - poly deg c (x t)) ^ 2) <= rsum n (fun t => (y t - poly deg d (x t)) ^ 2)) ->
  (forall d, rsum n (fun t => (y t - poly deg c' (x t)) ^ 2) <= rsum n (fun t => (y t - poly deg d (x t)) ^ 2)) ->
  distinct_values n x (S deg) -> forall i, (i <= deg)%nat -> c i = c' i.
Proof.
  intros M M' (l & LL & ND & LT) i I. set (P := fun t j => x t ^ j).
  assert (MM : forall e, (forall d, rsum n (fun t => (y t - poly deg e (x t)) ^ 2) <= rsum n (fun t => (y t - poly deg d (x t)) ^ 2)) -> minimises (mkMat n (S deg) P) y e).
  { intros e H z. cbn [m_n m_m m_at]. pose proof (H z) as Q. assert (W : forall e, rsum n (fun t => (rsum (S deg) (fun j => P t j * e j) - y t) ^ 2) = rsum n (fun t => (y t - poly deg e (x t)) ^ 2)).
    { intros w. apply rsum_ext. intros t T. unfold poly. rewrite (rsum_ext (S deg) (fun j => P t j * w j) (fun j => w j * x t ^ j)) by (intros; unfold P; ring). ring. }
    rewrite !W. exact Q. }
  pose proof (fitted_unique n (S deg) (S deg) P P y c c' c' c (MM c M) (MM c' M') ltac:(reflexivity) ltac:(reflexivity)) as U.
  cut (c i - c' i = 0); [lra |]. apply (poly_zeros deg (fun i => c i - c' i) (map x l)); [rewrite map_length; exact LL | exact ND | | exact I]. intros z Hz. apply in_map_iff in Hz. destruct Hz as (t & <- & T). rewrite poly_minus. pose proof (U t (LT t T)) as Q. unfold poly. unfold P in Q.
  rewrite (rsum_ext (S deg) (fun j => x t ^ j * c j) (fun j => c j * x t ^ j)) in Q by (intros; ring). rewrite (rsum_ext (S deg) (fun j => x t ^ j * c' j) (fun j => c' j * x t ^ j)) in Q by (intros; ring). lra.
Qed.
(** From the same fitted sine, taking order + 1 values or more, both languages return the same result. *)
Lemma c179_agrees lin lst sig order freq r q : least_squares lin -> least_squares lst -> m_fitstaticnl lin sig order freq = Ok (Some r) -> fit_static_nonlin lst sig order = Ok q ->
  nl_fitted r = nl_fitted q -> distinct_values (length sig) (fun t => nth t (nl_fitted r) 0) (S (Z.to_nat order)) -> r = q.
Proof.
  intros L1 L2 E1 E2 F D. destruct (c179_transfer lin sig order freq r L1 E1) as (LF & c & O & K2 & K3 & K3' & LX & LY & NY & _). destruct (c97_transfer lst sig order q L2 E2) as (c' & O' & Q2 & Q3 & Q3' & LX' & LY' & NY' & _). cbv zeta in *. rewrite <- F in O', NY'.
  destruct (fitnl_inv _ _ _ _ _ E1) as (fit & _ & O2 & NO & _ & FT & _ & _ & _ & NX & _). destruct (nonlin_inv _ _ _ _ E2) as (fit' & _ & _ & _ & _ & FT' & _ & _ & NX' & _). cbv zeta in *. rewrite <- FT in NX. rewrite <- FT' in NX'.
  assert (EX : nl_x r = nl_x q) by (rewrite NX, NX', F; reflexivity).
  assert (EC : forall i, (i <= Z.to_nat order)%nat -> c i = c' i).
  { apply (poly_unique (length sig) _ _ (Z.to_nat order) c c' O O'). destruct D as (l & LL & ND & LT). exists l. split; [exact LL |]. split; [| exact LT]. rewrite <- (map_map (fun t => nth t (nl_fitted r) 0) (fun v => v - average (length sig) (fun t => nth t (nl_fitted r) 0))). apply FinFun.Injective_map_NoDup; [intros u v H; lra | exact ND]. }
  assert (EY : nl_y r = nl_y q). { apply (nth_ext _ _ 0 0); [lia |]. intros i I. rewrite (NY i), (NY' i) by lia. rewrite EX. f_equal. apply poly_ext. exact EC. }
  assert (E_2 : nl_k2 r = nl_k2 q) by (apply (quotient_unique (c 2%nat) (c 1%nat)); [exact K2 | rewrite (EC 2%nat), (EC 1%nat) by lia; exact Q2]).
  assert (E_3 : nl_k3 r = nl_k3 q). { destruct (Z.eq_dec order 2) as [Z | Z]; [rewrite K3', Q3' by exact Z; reflexivity |]. apply (quotient_unique (c 3%nat) (c 1%nat)); [apply K3; lia | rewrite (EC 3%nat), (EC 1%nat) by lia; apply Q3; lia]. }
  clear - F EX EY E_2 E_3. destruct r, q. cbn in *. subst. reflexivity.
Qed.
(** Exactly which calls fail: what Python refuses, and frequencies outside 0 <= f < 1/2. *)
Lemma c179_refuses lin sig order freq : let n := length sig in let good := (2 <= order)%Z /\ 0 <= freq < 1 / 2 /\ (order + 2 <= Z.of_nat n)%Z in
  (~ good -> m_fitstaticnl lin sig order freq = Err RuntimeError) /\
  (good -> exists o, m_sinfit lin (map (fun v => [v]) sig) freq (1 / 10 ^ 12) (1 / 2) false 100 = Ok o /\
    match o with
    | None => m_fitstaticnl lin sig order freq = Ok None
    | Some fit => let F := fun t => nth t (mf_fitout fit) 0 in
        ((exists t, (t < n)%nat /\ 1 / 10 ^ 10 <= Rabs (F t - average n F)) -> exists r, m_fitstaticnl lin sig order freq = Ok (Some r) /\ nl_fitted r = mf_fitout fit) /\
        ((forall t, (t < n)%nat -> Rabs (F t - average n F) < 1 / 10 ^ 10) -> m_fitstaticnl lin sig order freq = Err RuntimeError)
    end).
Proof.
  intros n good. unfold m_fitstaticnl, raise_if. fold n. split.
  - intros B. destruct (Z.ltb_spec order 2); [reflexivity |]. destruct (Rltb_spec freq 0); [reflexivity |]. cbn [orb]. unfold Rleb. destruct (Rle_dec 0.5 freq); [reflexivity |]. destruct (Z.ltb_spec (Z.of_nat n) (order + 2)); [reflexivity |]. exfalso. apply B. unfold good. repeat split; try assumption; lra.
  - intros (O & Fq & N). destruct (proj1 (c168_refuses lin (map (fun v => [v]) sig) freq (1 / 10 ^ 12) (1 / 2) false 100)) as (o & SF).
    { rewrite column_single. fold n. assert (0 < 1 / 10 ^ 12) by (apply Rdiv_lt_0_compat; [lra | apply pow_lt; lra]). repeat split; try lra; try lia. }
    exists o. split; [exact SF |]. destruct (Z.ltb_spec order 2); [lia |]. destruct (Rltb_spec freq 0); [lra |]. cbn [orb]. unfold Rleb. destruct (Rle_dec 0.5 freq); [lra |]. destruct (Z.ltb_spec (Z.of_nat n) (order + 2)); [lia |]. rewrite SF. cbn [bind]. destruct o as [fit |]; [| reflexivity]. cbv zeta.
    destruct (c168_outputs _ _ _ _ _ _ _ _ SF) as (LF & _). rewrite column_single in LF. fold n in LF. rewrite (mean_average (mf_fitout fit)), LF. set (m := average n (fun t => nth t (mf_fitout fit) 0)). set (X := map (fun v => v - m) (mf_fitout fit)).
    assert (LX : length X = n) by (unfold X; rewrite map_length; exact LF). assert (XT : forall t, (t < n)%nat -> nth t X 0 = nth t (mf_fitout fit) 0 - m) by (intros t T; unfold X; rewrite (nth_map_in _ _ _ 0) by lia; reflexivity).
    change (rmax_list (map Rabs X)) with (lmax1 (hd 0 (map Rabs X)) (map Rabs X)).
    split.
    + intros (t & T & G). destruct (Rltb_spec (lmax1 (hd 0 (map Rabs X)) (map Rabs X)) (1 / 10 ^ 10)) as [Q |]; [| eexists; split; reflexivity]. exfalso. pose proof (xmax_ge X t ltac:(lia)) as P. rewrite XT in P by exact T. lra.
    + intros G. destruct (Rltb_spec (lmax1 (hd 0 (map Rabs X)) (map Rabs X)) (1 / 10 ^ 10)) as [| Q]; [reflexivity | exfalso].
      assert (IN : forall v, In v (map Rabs X) -> v < 1 / 10 ^ 10) by (intros v V; apply in_map_iff in V; destruct V as (u & <- & U); destruct (In_nth _ _ 0 U) as (t & T & <-); rewrite LX in T; rewrite XT by exact T; apply G; exact T).
      destruct (lmax1_in (hd 0 (map Rabs X)) (map Rabs X)) as [M | M]; [| specialize (IN _ M); lra]. rewrite <- M in Q. destruct (map Rabs X) as [| v l] eqn:EX; [apply (f_equal (@length R)) in EX; rewrite map_length in EX; cbn in EX; lia |]. cbn [hd] in Q. specialize (IN v (or_introl eq_refl)). lra.
Qed.
(** A constant record without a given frequency: NaN everywhere. *)
Lemma c179_constant lin sig order v : (2 <= order)%Z -> (order + 2 <= Z.of_nat (length sig))%Z -> is_record sig (fun _ => v) -> m_fitstaticnl lin sig order 0 = Ok None.
Proof.
  intros O N C. destruct (proj2 (c179_refuses lin sig order 0)) as (o & SF & H). { repeat split; try assumption; lra. }
  destruct (c168_constant lin (map (fun x => [x]) sig) v (1 / 10 ^ 12) (1 / 2) false 100 ltac:(rewrite column_single; lia) ltac:(rewrite column_single; exact C) ltac:(apply Rdiv_lt_0_compat; [lra | apply pow_lt; lra]) ltac:(lra) ltac:(lia)) as (Q & _).
  rewrite Q in SF. apply Ok_inj in SF. subst o. exact H.
Qed.
(** The documented model at a given coherent frequency: no refinement of the frequency, hence (unlike C99)
    nothing is assumed of the size and phase of the harmonics; the coefficients are k2 / g and k3 / g^2. *)
Lemma c179_gain_given lin sig order k A ph off k2 k3 : least_squares lin -> let n := length sig in let deg := Z.to_nat order in
  let th := fun t => 2 * PI * (INR k / INR n) * INR t + ph in let g := 1 + 3 / 4 * k3 * A ^ 2 in
  (1 <= k)%nat -> (6 * k < n)%nat -> (3 <= order)%Z \/ (order = 2%Z /\ k3 = 0) -> (order + 2 <= Z.of_nat n)%Z -> g <> 0 -> A <> 0 ->
  distinct_values n (fun t => cos (th t)) (S deg) -> (exists t, (t < n)%nat /\ 1 / 10 ^ 10 <= Rabs (g * A * cos (th t))) ->
  (forall t, (t < n)%nat -> nth t sig 0 = off + cubic k2 k3 (A * cos (th t))) ->
  exists r, m_fitstaticnl lin sig order (INR k / INR n) = Ok (Some r) /\ nl_k2 r = Fin (k2 / g) /\ ((3 <= order)%Z -> nl_k3 r = Fin (k3 / g ^ 2)) /\
  forall t, (t < n)%nat -> nth t (nl_fitted r) 0 = off + k2 * A ^ 2 / 2 + g * (A * cos (th t)).
Proof.
  intros L n deg th g K N ORD ON G0 A0 DV BIG REC. set (f := INR k / INR n).
  assert (NP : 0 < INR n) by (apply lt_0_INR; lia).
  assert (F : 0 < f < 1 / 2). { assert (KI : 1 <= INR k) by (replace 1 with (INR 1) by reflexivity; apply le_INR; lia). assert (KN : 6 * INR k + 1 <= INR n). { assert (X : (6 * k + 1 <= n)%nat) by lia. apply le_INR in X. rewrite plus_INR, mult_INR in X. cbn [INR] in X. lra. } unfold f. split; [apply Rdiv_lt_0_compat; lra |]. apply (Rmult_lt_reg_r (INR n)); [exact NP |]. unfold Rdiv at 1. rewrite Rmult_assoc, Rinv_l by lra. lra. }
  assert (TS : forall J a q, (0 < J)%nat -> (2 * J < n)%nat -> rsum n (fun t => a * cos (2 * PI * INR J * INR t / INR n + q)) = 0) by (intros; apply tone_sum; assumption).
  assert (T1 : forall t, th t = 2 * PI * INR k * INR t / INR n + ph) by (intros t; unfold th; field; lra).
  assert (T2 : forall t, 2 * th t = 2 * PI * INR (2 * k) * INR t / INR n + 2 * ph) by (intros t; unfold th; rewrite mult_INR; change (INR 2) with 2; field; lra).
  assert (T3 : forall t, 3 * th t = 2 * PI * INR (3 * k) * INR t / INR n + 3 * ph) by (intros t; unfold th; rewrite mult_INR; change (INR 3) with (1 + 1 + 1); field; lra).
  set (A2 := k2 * A ^ 2 / 2). set (A3 := k3 * A ^ 3 / 4). set (dc := off + k2 * A ^ 2 / 2). set (B := g * A).
  set (e := fun t => A2 * cos (2 * PI * INR (2 * k) * INR t / INR n + 2 * ph) + A3 * cos (2 * PI * INR (3 * k) * INR t / INR n + 3 * ph)).
  assert (RY : forall t, (t < n)%nat -> nth t sig 0 = dc + B * cos ph * cos (2 * PI * f * INR t) - B * sin ph * sin (2 * PI * f * INR t) + e t).
  { intros t T. rewrite (REC t T). unfold e. rewrite <- T2, <- T3, cos_twice, cos_triple. assert (CT : cos (th t) = cos (2 * PI * f * INR t) * cos ph - sin (2 * PI * f * INR t) * sin ph) by (unfold th; fold f; apply cos_plus).
    replace (B * cos ph * cos (2 * PI * f * INR t)) with (B * (cos (2 * PI * f * INR t) * cos ph)) by ring. replace (B * sin ph * sin (2 * PI * f * INR t)) with (B * (sin (2 * PI * f * INR t) * sin ph)) by ring. replace (cos (2 * PI * f * INR t) * cos ph) with (cos (th t) + sin (2 * PI * f * INR t) * sin ph) by (rewrite CT; ring). unfold cubic, B, g, dc, A2, A3. field. }
  assert (ORT : forall c s, rsum n (fun t => e t * (c * cos (2 * PI * f * INR t) + s * sin (2 * PI * f * INR t))) = 0).
  { intros c s. rewrite (rsum_ext n _ (fun t => A2 * cos (2 * PI * INR (2 * k) * INR t / INR n + 2 * ph) * (c * cos (2 * PI * f * INR t) + s * sin (2 * PI * f * INR t)) + A3 * cos (2 * PI * INR (3 * k) * INR t / INR n + 3 * ph) * (c * cos (2 * PI * f * INR t) + s * sin (2 * PI * f * INR t)))) by (intros t T; unfold e; ring).
    rewrite rsum_plus. unfold f. rewrite !tone_orth by lia. ring. }
  assert (SUM : rsum n e = 0) by (unfold e; rewrite rsum_plus, !TS by lia; ring).
  assert (T12 : 0 < 1 / 10 ^ 12) by (apply Rdiv_lt_0_compat; [lra | apply pow_lt; lra]).
  pose proof (sinfit_given lin (map (fun v => [v]) sig) f (1 / 10 ^ 12) (1 / 2) false 100 ltac:(lra) T12 ltac:(lra) ltac:(lia)) as SF. rewrite column_single in SF. fold n in SF. specialize (SF ltac:(lia)). cbv zeta in SF.
  set (co := lin (m_design3 n f) (fun i => nth i sig 0)) in SF.
  assert (M3 : minimises (m_design3 n f) (fun i => nth i sig 0) co) by (apply ls_minimises; exact L).
  assert (C3 : co 0%nat - B * cos ph = 0 /\ co 1%nat + B * sin ph = 0 /\ co 2%nat - dc = 0).
  { clearbody co. pose proof (normal_equations _ _ _ 0%nat M3 ltac:(cbn; lia)) as N0. pose proof (normal_equations _ _ _ 1%nat M3 ltac:(cbn; lia)) as N1. pose proof (normal_equations _ _ _ 2%nat M3 ltac:(cbn; lia)) as N2.
    unfold m_design3, of_cols in N0, N1, N2. cbn [m_n m_m m_at length nth] in N0, N1, N2.
    apply (unique3 n f e); [exact F | lia | exact ORT | exact SUM | | |].
    - etransitivity; [| exact N0]. apply rsum_ext. intros t T. rewrite rsum3. cbn [nth]. rewrite RY by exact T. ring.
    - etransitivity; [| exact N1]. apply rsum_ext. intros t T. rewrite rsum3. cbn [nth]. rewrite RY by exact T. ring.
    - etransitivity; [| exact N2]. apply rsum_ext. intros t T. rewrite rsum3. cbn [nth]. rewrite RY by exact T. ring. }
  destruct C3 as (W0 & W1 & W2).
  set (fit := m_out sig (mkMs f (co 0%nat) (co 1%nat) (co 2%nat) 0 0)) in SF.
  assert (FT : forall t, (t < n)%nat -> nth t (mf_fitout fit) 0 = dc + B * cos (th t)).
  { intros t T. unfold fit, m_out. cbn [mf_fitout ms_a ms_b ms_dc ms_freq]. rewrite (nth_map_in _ _ _ 0%nat) by (rewrite seq_length; exact T). rewrite seq_nth by exact T. cbn [Nat.add]. unfold th. fold f. rewrite cos_plus. replace (co 0%nat) with (B * cos ph) by lra. replace (co 1%nat) with (- (B * sin ph)) by lra. replace (co 2%nat) with dc by lra. ring. }
  assert (AF : average n (fun t => nth t (mf_fitout fit) 0) = dc).
  { unfold average. rewrite (rsum_ext n _ (fun t => dc + B * cos (2 * PI * INR k * INR t / INR n + ph))) by (intros t T; rewrite (FT t T), T1; ring). rewrite rsum_plus, rsum_const, TS by lia. field. lra. }
  assert (AS : average n (fun t => nth t sig 0) = dc).
  { unfold average. rewrite (rsum_ext n _ (fun t => dc + (B * cos (2 * PI * INR k * INR t / INR n + ph) + e t))).
    2:{ intros t T. rewrite (RY t T), <- T1. unfold th. fold f. rewrite cos_plus. ring. }
    rewrite !rsum_plus, rsum_const, SUM, (TS k) by lia. field. lra. }
  destruct (proj2 (c179_refuses lin sig order f)) as (o & SO & H). { fold n. repeat split; try lra; lia. }
  rewrite SF in SO. apply Ok_inj in SO. subst o. cbv beta iota zeta in H. fold n in H. fold co in H. fold fit in H. rewrite AF in H. destruct H as (H & _).
  destruct H as (r & E & NF). { destruct BIG as (t & T & Q). exists t. split; [exact T |]. rewrite (FT t T). replace (dc + B * cos (th t) - dc) with (g * A * cos (th t)) by (unfold B; ring). exact Q. }
  exists r. split; [exact E |].
  destruct (c179_transfer lin sig order f r L E) as (_ & c & OPT & Q2 & Q3 & _). cbv zeta in OPT. fold n deg in OPT.
  set (a := fun i => match i with O => - (k2 * A ^ 2 / 2) | 1%nat => 1 / g | 2%nat => k2 / g ^ 2 | 3%nat => k3 / g ^ 3 | _ => 0 end).
  assert (XV : forall t, (t < n)%nat -> nth t (nl_fitted r) 0 - average n (fun t => nth t (nl_fitted r) 0) = g * A * cos (th t)) by (intros t T; rewrite NF, AF, (FT t T); unfold B; ring).
  assert (PA : forall v, poly deg a v = - (k2 * A ^ 2 / 2) + 1 / g * v + k2 / g ^ 2 * v ^ 2 + k3 / g ^ 3 * v ^ 3).
  { intros v. unfold poly. destruct ORD as [O3 | (O3 & Z)].
    - replace (S deg) with (4 + (deg - 3))%nat by (unfold deg; lia). rewrite rsum_app. rewrite (rsum_zero (deg - 3)) by (intros i I; cbn [Nat.add a]; ring). cbn [rsum a]. ring.
    - subst order. unfold deg. change (S (Z.to_nat 2)) with 3%nat. rewrite Z. cbn [rsum a]. unfold Rdiv. ring. }
  assert (EC : forall i, (i <= deg)%nat -> c i = a i).
  { apply (poly_unique n _ _ deg c a OPT).
    - intros d. rewrite (rsum_zero n) by (intros t T; rewrite XV, AS, PA, (REC t T) by exact T; unfold cubic, dc; field; exact G0). apply rsum_nonneg. intros. apply pow2_ge_0.
    - destruct DV as (l & LL & ND & LT). exists l. split; [exact LL |]. split; [| exact LT].
      rewrite (map_ext_in _ (fun t => g * A * cos (th t))) by (intros t T; apply XV; apply LT; exact T). rewrite <- (map_map (fun t => cos (th t)) (fun v => g * A * v)). apply FinFun.Injective_map_NoDup; [| exact ND]. intros u v Q. apply (Rmult_eq_reg_l (g * A)); [exact Q |]. apply Rmult_integral_contrapositive_currified; assumption. }
  assert (I0 : 1 / g <> 0) by (unfold Rdiv; rewrite Rmult_1_l; apply Rinv_neq_0_compat; exact G0).
  rewrite (EC 2%nat), (EC 1%nat) in Q2 by (unfold deg; lia). cbn [a] in Q2. split; [| split].
  - rewrite (proj1 Q2 I0). f_equal. field. exact G0.
  - intros O3. specialize (Q3 O3). rewrite (EC 3%nat), (EC 1%nat) in Q3 by (unfold deg; lia). cbn [a] in Q3. rewrite (proj1 Q3 I0). f_equal. field. exact G0.
  - intros t T. rewrite NF, (FT t T). unfold dc, A2, B. ring.
Qed.
Lemma rec16_given off k2 k3 : 1 / 10 <= 1 + 3 / 4 * k3 -> exists r, m_fitstaticnl gs_lstsq (rec16 off k2 k3) 3 (1 / 8) = Ok (Some r) /\ nl_k2 r = Fin (k2 / (1 + 3 / 4 * k3)) /\ nl_k3 r = Fin (k3 / (1 + 3 / 4 * k3) ^ 2) /\
  forall t, (t < 16)%nat -> nth t (nl_fitted r) 0 = off + k2 / 2 + (1 + 3 / 4 * k3) * cos (INR t * (PI / 4)).
Proof.
  intros GP. assert (TH : forall t, 2 * PI * (INR 2 / INR 16) * INR t + 0 = INR t * (PI / 4)) by (intros t; cbn [INR]; field).
  assert (C : forall t, cos (2 * PI * (INR 2 / INR 16) * INR t + 0) = fst (e8 h2 t)) by (intros t; rewrite TH; apply e8_cos).
  pose proof h2_sq as H2. pose proof h2_pos as HP. assert (LN : length (rec16 off k2 k3) = 16%nat) by reflexivity. assert (G1 : 1 + 3 / 4 * k3 * 1 ^ 2 = 1 + 3 / 4 * k3) by ring.
  pose proof (c179_gain_given gs_lstsq (rec16 off k2 k3) 3 2 1 0 off k2 k3 gs_least_squares) as Q. cbv zeta in Q. rewrite LN, G1 in Q.
  destruct Q as (r & E & R2 & R3 & R4); try lia; try lra.
  - exists [0; 1; 2; 4]%nat. split; [reflexivity |]. split.
    + cbn [map]. rewrite !C. cbn [e8 fst]. assert (h2 <> 1) by (intros Z; rewrite Z in H2; lra). repeat constructor; cbn [In]; intuition lra.
    + intros t. cbn [In]. intuition lia.
  - exists 0%nat. split; [lia |]. rewrite C. cbn [e8 fst]. rewrite !Rmult_1_r, Rabs_pos_eq by lra. apply Rle_trans with (1 / 10); [| exact GP]. unfold Rdiv. rewrite !Rmult_1_l. apply Rinv_le_contravar; [lra |]. cbn [pow]. lra.
  - intros t T. unfold rec16. rewrite (nth_map_in _ _ _ 0%nat) by (rewrite seq_length; exact T). rewrite seq_nth by exact T. cbn [Nat.add]. rewrite TH, Rmult_1_l. reflexivity.
  - exists r. replace (1 / 8) with (INR 2 / INR 16) by (cbn [INR]; field). split; [exact E |]. split; [exact R2 |]. split; [apply R3; lia |]. intros t T. rewrite (R4 t T), TH. field.
Qed.
(** x + 0.1 x^2 + 0.4 x^3 over two periods of 16 samples, frequency 1/8 given: k2 = 1/13, k3 = 40/169. *)
Example c179_gain_given_ex : exists r, m_fitstaticnl gs_lstsq (rec16 0 (1 / 10) (4 / 10)) 3 (1 / 8) = Ok (Some r) /\ nl_k2 r = Fin (1 / 13) /\ nl_k3 r = Fin (40 / 169).
Proof. destruct (rec16_given 0 (1 / 10) (4 / 10)) as (r & E & K2 & K3 & _); [lra |]. exists r. split; [exact E |]. rewrite K2, K3. split; f_equal; field. Qed.
(** The record of C99: MATLAB at the given frequency and Python return the same record of results. *)
Example c179_agrees_ex : exists r, m_fitstaticnl gs_lstsq (rec16 0 (1 / 10) (- (4 / 10))) 3 (1 / 8) = Ok (Some r) /\ fit_static_nonlin gs_lstsq (rec16 0 (1 / 10) (- (4 / 10))) 3 = Ok r.
Proof.
  destruct (rec16_given 0 (1 / 10) (- (4 / 10))) as (r & E & _ & _ & F); [lra |]. destruct (rec16_runs gs_lstsq 0 (1 / 10) (- (4 / 10)) gs_least_squares) as (q & E' & _ & _ & F'); [lra | lra | rewrite Rabs_pos_eq; lra | rewrite Rabs_left; lra |].
  exists r. split; [exact E |]. rewrite E'. f_equal. symmetry. pose proof h2_sq as H2. pose proof h2_pos as HP.
  destruct (fitnl_inv _ _ _ _ _ E) as (fit & _ & _ & _ & _ & FT & LF & _). destruct (nonlin_inv _ _ _ _ E') as (fit' & FC & _ & _ & _ & FT' & _). cbv zeta in FT, LF, FC, FT'. destruct (c52_parameters _ _ _ _ _ _ FC) as (LF' & _).
  assert (LN : length (rec16 0 (1 / 10) (- (4 / 10))) = 16%nat) by reflexivity. rewrite LN in LF, LF'.
  apply (c179_agrees gs_lstsq gs_lstsq (rec16 0 (1 / 10) (- (4 / 10))) 3 (1 / 8) r q gs_least_squares gs_least_squares E E').
  - apply (nth_ext _ _ 0 0); [rewrite FT, FT'; lia |]. intros t T. rewrite FT, LF in T. rewrite F, F' by exact T. reflexivity.
  - rewrite LN. exists [0; 1; 2; 4]%nat. split; [reflexivity |]. split; [| intros t; cbn [In]; intuition lia]. cbn [map]. rewrite !F, !e8_cos by lia. cbn [e8 fst]. assert (h2 <> 1) by (intros Z; rewrite Z in H2; lra). repeat constructor; cbn [In]; intuition lra.
Qed.
Example c179_refuses_ex : m_fitstaticnl gs_lstsq (rec16 0 0 0) 3 (1 / 2) = Err RuntimeError /\ m_fitstaticnl gs_lstsq [5; 5; 5; 5] 2 0 = Ok None.
Proof.
  split; [apply (proj1 (c179_refuses gs_lstsq (rec16 0 0 0) 3 (1 / 2))); intros (_ & H & _); lra |]. apply (c179_constant gs_lstsq [5; 5; 5; 5] 2 5); [lia | cbn; lia |]. intros t T. cbn in T. do 4 (destruct t as [| t]; [reflexivity |]). lia.
Qed.
