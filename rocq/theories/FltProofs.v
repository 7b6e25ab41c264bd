(** * The SAR converter and the quantiser in double precision: the final lemmas are named c128_ to c133_. *)
From Flocq Require Import Core.Core IEEE754.BinarySingleNaN Mult_error Plus_error.
From Coq Require Import Psatz Permutation.
From Verif Require Import Base BaseLemmas SarModel SarSpec SarProofs SiggenModel FltModel FltSpec FltLemmas.
Local Open Scope R_scope.

(** ** C129: monotone codes, whatever the rounding *)
Definition noiseless : nat -> fl := fun _ => fzero.
Lemma loop_ext v nz nz' w : (forall j, nz j = nz' j) -> forall j d, fbit_loop v nz j w d = fbit_loop v nz' j w d.
Proof. intros H. induction w as [|x w IH]; intros j d; [reflexivity|]. cbn [fbit_loop]. rewrite H, IH. reflexivity. Qed.
Lemma plus_zero v : is_nan v = false -> is_nan (fadd v fzero) = false /\ ev (fadd v fzero) = ev v.
Proof.
  intros N. destruct (is_finite v) eqn:F.
  - destruct (fadd_ev v fzero F eq_refl) as (N' & E). split; [exact N'|]. rewrite E. change (val fzero) with 0. rewrite Rplus_0_r, rnd_id by apply val_double. rewrite clampR_in by (apply val_range, F). symmetry. apply ev_fin, F.
  - destruct v as [|s| |]; try discriminate. split; reflexivity.
Qed.
Lemma fle_trans_ev t a b : is_nan a = false -> is_nan b = false -> ev a <= ev b -> fle t a = true -> fle t b = true.
Proof.
  intros Na Nb L H. destruct (is_nan t) eqn:Nt; [destruct t; try discriminate; rewrite fle_nan_l in H; discriminate|].
  rewrite fle_ev in * by assumption. destruct (Rleb_spec (ev t) (ev a)); [|discriminate]. destruct (Rleb_spec (ev t) (ev b)); [reflexivity|lra].
Qed.
Lemma loop_lex v v' w : is_nan v = false -> is_nan v' = false -> ev v <= ev v' -> forall j d, lex_le (fbit_loop v noiseless j w d) (fbit_loop v' noiseless j w d).
Proof.
  intros Nv Nv' L. induction w as [|x w IH]; intros j d; cbn [fbit_loop]; [constructor|]. destruct (plus_zero v Nv) as (N1 & E1). destruct (plus_zero v' Nv') as (N2 & E2). change (noiseless j) with fzero.
  destruct (fle (fadd d x) (fadd v fzero)) eqn:B1.
  - rewrite (fle_trans_ev _ _ (fadd v' fzero) N1 N2) by (lra || exact B1). apply lex_eq, IH.
  - destruct (fle (fadd d x) (fadd v' fzero)); [apply lex_lt; lia|apply lex_eq, IH].
Qed.
Lemma loop_code v nz w : forall j d, is_code (length w) (fbit_loop v nz j w d).
Proof.
  induction w as [|x w IH]; intros j d; cbn [fbit_loop]; [split; [reflexivity|intros b []]|]. destruct (IH (S j) (if fle (fadd d x) (fadd v (nz j)) then fadd d x else d)) as (L & B). split; [cbn; f_equal; exact L|].
  intros b [<-|Hb]; [destruct (fle _ _); [right|left]; reflexivity|apply B, Hb].
Qed.
Lemma convert_rows samp cmp (vin w : list fl) (a b s c : fl) : is_finite a = true -> is_finite b = true -> fle b a = false -> flt fzero s = false -> flt fzero c = false ->
  fsar_convert samp cmp vin w [a; b] s c = Ok (map (fun x => fbit_loop (fnormalise a b x) noiseless 0 w fzero) vin).
Proof.
  intros Fa Fb L Hs Hc. unfold fsar_convert, fparse_quant_range. rewrite Fa, Fb, L, Hs. cbn [negb orb bind]. cbv zeta. f_equal. apply nth_ext with [] [].
  { rewrite !map_length, seq_length. reflexivity. }
  intros i Hi. rewrite map_length, seq_length in Hi. rewrite (nth_map_in _ _ _ 0%nat) by (rewrite seq_length; exact Hi). rewrite seq_nth by exact Hi. rewrite (nth_map_in _ _ _ fzero) by exact Hi. apply loop_ext. intros j. rewrite Hc. reflexivity.
Qed.
(** Without noise, a larger double never gets a lexicographically smaller code: for every list of weights (also negative,
    infinite or nan) and every increasing range whose span is a finite double. *)
Lemma c129_monotone samp cmp (vin w : list fl) (a b s c : fl) : is_finite a = true -> is_finite b = true -> fle b a = false -> is_finite (fsub b a) = true -> flt fzero s = false -> flt fzero c = false ->
  exists codes, fsar_convert samp cmp vin w [a; b] s c = Ok codes /\ length codes = length vin /\
    (forall i, (i < length vin)%nat -> is_code (length w) (nth i codes [])) /\
    forall i k, (i < length vin)%nat -> (k < length vin)%nat -> le_double (nth i vin fzero) (nth k vin fzero) -> lex_le (nth i codes []) (nth k codes []).
Proof.
  intros Fa Fb L Fs Hs Hc. eexists. split; [apply convert_rows; assumption|]. rewrite map_length. split; [reflexivity|]. split.
  - intros i Hi. rewrite (nth_map_in _ _ _ fzero) by exact Hi. apply loop_code.
  - intros i k Hi Hk H. rewrite !(nth_map_in _ _ _ fzero) by assumption. unfold le_double in H. change (fle (nth i vin fzero) (nth k vin fzero) = true) in H.
    assert (N : is_nan (nth i vin fzero) = false /\ is_nan (nth k vin fzero) = false).
    { split; [destruct (nth i vin fzero); try reflexivity; rewrite fle_nan_l in H; discriminate|]. destruct (nth k vin fzero); try reflexivity. rewrite fle_nan_r in H. discriminate. }
    destruct N as (N1 & N2). rewrite fle_ev in H by assumption. destruct (Rleb_spec (ev (nth i vin fzero)) (ev (nth k vin fzero))) as [H'|]; [|discriminate].
    destruct (fnormalise_mono a b Fa Fb L Fs _ _ N1 N2 H') as (M1 & M2 & M). apply loop_lex; assumption.
Qed.

(** ** C128: dyadic weights convert and reconstruct without rounding error *)
Notation zsum := (fold_right Z.add 0%Z).
Lemma zsum_nonneg ks : Forall (fun k => (1 <= k)%Z) ks -> (0 <= zsum ks)%Z.
Proof. induction 1; cbn; lia. Qed.
Lemma dyadic_fits k e : (Z.abs k <= 2 ^ 53)%Z -> (e <= 970)%Z -> Rabs (IZR k * bpow radix2 e) < big.
Proof.
  intros K E. rewrite Rabs_mult, (Rabs_pos_eq (bpow radix2 e)) by apply bpow_ge_0. rewrite <- abs_IZR. apply IZR_le in K.
  apply Rle_lt_trans with (IZR (2 ^ 53) * bpow radix2 e); [apply Rmult_le_compat_r; [apply bpow_ge_0|exact K]|]. change (IZR (2 ^ 53)) with (bpow radix2 53). rewrite <- bpow_plus. apply bpow_lt. lia.
Qed.
Lemma fadd_dyadic (x y : fl) k l e : is_finite x = true -> is_finite y = true -> val x = IZR k * bpow radix2 e -> val y = IZR l * bpow radix2 e -> (Z.abs (k + l) <= 2 ^ 53)%Z -> (-1074 <= e <= 970)%Z ->
  is_finite (fadd x y) = true /\ val (fadd x y) = IZR (k + l) * bpow radix2 e.
Proof.
  intros Fx Fy Vx Vy K E. assert (S : val x + val y = IZR (k + l) * bpow radix2 e) by (rewrite Vx, Vy, plus_IZR; ring). assert (D : rnd (val x + val y) = IZR (k + l) * bpow radix2 e) by (rewrite S; apply rnd_id, dyadic_double; lia).
  rewrite <- D. apply fadd_fin; try assumption. rewrite D. apply dyadic_fits; lia.
Qed.
(** The normalised input is compared with the thresholds as if it had not been rounded. *)
Definition compares (e : Z) (v : fl) (V : R) : Prop := forall t k, is_finite t = true -> val t = IZR k * bpow radix2 e -> (1 <= k <= 2 ^ 53)%Z -> fle t (fadd v fzero) = Rleb (IZR k * bpow radix2 e) V.
Lemma loop_exact e v V : (-1020 <= e <= 970)%Z -> compares e v V -> forall ks w, Forall (fun k => (1 <= k)%Z) ks -> Forall2 (fun k x => is_finite x = true /\ val x = IZR k * bpow radix2 e) ks w ->
  forall j d q, is_finite d = true -> val d = IZR q * bpow radix2 e -> (0 <= q)%Z -> (q + zsum ks <= 2 ^ 53)%Z ->
  fbit_loop v noiseless j w d = greedy V nz0 j (val d) (map val w).
Proof.
  intros He Hc ks w P W. revert P. induction W as [|k x ks w (Fx & Vx) W IH]; intros P j d q Fd Vd Q HS; [reflexivity|]. inversion_clear P as [|? ? K1 P']. cbn [fold_right] in HS. pose proof (zsum_nonneg ks P') as S0.
  cbn [fbit_loop map]. rewrite greedy0_cons. change (noiseless j) with fzero. destruct (fadd_dyadic d x q k e Fd Fx Vd Vx ltac:(lia) ltac:(lia)) as (Ft & Vt).
  assert (T : val d + val x = val (fadd d x)) by (rewrite Vt, Vd, Vx, plus_IZR; ring). rewrite T. rewrite (Hc _ (q + k)%Z Ft Vt ltac:(lia)). rewrite <- Vt.
  destruct (Rleb_spec (val (fadd d x)) V) as [B|B]; f_equal.
  - apply (IH P' (S j) _ (q + k)%Z Ft Vt); lia.
  - apply (IH P' (S j) _ q Fd Vd); lia.
Qed.
(** Dividing by a power of two and rounding does not cross a threshold. *)
Lemma pow2_quotient y m e k : double y -> (-1020 <= e)%Z -> (1 <= k <= 2 ^ 53)%Z -> (IZR k * bpow radix2 e <= rnd (y / bpow radix2 m) <-> IZR k * bpow radix2 e <= y / bpow radix2 m).
Proof.
  intros Dy He Hk. assert (Dt : double (IZR k * bpow radix2 e)) by (apply dyadic_double; lia). split.
  - intros H. replace (y / bpow radix2 m) with (y * bpow radix2 (- m)) in * by (rewrite bpow_opp; reflexivity).
    destruct (Req_dec y 0) as [->|Ny]; [rewrite Rmult_0_l in *; rewrite rnd_0 in H; exact H|].
    destruct (Z.le_gt_cases (-1074 + 53 - mag radix2 y) (- m)) as [G|G].
    + rewrite rnd_id in H; [exact H|]. apply mult_bpow_exact_FLT; [exact Dy|exact G].
    + exfalso. assert (U : y * bpow radix2 (- m) <= bpow radix2 (-1021)).
      { apply Rle_trans with (Rabs (y * bpow radix2 (- m))); [apply Rle_abs|]. rewrite Rabs_mult, (Rabs_pos_eq (bpow radix2 (- m))) by apply bpow_ge_0.
        apply Rle_trans with (bpow radix2 (mag radix2 y) * bpow radix2 (- m)); [apply Rmult_le_compat_r; [apply bpow_ge_0|left; apply bpow_mag_gt]|]. rewrite <- bpow_plus. apply bpow_le. lia. }
      apply rnd_le in U. rewrite (rnd_id (bpow radix2 (-1021))) in U by (apply generic_format_FLT_bpow; [reflexivity|lia]).
      assert (T : bpow radix2 (-1020) <= IZR k * bpow radix2 e).
      { apply Rle_trans with (1 * bpow radix2 e); [rewrite Rmult_1_l; apply bpow_le; lia|]. apply Rmult_le_compat_r; [apply bpow_ge_0|apply IZR_le; lia]. }
      assert (bpow radix2 (-1021) < bpow radix2 (-1020)) by (apply bpow_lt; lia). lra.
  - intros H. apply rnd_le in H. rewrite (rnd_id _ Dt) in H. exact H.
Qed.
Lemma quotient_compares (x a d : fl) m e k : is_finite a = true -> is_finite x = true -> is_finite d = true -> val d = bpow radix2 m -> (m <= 970)%Z -> (-1020 <= e <= 0)%Z -> (1 <= k <= 2 ^ 53)%Z ->
  is_nan (fdiv (fsub x a) d) = false /\ (IZR k * bpow radix2 e <= ev (fdiv (fsub x a) d) <-> IZR k * bpow radix2 e <= rnd (val x - val a) / bpow radix2 m).
Proof.
  intros Fa Fx Fs Vs Hmr He Hk. assert (P := bpow_gt_0 radix2 m). pose proof (dyadic_fits k e ltac:(lia) ltac:(lia)) as Tf. set (tv := IZR k * bpow radix2 e) in *.
  assert (Tp : 0 < tv) by (unfold tv; apply Rmult_lt_0_compat; [apply IZR_lt; lia|apply bpow_gt_0]).
  destruct (fsub_ev x a Fx Fa) as (N1 & E1). set (u := fsub x a) in *. set (y := rnd (val x - val a)) in *.
  destruct (is_finite u) eqn:Fu.
  - rewrite ev_fin in E1 by exact Fu. pose proof (val_range u Fu) as Vr.
    assert (Yi : Rabs y < big).
    { apply Rabs_def2 in Vr. pose proof big_pos. rewrite E1 in Vr. unfold clampR, Rmin, Rmax in Vr. destruct (Rle_dec big y) as [|G1]; [destruct (Rle_dec (- big) big); lra|]. destruct (Rle_dec (- big) y) as [G2|]; [|lra]. apply Rabs_def1; [lra|]. destruct (Req_dec y (- big)); [lra|lra]. }
    rewrite clampR_in in E1 by exact Yi. destruct (fdiv_ev u d Fu Fs ltac:(lra)) as (N2 & E2). split; [exact N2|]. rewrite E2, E1, Vs. rewrite clampR_ge by exact Tf. apply pow2_quotient; [apply rnd_double|lia|exact Hk].
  - destruct u as [|s| |] eqn:Eu; try discriminate. assert (D : fdiv (B754_infinity s) d = B754_infinity s) by (destruct (pos_finite d Fs ltac:(lra)) as (m' & e' & H' & ->); destruct s; reflexivity). rewrite D. split; [reflexivity|].
    cbn [ev] in *. pose proof big_pos as BP. apply Rabs_def2 in Tf. destruct s.
    + assert (y <= - big) by (unfold clampR, Rmin, Rmax in E1; destruct (Rle_dec big y); destruct (Rle_dec _ _); lra). split; [lra|]. intros Hbad. exfalso. assert (y / bpow radix2 m <= 0) by (apply Rmult_le_reg_r with (bpow radix2 m); [lra|]; unfold Rdiv; rewrite Rmult_assoc, Rinv_l by lra; lra). lra.
    + assert (Yb : big <= y) by (unfold clampR, Rmin, Rmax in E1; destruct (Rle_dec big y); [lra|]; destruct (Rle_dec _ _); lra). split; [|lra]. intros _.
      assert (T53 : tv <= bpow radix2 1023 / bpow radix2 m).
      { unfold Rdiv. rewrite <- bpow_opp, <- bpow_plus. apply Rle_trans with (bpow radix2 53); [|apply bpow_le; lia].
        change (bpow radix2 53) with (IZR (2 ^ 53)). unfold tv. apply Rle_trans with (IZR k * bpow radix2 0); [apply Rmult_le_compat_l; [apply IZR_le; lia|apply bpow_le; lia]|]. cbn [bpow]. rewrite Rmult_1_r. apply IZR_le. lia. }
      apply Rle_trans with (1 := T53). apply Rmult_le_compat_r; [left; apply Rinv_0_lt_compat; exact P|]. apply Rle_trans with (2 := Yb). apply bpow_le. lia.
Qed.
Lemma normalise_compares (a b x : fl) m e : is_finite a = true -> is_finite b = true -> is_finite x = true -> val b - val a = bpow radix2 m -> (-1074 <= m <= 970)%Z -> (-1020 <= e <= 0)%Z ->
  compares e (fnormalise a b x) (rnd (val x - val a) / bpow radix2 m).
Proof.
  intros Fa Fb Fx Hm Hmr He t k Ft Vt Hk. assert (Rm : rnd (val b - val a) = bpow radix2 m) by (rewrite Hm; apply rnd_id, generic_format_FLT_bpow; [reflexivity|lia]). assert (P := bpow_gt_0 radix2 m).
  destruct (fsub_fin b a Fb Fa) as (Fs & Vs); [rewrite Rm, Rabs_pos_eq by lra; apply bpow_lt; lia|]. rewrite Rm in Vs.
  destruct (quotient_compares x a (fsub b a) m e k Fa Fx Fs Vs ltac:(lia) He Hk) as (N3 & G). unfold fnormalise. destruct (plus_zero _ N3) as (N4 & E4). rewrite fle_ev by (exact N4 || apply fin_not_nan, Ft). rewrite E4, (ev_fin t Ft), Vt.
  destruct (Rleb_spec (IZR k * bpow radix2 e) (ev (fdiv (fsub x a) (fsub b a)))); destruct (Rleb_spec (IZR k * bpow radix2 e) (rnd (val x - val a) / bpow radix2 m)); try reflexivity; tauto || lra.
Qed.
Lemma span_of (a b : fl) m : is_finite a = true -> is_finite b = true -> val b - val a = bpow radix2 m -> (-1074 <= m <= 1023)%Z -> fle b a = false /\ is_finite (fsub b a) = true /\ val (fsub b a) = bpow radix2 m.
Proof.
  intros Fa Fb Hm Hr. pose proof (bpow_gt_0 radix2 m) as P. assert (Rm : rnd (val b - val a) = bpow radix2 m) by (rewrite Hm; apply rnd_id, generic_format_FLT_bpow; [reflexivity|lia]). split.
  - rewrite fle_ev by (apply fin_not_nan; assumption). rewrite !ev_fin by assumption. destruct (Rleb_spec (val b) (val a)); [lra|reflexivity].
  - rewrite <- Rm. apply fsub_fin; try assumption. rewrite Rm, Rabs_pos_eq by lra. apply bpow_lt. lia.
Qed.
(** With dyadic weights and a span that is a power of two, the codes are those of the exact converter: the only rounding
    is that of vin - v_min. *)
Lemma c128_convert samp cmp samp' cmp' (vin w : list fl) (a b s c : fl) e ks m : dyadic_weights e ks w -> is_finite a = true -> is_finite b = true -> val b - val a = bpow radix2 m -> (-1074 <= m <= 970)%Z ->
  (forall x, In x vin -> is_finite x = true) -> flt fzero s = false -> flt fzero c = false ->
  fsar_convert samp cmp vin w [a; b] s c = sar_convert samp' cmp' (map (fun x => rnd (val x - val a)) vin) (map val w) [Fin 0; Fin (val b - val a)] 0 0.
Proof.
  intros (He & P & S & W) Fa Fb Hm Hr Fv Hs Hc. destruct (span_of a b m Fa Fb Hm ltac:(lia)) as (L & Fs & Vs). rewrite convert_rows by assumption. pose proof (bpow_gt_0 radix2 m) as Pm.
  destruct (noise_free samp' cmp' (map (fun x => rnd (val x - val a)) vin) (map val w) 0 (val b - val a) 0 0 ltac:(lra) ltac:(lra) ltac:(lra)) as (codes & _ & E1 & _ & L1 & _ & N1 & _). rewrite E1. f_equal.
  rewrite map_length in L1. apply nth_ext with [] []; [rewrite map_length; symmetry; exact L1|]. intros i Hi. rewrite map_length in Hi. rewrite N1 by (rewrite map_length; exact Hi). rewrite (nth_map_in _ _ _ fzero) by exact Hi. rewrite (nth_map_in _ _ _ fzero) by exact Hi.
  rewrite !Rminus_0_r, Hm. change 0 with (val fzero) at 1. apply (loop_exact e _ _ ltac:(lia) (normalise_compares a b _ m e Fa Fb (Fv _ (nth_In _ _ Hi)) Hm Hr He) ks w P W 0 fzero 0); [reflexivity|change (val fzero) with 0; lra|lia|lia].
Qed.
(** From v_min = 0 there is no rounding at all: the double-precision converter is the exact one. *)
Lemma c128_convert_zero samp cmp samp' cmp' (vin w : list fl) (b s c : fl) e ks m : dyadic_weights e ks w -> is_finite b = true -> val b = bpow radix2 m -> (-1074 <= m <= 970)%Z ->
  (forall x, In x vin -> is_finite x = true) -> flt fzero s = false -> flt fzero c = false ->
  fsar_convert samp cmp vin w [fzero; b] s c = sar_convert samp' cmp' (map val vin) (map val w) [Fin 0; Fin (val b)] 0 0.
Proof.
  intros D Fb Hm Hr Fv Hs Hc. rewrite (c128_convert samp cmp samp' cmp' vin w fzero b s c e ks m); try assumption; [|reflexivity|change (val fzero) with 0; lra].
  change (val fzero) with 0. rewrite Rminus_0_r. f_equal. apply map_ext. intros x. rewrite Rminus_0_r. apply rnd_id, val_double.
Qed.
(** ** Sums in any order *)
Definition multiple (e : Z) (x : fl) : Prop := is_finite x = true /\ exists k, (0 <= k)%Z /\ val x = IZR k * bpow radix2 e.
Lemma lsum_perm (l m : list R) : Permutation l m -> lsum l = lsum m.
Proof. induction 1; cbn [lsum]; lra. Qed.
Lemma sums_exact e l a : sums l a -> (-1074 <= e <= 970)%Z -> Forall (multiple e) l -> lsum (map val l) <= IZR (2 ^ 53) * bpow radix2 e -> multiple e a /\ val a = lsum (map val l).
Proof.
  intros H He. induction H as [|x|l m a b H1 IH1 H2 IH2|l m a P H IH]; intros F B.
  - split; [split; [reflexivity|]; exists 0%Z; split; [lia|]|]; change (val fzero) with 0; cbn; lra.
  - inversion_clear F. split; [assumption|]. cbn. lra.
  - apply Forall_app in F. destruct F as (F1 & F2). rewrite map_app, lsum_app in *. assert (N : forall l, Forall (multiple e) l -> 0 <= lsum (map val l)).
    { clear l m a b H1 H2 IH1 IH2 F1 F2 B. intros l F. induction F as [|x l (_ & k & K & V) F IH]; cbn; [lra|]. rewrite V. assert (0 <= IZR k * bpow radix2 e) by (apply Rmult_le_pos; [apply IZR_le; lia|apply bpow_ge_0]). lra. }
    pose proof (N l F1). pose proof (N m F2). destruct (IH1 F1 ltac:(lra)) as ((Fa & k & K & Va) & Sa). destruct (IH2 F2 ltac:(lra)) as ((Fb & q & Q & Vb) & Sb).
    assert (KQ : (k + q <= 2 ^ 53)%Z).
    { apply le_IZR. rewrite plus_IZR. apply Rmult_le_reg_r with (bpow radix2 e); [apply bpow_gt_0|]. lra. }
    destruct (fadd_dyadic a b k q e Fa Fb Va Vb ltac:(lia) He) as (Fc & Vc). split; [split; [exact Fc|]; exists (k + q)%Z; split; [lia|exact Vc]|]. rewrite Vc, plus_IZR. lra.
  - assert (F' : Forall (multiple e) l) by (eapply Permutation_Forall; [apply Permutation_sym, P|exact F]). pose proof (lsum_perm _ _ (Permutation_map val P)) as Q. rewrite <- Q in B. destruct (IH F' B) as (A1 & A2). split; [exact A1|]. rewrite A2. exact Q.
Qed.
Lemma dyadic_multiple e ks (w : list fl) : Forall (fun k => (1 <= k)%Z) ks -> Forall2 (fun k x => is_finite x = true /\ val x = IZR k * bpow radix2 e) ks w -> Forall (multiple e) w /\ lsum (map val w) = IZR (zsum ks) * bpow radix2 e.
Proof.
  intros P W. induction W as [|k x ks w (F & V) W IH]; [split; [constructor|cbn; ring]|]. inversion_clear P as [|? ? K P']. destruct (IH P') as (I1 & I2). split.
  - constructor; [|exact I1]. split; [exact F|]. exists k. split; [lia|exact V].
  - cbn [map lsum fold_right]. rewrite I2, V, plus_IZR. ring.
Qed.
Lemma bit_product c (x : fl) : c = 0%Z \/ c = 1%Z -> is_finite x = true -> is_finite (fmul (fnum c 0) x) = true /\ val (fmul (fnum c 0) x) = IZR c * val x.
Proof.
  intros C F. destruct (fnum_fin c 0 ltac:(lia) ltac:(lia) ltac:(lia)) as (Fc & Vc). assert (V : rnd (val (fnum c 0) * val x) = IZR c * val x).
  { rewrite Vc. cbn [bpow]. rewrite Rmult_1_r. destruct C as [-> | ->]; [rewrite Rmult_0_l; apply rnd_0|rewrite Rmult_1_l; apply rnd_id, val_double]. }
  rewrite <- V. apply fmul_fin; try assumption. rewrite V. destruct C as [-> | ->]; [rewrite Rmult_0_l, Rabs_R0; apply big_pos|rewrite Rmult_1_l; apply val_range, F].
Qed.
Lemma products e ks (w : list fl) : Forall (fun k => (1 <= k)%Z) ks -> Forall2 (fun k x => is_finite x = true /\ val x = IZR k * bpow radix2 e) ks w -> forall row, length row = length w -> (forall c, In c row -> c = 0%Z \/ c = 1%Z) ->
  Forall (multiple e) (map2 (fun c x => fmul (fnum c 0) x) row w) /\ lsum (map val (map2 (fun c x => fmul (fnum c 0) x) row w)) = dot (map IZR row) (map val w) /\ 0 <= dot (map IZR row) (map val w) <= lsum (map val w).
Proof.
  intros P W. induction W as [|k x ks w (F & V) W IH]; intros [|c row] L B; try discriminate; [cbn; split; [constructor|]; split; lra|]. inversion_clear P as [|? ? K P']. destruct (IH P' row ltac:(cbn in L; lia) ltac:(intros; apply B; right; assumption)) as (I1 & I2 & I3).
  destruct (bit_product c x (B c (or_introl eq_refl)) F) as (Fp & Vp). assert (X : 0 <= val x) by (rewrite V; apply Rmult_le_pos; [apply IZR_le; lia|apply bpow_ge_0]). cbn [map2 map lsum dot]. split; [|split].
  - constructor; [|exact I1]. split; [exact Fp|]. exists (c * k)%Z. split; [destruct (B c (or_introl eq_refl)); subst c; lia|]. rewrite Vp, V, mult_IZR. ring.
  - rewrite Vp, I2. reflexivity.
  - destruct (B c (or_introl eq_refl)); subst c; lra.
Qed.
(** Reconstruction with such weights rounds once: the result is the exact reconstruction, correctly rounded, in whatever
    order the products are added. *)
Lemma c128_reconstruct sum codes (w : list fl) (a b : fl) e ks m : summation sum -> dyadic_weights e ks w -> is_finite a = true -> is_finite b = true -> val b - val a = bpow radix2 m -> (m <= 970)%Z -> (-1074 <= e + m)%Z -> total (map val w) <= 1 ->
  (forall row, In row codes -> is_code (length w) row) ->
  exists out exact, fsar_reconstruct sum codes w [a; b] = Ok out /\ sar_reconstruct codes (map val w) [Fin (val a); Fin (val b)] = Ok exact /\
    Forall (fun x => is_finite x = true) out /\ map val out = map rnd exact.
Proof.
  intros HS (He & P & S & W) Fa Fb Hm Hr He' T C. destruct (span_of a b m Fa Fb Hm ltac:(lia)) as (L & Fs & Vs). destruct (dyadic_multiple e ks w P W) as (WM & WS). pose proof (bpow_gt_0 radix2 m) as Pm. rewrite total_lsum in T.
  assert (R1 : existsb (fun row => negb (length row =? length w)%nat) codes = false).
  { apply not_true_iff_false. intros H. apply existsb_exists in H. destruct H as (row & I1 & H). apply C in I1. destruct I1 as (I1 & _). rewrite I1, Nat.eqb_refl in H. discriminate. }
  eexists. eexists. split; [unfold fsar_reconstruct, fparse_quant_range; rewrite Fa, Fb, L; cbn [negb orb bind]; rewrite R1; reflexivity|].
  split; [unfold sar_reconstruct, parse_quant_range; destruct (Rleb_spec (val b) (val a)); [exfalso; lra|]; cbn [bind]; rewrite map_length, R1; reflexivity|]. rewrite !map_map.
  assert (K : forall row, In row codes -> is_finite (fadd (fmul (sum (map2 (fun c x => fmul (fnum c 0) x) row w)) (fsub b a)) a) = true /\ val (fadd (fmul (sum (map2 (fun c x => fmul (fnum c 0) x) row w)) (fsub b a)) a) = rnd (dot (map IZR row) (map val w) * (val b - val a) + val a)).
  { intros row I1. destruct (C row I1) as (Lr & Br). destruct (products e ks w P W row Lr Br) as (M1 & M2 & M3 & M4).
    assert (B53 : IZR (zsum ks) * bpow radix2 e <= IZR (2 ^ 53) * bpow radix2 e) by (apply Rmult_le_compat_r; [apply bpow_ge_0|apply IZR_le, S]).
    destruct (sums_exact e _ _ (HS _) ltac:(lia) M1) as ((Fu & k & K0 & Vk) & Vu); [rewrite M2; lra|]. rewrite M2 in Vu. set (u := sum _) in *.
    assert (K53 : (k <= 2 ^ 53)%Z) by (apply le_IZR; apply Rmult_le_reg_r with (bpow radix2 e); [apply bpow_gt_0|]; lra).
    assert (V1 : rnd (val u * val (fsub b a)) = dot (map IZR row) (map val w) * bpow radix2 m).
    { rewrite Vs, Vu. apply rnd_id. rewrite <- Vu, Vk, Rmult_assoc, <- bpow_plus. apply dyadic_double; lia. }
    destruct (fmul_fin u (fsub b a) Fu Fs) as (F1 & V1').
    { rewrite V1, Rabs_pos_eq by (apply Rmult_le_pos; lra). apply Rle_lt_trans with (1 * bpow radix2 m); [apply Rmult_le_compat_r; lra|rewrite Rmult_1_l; apply bpow_lt; lia]. }
    rewrite V1 in V1'. rewrite Hm. rewrite <- V1'. apply fadd_fin; try assumption. rewrite V1'.
    pose proof (val_range a Fa) as Ra. pose proof (val_range b Fb) as Rb. apply Rabs_def2 in Ra, Rb.
    assert (D0 : 0 <= dot (map IZR row) (map val w) * bpow radix2 m) by (apply Rmult_le_pos; lra). assert (D1 : dot (map IZR row) (map val w) * bpow radix2 m <= 1 * bpow radix2 m) by (apply Rmult_le_compat_r; lra).
    assert (Ga : rnd (val a) <= rnd (dot (map IZR row) (map val w) * bpow radix2 m + val a)) by (apply rnd_le; lra). assert (Gb : rnd (dot (map IZR row) (map val w) * bpow radix2 m + val a) <= rnd (val b)) by (apply rnd_le; lra).
    rewrite (rnd_id _ (val_double a)) in Ga. rewrite (rnd_id _ (val_double b)) in Gb. apply Rabs_def1; lra. }
  split; [apply Forall_forall; intros x Hx; apply in_map_iff in Hx; destruct Hx as (row & <- & I1); apply K, I1|]. apply map_ext_in. intros row I1. apply K, I1.
Qed.
(** ** Ideal weights *)
Lemma fZ_small z : (Z.abs z <= 2 ^ 53)%Z -> fZ z = Ok (fnum z 0) /\ is_finite (fnum z 0) = true /\ val (fnum z 0) = IZR z.
Proof. intros H. destruct (fnum_fin z 0 H ltac:(lia) ltac:(lia)) as (F & V). unfold fZ. rewrite F. split; [reflexivity|]. split; [reflexivity|]. rewrite V. cbn [bpow]. ring. Qed.
Lemma fZs_small l : Forall (fun z => (Z.abs z <= 2 ^ 53)%Z) l -> fZs l = Ok (map (fun z => fnum z 0) l).
Proof. induction 1 as [|z l H F IH]; [reflexivity|]. cbn [fZs map]. rewrite (proj1 (fZ_small z H)), IH. reflexivity. Qed.
Lemma pow2_IZR n : IZR (2 ^ Z.of_nat n) = bpow radix2 (Z.of_nat n).
Proof. change 2%Z with (radix_val radix2). apply IZR_Zpower. lia. Qed.
Lemma binary_list_S n : binary_list (Z.of_nat (S n)) = (2 ^ Z.of_nat n)%Z :: binary_list (Z.of_nat n).
Proof.
  unfold binary_list. rewrite !Nat2Z.id. cbn [seq map]. f_equal; [f_equal; lia|]. rewrite <- seq_shift, map_map. apply map_ext. intros i. f_equal. lia.
Qed.
Lemma binary_list_sum n : zsum (binary_list (Z.of_nat n)) = (2 ^ Z.of_nat n - 1)%Z.
Proof. induction n as [|n IH]; [reflexivity|]. rewrite binary_list_S. cbn [fold_right]. rewrite IH, Nat2Z.inj_succ, Z.pow_succ_r by lia. lia. Qed.
Lemma binary_list_range n : Forall (fun k => (1 <= k <= 2 ^ Z.of_nat n)%Z) (binary_list (Z.of_nat n)).
Proof.
  induction n as [|n IH]; [constructor|]. rewrite binary_list_S, Nat2Z.inj_succ, Z.pow_succ_r by lia. pose proof (Z.pow_pos_nonneg 2 (Z.of_nat n) ltac:(lia) ltac:(lia)). constructor; [lia|].
  eapply Forall_impl; [|exact IH]. cbv beta. intros k Hk. lia.
Qed.
Lemma binary_list_last n : exists r, rev (map (fun z => fnum z 0) (binary_list (Z.of_nat (S n)))) = fnum 1 0 :: r.
Proof.
  induction n as [|n IH]; [exists []; reflexivity|]. destruct IH as (r & E). rewrite binary_list_S. cbn [map rev]. rewrite E. exists (r ++ [fnum (2 ^ Z.of_nat (S n)) 0]). reflexivity.
Qed.
Lemma pow2_53 n : (n <= 53)%nat -> (2 ^ Z.of_nat n <= 2 ^ 53)%Z.
Proof. intros H. apply Z.pow_le_mono_r; lia. Qed.
(** Up to 53 bits, the double-precision weights are exactly the powers of two the exact model computes. *)
Lemma c128_weights sum n : summation sum -> (1 <= n <= 53)%nat -> exists w, fsar_ideal_weights sum (Z.of_nat n) None = Ok w /\
  sar_ideal_weights (Z.of_nat n) None = Ok (map val w) /\ dyadic_weights (- Z.of_nat n) (binary_list (Z.of_nat n)) w.
Proof.
  intros HS Hn. pose proof (binary_list_range n) as BR. pose proof (pow2_53 n ltac:(lia)) as P53. set (B := binary_list (Z.of_nat n)) in *. set (W := map (fun z => fnum z 0) B).
  assert (FZ : fZs B = Ok W) by (apply fZs_small; eapply Forall_impl; [|exact BR]; cbv beta; intros; lia).
  assert (WM : Forall2 (fun k x => is_finite x = true /\ val x = IZR k * bpow radix2 0) B W).
  { unfold W. clear - BR P53. induction BR as [|k l H F IH]; [constructor|]. cbn [map]. constructor; [|exact IH]. apply fnum_fin; lia. }
  destruct (dyadic_multiple 0 B W) as (M & HW); [eapply Forall_impl; [|exact BR]; cbv beta; intros; lia|exact WM|]. cbn [bpow] in HW. rewrite Rmult_1_r in HW. unfold B in HW. rewrite binary_list_sum in HW.
  destruct (sums_exact 0 W _ (HS W) ltac:(lia) M) as ((Fs & q & Q & Vq) & Vs); [rewrite HW; cbn [bpow]; rewrite Rmult_1_r; apply IZR_le; lia|].
  destruct n as [|n']; [lia|]. destruct (binary_list_last n') as (r & Lr). fold B W in Lr. destruct (fnum_fin 1 0 ltac:(lia) ltac:(lia) ltac:(lia)) as (F1 & V1). cbn [bpow] in V1. rewrite Rmult_1_r in V1. set (n := S n') in *.
  destruct (fadd_dyadic (sum W) (fnum 1 0) (2 ^ Z.of_nat n - 1) 1 0 Fs F1) as (Fd & Vd); [cbn [bpow]; lra|cbn [bpow]; lra|lia|lia|]. replace (2 ^ Z.of_nat n - 1 + 1)%Z with (2 ^ Z.of_nat n)%Z in Vd by lia. cbn [bpow] in Vd. rewrite Rmult_1_r, pow2_IZR in Vd.
  assert (DW : Forall2 (fun k x => is_finite x = true /\ val x = IZR k * bpow radix2 (- Z.of_nat n)) B (map (fun x => fdiv x (fadd (sum W) (fnum 1 0))) W)).
  { generalize dependent (fadd (sum W) (fnum 1 0)). intros den Fd Vd. unfold W. rewrite map_map. clear - BR P53 Fd Vd Hn. induction BR as [|k l H F IH]; [constructor|]. cbn [map]. constructor; [|exact IH]. destruct (fnum_fin k 0 ltac:(lia) ltac:(lia) ltac:(lia)) as (Fk & Vk). cbn [bpow] in Vk. rewrite Rmult_1_r in Vk.
    assert (D : rnd (val (fnum k 0) / val den) = IZR k * bpow radix2 (- Z.of_nat n)).
    { rewrite Vk, Vd. unfold Rdiv. rewrite <- bpow_opp. apply rnd_id, dyadic_double; lia. }
    rewrite <- D. apply fdiv_fin; try assumption; [rewrite Vd; apply Rgt_not_eq, bpow_gt_0|]. rewrite D. apply dyadic_fits; lia. }
  exists (map (fun x => fdiv x (fadd (sum W) (fnum 1 0))) W). split; [|split].
  - unfold fsar_ideal_weights, raw_weights. cbn [bind]. fold B. rewrite FZ. cbn [bind]. rewrite Lr. reflexivity.
  - destruct (c01_plain (Z.of_nat n) ltac:(lia)) as (w & E & L & V). rewrite E. f_equal. rewrite Nat2Z.id in *. apply nth_ext with 0 0; [rewrite L; unfold W, B, binary_list; rewrite !map_length, seq_length; lia|]. intros i Hi. rewrite L in Hi. rewrite V by exact Hi.
    assert (LW : (i < length (map (fun x => fdiv x (fadd (sum W) (fnum 1 0))) W))%nat) by (unfold W, B, binary_list; rewrite !map_length, seq_length; lia).
    rewrite (nth_map_in _ _ _ fzero) by exact LW. assert (G : forall ks (l : list fl) i, Forall2 (fun k x => is_finite x = true /\ val x = IZR k * bpow radix2 (- Z.of_nat n)) ks l -> (i < length l)%nat -> val (nth i l fzero) = IZR (nth i ks 0%Z) * bpow radix2 (- Z.of_nat n)).
    { clear. intros ks l i H. revert i. induction H as [|k x ks l (_ & H) F IH]; intros [|i] Hi; cbn in Hi; try lia; [exact H|]. apply IH. lia. }
    rewrite (G _ _ i DW LW). unfold B, binary_list. rewrite Nat2Z.id. rewrite (nth_map_in _ _ _ 0%nat) by (rewrite seq_length; exact Hi). rewrite seq_nth by exact Hi. cbn [plus]. replace (Z.of_nat n - 1 - Z.of_nat i)%Z with (Z.of_nat (n - 1 - i)) by lia.
    rewrite pow2_IZR, bpow_opp. unfold Rdiv. rewrite !bpow_powerRZ. change (IZR radix2) with 2. rewrite <- !pow_powerRZ. reflexivity.
  - split; [lia|]. split; [eapply Forall_impl; [|exact BR]; cbv beta; intros; lia|]. split; [unfold B; rewrite binary_list_sum; lia|exact DW].
Qed.
(** ** The ideal converter is the floor of vin * 2^n *)
Fixpoint bw (n r : nat) : list R := match r with O => [] | S r' => 2 ^ r' / 2 ^ n :: bw n r' end.
Lemma pow2_Z r : IZR (2 ^ Z.of_nat r) = 2 ^ r.
Proof. rewrite <- pow_IZR. reflexivity. Qed.
Lemma clip_step r c : (if (2 ^ Z.of_nat r <=? c)%Z then 1%Z :: bits r (clip_code r (c - 2 ^ Z.of_nat r)) else 0%Z :: bits r (clip_code r c)) = bits (S r) (clip_code (S r) c).
Proof.
  assert (P : (0 < 2 ^ Z.of_nat r)%Z) by (apply Z.pow_pos_nonneg; lia). cbn [bits]. unfold clip_code. rewrite Nat2Z.inj_succ, Z.pow_succ_r by lia. set (p := (2 ^ Z.of_nat r)%Z) in *.
  assert (D : (Z.max 0 (Z.min c (2 * p - 1)) / p = if (p <=? c)%Z then 1 else 0)%Z).
  { destruct (Z.leb_spec p c); [symmetry; apply (Z.div_unique _ p 1 (Z.max 0 (Z.min c (2 * p - 1)) - p)); lia|apply Z.div_small; lia]. }
  rewrite (Zmod_eq_full _ p) by lia. rewrite D. destruct (Z.leb_spec p c); f_equal; f_equal; lia.
Qed.
Lemma greedy_closed n V : forall r j D, greedy V nz0 j D (bw n r) = bits r (clip_code r (Zfloor ((V - D) * 2 ^ n))).
Proof.
  assert (P : 0 < 2 ^ n) by (apply pow_lt; lra). induction r as [|r IH]; intros j D; [reflexivity|]. cbn [bw]. rewrite greedy0_cons, !IH, <- clip_step.
  destruct (Rleb_spec (D + 2 ^ r / 2 ^ n) V) as [H|H].
  - assert (G : (2 ^ Z.of_nat r <= Zfloor ((V - D) * 2 ^ n))%Z).
    { apply Zfloor_lub. rewrite pow2_Z. apply Rmult_le_reg_r with (/ 2 ^ n); [apply Rinv_0_lt_compat, P|]. rewrite Rmult_assoc, Rinv_r by lra. unfold Rdiv in H. lra. }
    destruct (Z.leb_spec (2 ^ Z.of_nat r) (Zfloor ((V - D) * 2 ^ n))); [|lia]. do 3 f_equal. apply Zfloor_imp. rewrite plus_IZR, minus_IZR, pow2_Z. pose proof (Zfloor_lb ((V - D) * 2 ^ n)). pose proof (Zfloor_ub ((V - D) * 2 ^ n)). replace ((V - (D + 2 ^ r / 2 ^ n)) * 2 ^ n) with ((V - D) * 2 ^ n - 2 ^ r) by (field; lra). lra.
  - assert (G : (Zfloor ((V - D) * 2 ^ n) < 2 ^ Z.of_nat r)%Z).
    { apply lt_IZR. rewrite pow2_Z. apply Rle_lt_trans with (1 := Zfloor_lb _). apply Rmult_lt_reg_r with (/ 2 ^ n); [apply Rinv_0_lt_compat, P|]. rewrite Rmult_assoc, Rinv_r by lra. unfold Rdiv in H. lra. }
    destruct (Z.leb_spec (2 ^ Z.of_nat r) (Zfloor ((V - D) * 2 ^ n))); [lia|]. reflexivity.
Qed.
Lemma bw_value n : forall r c, (0 <= c < 2 ^ Z.of_nat r)%Z -> dot (map IZR (bits r c)) (bw n r) = IZR c / 2 ^ n.
Proof.
  assert (P : 0 < 2 ^ n) by (apply pow_lt; lra). induction r as [|r IH]; intros c Hc; [cbn in *; replace c with 0%Z by lia; unfold Rdiv; cbn; ring|].
  assert (Q : (0 < 2 ^ Z.of_nat r)%Z) by (apply Z.pow_pos_nonneg; lia). cbn [bits bw map dot]. rewrite IH by (apply Z.mod_pos_bound; lia). rewrite (Z.div_mod c (2 ^ Z.of_nat r)) at 3 by lia. rewrite plus_IZR, mult_IZR, pow2_Z. field. lra.
Qed.
Lemma bw_of_binary n : map (fun k => IZR k * bpow radix2 (- Z.of_nat n)) (binary_list (Z.of_nat n)) = bw n n.
Proof.
  assert (G : forall r, map (fun k => IZR k * bpow radix2 (- Z.of_nat n)) (binary_list (Z.of_nat r)) = bw n r); [|apply G].
  induction r as [|r IH]; [reflexivity|]. rewrite binary_list_S. cbn [map bw]. rewrite IH. f_equal. rewrite pow2_Z, bpow_opp. unfold Rdiv. f_equal. rewrite <- pow2_IZR, pow2_Z. reflexivity.
Qed.
Lemma dyadic_values e ks (w : list fl) : Forall2 (fun k x => is_finite x = true /\ val x = IZR k * bpow radix2 e) ks w -> map val w = map (fun k => IZR k * bpow radix2 e) ks.
Proof. induction 1 as [|k x ks w (_ & V) F IH]; [reflexivity|]. cbn [map]. rewrite V, IH. reflexivity. Qed.
Lemma clip_code_range n c : (0 <= clip_code n c < 2 ^ Z.of_nat n)%Z.
Proof. unfold clip_code. assert (0 < 2 ^ Z.of_nat n)%Z by (apply Z.pow_pos_nonneg; lia). lia. Qed.
Lemma bits_code n : forall c, (0 <= c < 2 ^ Z.of_nat n)%Z -> is_code n (bits n c).
Proof.
  induction n as [|n IH]; intros c Hc; [split; [reflexivity|intros b []]|]. assert (Q : (0 < 2 ^ Z.of_nat n)%Z) by (apply Z.pow_pos_nonneg; lia). destruct (IH (c mod 2 ^ Z.of_nat n)%Z ltac:(apply Z.mod_pos_bound; lia)) as (L & B).
  rewrite Nat2Z.inj_succ, Z.pow_succ_r in Hc by lia. cbn [bits]. split; [cbn; f_equal; exact L|]. intros b [<-|Hb]; [|apply B, Hb]. assert (0 <= c / 2 ^ Z.of_nat n)%Z by (apply Z.div_pos; lia). assert (c / 2 ^ Z.of_nat n < 2)%Z by (apply Z.div_lt_upper_bound; lia). lia.
Qed.
Lemma ok_inj {A} (x y : A) : Ok x = Ok y -> x = y.
Proof. congruence. Qed.
Definition fone : fl := fnum 1 0.
Lemma fone_fin : is_finite fone = true /\ val fone = 1.
Proof. destruct (fnum_fin 1 0 ltac:(lia) ltac:(lia) ltac:(lia)) as (F & V). split; [exact F|]. unfold fone. rewrite V. cbn [bpow]. ring. Qed.
(** For 1 to 53 bits, the default range (0, 1) and every finite double input, the double-precision converter with its own
    weights outputs the bits of floor(vin 2^n) clipped to the code range, and the reconstruction is that code divided
    by 2^n, exactly. *)
Lemma c128_roundtrip sum samp cmp (vin : list fl) (s c : fl) n : summation sum -> (1 <= n <= 53)%nat -> (forall x, In x vin -> is_finite x = true) -> flt fzero s = false -> flt fzero c = false ->
  exists w codes out, fsar_ideal_weights sum (Z.of_nat n) None = Ok w /\ fsar_convert samp cmp vin w [fzero; fone] s c = Ok codes /\ fsar_reconstruct sum codes w [fzero; fone] = Ok out /\
    length codes = length vin /\ length out = length vin /\
    forall i, (i < length vin)%nat -> let code := clip_code n (Zfloor (val (nth i vin fzero) * 2 ^ n)) in
      nth i codes [] = bits n code /\ is_finite (nth i out fzero) = true /\ val (nth i out fzero) = IZR code / 2 ^ n.
Proof.
  intros HS Hn Fv Hs Hc. destruct (c128_weights sum n HS Hn) as (w & Ew & _ & D). destruct fone_fin as (F1 & V1). assert (MV : map val w = bw n n) by (destruct D as (_ & _ & _ & W); rewrite (dyadic_values _ _ _ W); apply bw_of_binary).
  assert (LB : forall r, length (bw n r) = r) by (induction r; cbn; congruence). assert (Lw : length w = n) by (rewrite <- (LB n), <- MV, map_length; reflexivity).
  pose proof (c128_convert_zero samp cmp (fun _ => 0) (fun _ _ => 0) vin w fone s c _ _ 0 D F1 V1 ltac:(lia) Fv Hs Hc) as E.
  destruct (noise_free (fun _ => 0) (fun _ _ => 0) (map val vin) (map val w) 0 (val fone) 0 0 ltac:(lra) ltac:(lra) ltac:(lra)) as (codes & _ & E1 & _ & L1 & _ & N1 & _). rewrite E1 in E. rewrite map_length in L1.
  assert (Cd : forall i, (i < length vin)%nat -> nth i codes [] = bits n (clip_code n (Zfloor (val (nth i vin fzero) * 2 ^ n)))).
  { intros i Hi. rewrite N1 by (rewrite map_length; exact Hi). rewrite (nth_map_in _ _ _ fzero) by exact Hi. rewrite V1, MV, greedy_closed. do 3 f_equal. field. }
  assert (T : total (map val w) <= 1).
  { rewrite total_lsum, (proj2 (dyadic_multiple _ _ w (proj1 (proj2 D)) (proj2 (proj2 (proj2 D))))). rewrite binary_list_sum, minus_IZR, pow2_IZR, bpow_opp. pose proof (bpow_gt_0 radix2 (Z.of_nat n)) as P. pose proof (Rinv_0_lt_compat _ P). rewrite Rmult_minus_distr_r, Rinv_r by lra. lra. }
  assert (IC : forall row, In row codes -> is_code (length w) row).
  { intros row Hr. apply (In_nth _ _ []) in Hr. destruct Hr as (i & Hi & <-). rewrite L1 in Hi. rewrite Cd, Lw by exact Hi. apply bits_code, clip_code_range. }
  assert (Hm : val fone - val fzero = bpow radix2 0) by (change (val fzero) with 0; rewrite V1; cbn [bpow]; ring).
  destruct (c128_reconstruct sum codes w fzero fone _ _ 0 HS D eq_refl F1 Hm ltac:(lia) ltac:(lia) T IC) as (out & exact & Eo & Ex & Fo & Vo).
  assert (Lo : length out = length vin).
  { rewrite <- (map_length val out), Vo, map_length, <- L1. unfold sar_reconstruct in Ex. destruct (parse_quant_range _) as [[q1 q2]|]; [|discriminate]. cbn [bind] in Ex. destruct (existsb _ _); [discriminate|]. injection Ex as <-. apply map_length. }
  exists w, codes, out. split; [exact Ew|]. split; [exact E|]. split; [exact Eo|]. split; [exact L1|]. split; [exact Lo|]. intros i Hi code. split; [apply Cd, Hi|]. split; [rewrite Forall_forall in Fo; apply Fo, nth_In; rewrite Lo; exact Hi|].
  assert (Vi : val (nth i out fzero) = rnd (nth i exact 0)).
  { rewrite <- (nth_map_in val out i fzero 0) by (rewrite Lo; exact Hi). rewrite Vo. apply nth_map_in. rewrite <- (map_length rnd), <- Vo, map_length, Lo. exact Hi. }
  rewrite Vi. unfold sar_reconstruct, parse_quant_range in Ex. destruct (Rleb_spec (val fone) (val fzero)) as [|G]; [discriminate|]. cbn [bind] in Ex. destruct (existsb _ _); [discriminate|]. apply ok_inj in Ex. rewrite <- Ex. rewrite (nth_map_in _ _ _ []) by (rewrite L1; exact Hi).
  rewrite Cd by exact Hi. fold code. rewrite MV, bw_value by apply clip_code_range. rewrite V1. change (val fzero) with 0. replace (IZR code / 2 ^ n * (1 - 0) + 0) with (IZR code / 2 ^ n) by ring. apply rnd_id.
  replace (IZR code / 2 ^ n) with (IZR code * bpow radix2 (- Z.of_nat n)) by (rewrite bpow_opp, <- pow2_IZR, pow2_Z; reflexivity). pose proof (clip_code_range n (Zfloor (val (nth i vin fzero) * 2 ^ n))). fold code in H. pose proof (pow2_53 n ltac:(lia)). apply dyadic_double; lia.
Qed.
(** ** C130: saturation *)
Lemma loop_exact_any e v V : (-1020 <= e <= 970)%Z -> forall ks w, Forall (fun k => (1 <= k)%Z) ks -> Forall2 (fun k x => is_finite x = true /\ val x = IZR k * bpow radix2 e) ks w ->
  (forall t k, is_finite t = true -> val t = IZR k * bpow radix2 e -> (1 <= k <= V + zsum ks)%Z -> (1 <= k <= 2 ^ 53)%Z -> fle t (fadd v fzero) = true) ->
  forall j d, is_finite d = true -> val d = IZR V * bpow radix2 e -> (0 <= V)%Z -> (V + zsum ks <= 2 ^ 53)%Z -> fbit_loop v noiseless j w d = repeat 1%Z (length w).
Proof.
  intros He ks w P W. revert V P. induction W as [|k x ks w (Fx & Vx) W IH]; intros V P H j d Fd Vd Q HS; [reflexivity|]. inversion_clear P as [|? ? K1 P']. cbn [fold_right] in *. pose proof (zsum_nonneg ks P') as S0.
  destruct (fadd_dyadic d x V k e Fd Fx Vd Vx ltac:(lia) ltac:(lia)) as (Ft & Vt). cbn [fbit_loop length repeat]. change (noiseless j) with fzero. rewrite (H _ (V + k)%Z Ft Vt) by lia. f_equal.
  apply (IH (V + k)%Z P'); try assumption; try lia. intros t q Ht Hq B1 B2. apply (H t q Ht Hq); lia.
Qed.
Lemma loop_zeros e v : (-1020 <= e <= 970)%Z -> is_nan v = false -> ev v <= 0 -> forall ks w, Forall (fun k => (1 <= k <= 2 ^ 53)%Z) ks -> Forall2 (fun k x => is_finite x = true /\ val x = IZR k * bpow radix2 e) ks w ->
  forall j, fbit_loop v noiseless j w fzero = repeat 0%Z (length w).
Proof.
  intros He Nv Lv ks w P W. induction W as [|k x ks w (Fx & Vx) W IH]; intros j; [reflexivity|]. inversion_clear P as [|? ? K1 P']. cbn [fbit_loop length repeat]. change (noiseless j) with fzero.
  destruct (fadd_dyadic fzero x 0 k e eq_refl Fx) as (Ft & Vt); [change (val fzero) with 0; ring|exact Vx|lia|lia|]. destruct (plus_zero v Nv) as (N' & E').
  assert (B : fle (fadd fzero x) (fadd v fzero) = false).
  { rewrite fle_ev by (exact N' || apply fin_not_nan, Ft). rewrite E', (ev_fin _ Ft), Vt. cbn [Z.add]. assert (0 < IZR k * bpow radix2 e) by (apply Rmult_lt_0_compat; [apply IZR_lt; lia|apply bpow_gt_0]). destruct (Rleb_spec (IZR k * bpow radix2 e) (ev v)); [lra|reflexivity]. }
  rewrite B. f_equal. apply IH, P'.
Qed.
(** For dyadic weights of total at most 1 and every range whose span is a finite double (also spans that are not powers
    of two), inputs from v_max up give the all-ones code and inputs down from v_min give the all-zeros code. *)
Lemma c130_saturation samp cmp (vin w : list fl) (a b s c : fl) e ks : dyadic_weights e ks w -> total (map val w) <= 1 -> is_finite a = true -> is_finite b = true -> fle b a = false -> is_finite (fsub b a) = true -> flt fzero s = false -> flt fzero c = false ->
  exists codes, fsar_convert samp cmp vin w [a; b] s c = Ok codes /\ length codes = length vin /\ forall i, (i < length vin)%nat ->
    (le_double b (nth i vin fzero) -> nth i codes [] = repeat 1%Z (length w)) /\ (le_double (nth i vin fzero) a -> nth i codes [] = repeat 0%Z (length w)).
Proof.
  intros (He & P & HS & W) T Fa Fb L Fs Hs Hc. eexists. split; [apply convert_rows; assumption|]. split; [apply map_length|]. intros i Hi. rewrite (nth_map_in _ _ _ fzero) by exact Hi. set (x := nth i vin fzero).
  destruct (span_fin a b Fa Fb L Fs) as (Lab & Ps & Vs). pose proof (fin_not_nan a Fa) as Na. pose proof (fin_not_nan b Fb) as Nb. destruct (dyadic_multiple e ks w P W) as (_ & WS). rewrite total_lsum, WS in T.
  assert (NX : forall y, le_double b y \/ le_double y a -> is_nan y = false).
  { intros y [H|H]; destruct y; try reflexivity; unfold le_double in H; [|change (fle B754_nan a = true) in H; rewrite fle_nan_l in H; discriminate]. change (fle b B754_nan = true) in H. rewrite fle_nan_r in H. discriminate. }
  assert (EvAt : forall y, is_finite y = true -> val y = val a \/ val y = val b -> is_nan (fnormalise a b y) = false /\ (val y = val a -> ev (fnormalise a b y) = 0) /\ (val y = val b -> ev (fnormalise a b y) = 1)).
  { intros y Fy _. destruct (fsub_ev y a Fy Fa) as (N1 & E1). unfold fnormalise.
    assert (D0 : val y = val a -> is_finite (fsub y a) = true /\ val (fsub y a) = 0).
    { intros E. replace 0 with (rnd (val y - val a)) by (rewrite E, Rminus_diag_eq by reflexivity; apply rnd_0). apply fsub_fin; try assumption. rewrite E, Rminus_diag_eq by reflexivity. rewrite rnd_0, Rabs_R0. apply big_pos. }
    assert (D1 : val y = val b -> is_finite (fsub y a) = true /\ val (fsub y a) = val (fsub b a)).
    { intros E. rewrite Vs, <- E. apply fsub_fin; try assumption. rewrite E, <- Vs. apply val_range, Fs. }
    split; [|split].
    - destruct (is_finite (fsub y a)) eqn:Fu; [apply (fdiv_ev _ _ Fu Fs); lra|]. destruct (fsub y a) as [|q| |]; try discriminate. destruct (pos_finite _ Fs Ps) as (m' & e' & H' & ->). destruct q; reflexivity.
    - intros E. destruct (D0 E) as (F0 & V0). destruct (fdiv_ev _ _ F0 Fs ltac:(lra)) as (_ & ->). rewrite V0. unfold Rdiv. rewrite Rmult_0_l, rnd_0. apply clampR_in. rewrite Rabs_R0. apply big_pos.
    - intros E. destruct (D1 E) as (F0 & V0). destruct (fdiv_ev _ _ F0 Fs ltac:(lra)) as (_ & ->). rewrite V0. unfold Rdiv. rewrite Rinv_r by lra. assert (D : rnd 1 = 1) by (apply rnd_id; apply (generic_format_FLT_bpow radix2 (-1074) 53 0); clear; lia). rewrite D. apply clampR_in. rewrite Rabs_R1. apply (bpow_lt radix2 0 1024). clear; lia. }
  split; intros H.
  - pose proof (NX x (or_introl H)) as Nx. unfold le_double in H. change (fle b x = true) in H. rewrite fle_ev in H by assumption. destruct (Rleb_spec (ev b) (ev x)) as [H'|]; [|discriminate]. destruct (fnormalise_mono a b Fa Fb L Fs b x Nb Nx H') as (_ & M2 & M). destruct (EvAt b Fb (or_intror eq_refl)) as (_ & _ & E1). rewrite (E1 eq_refl) in M. destruct (plus_zero _ M2) as (N3 & E3).
    apply (loop_exact_any e _ 0 ltac:(clear - He; lia) ks w P W); [|reflexivity|change (val fzero) with 0; ring|apply Z.le_refl|exact HS]. intros t k Ft Vt B1 _. rewrite fle_ev by (exact N3 || apply fin_not_nan, Ft). rewrite E3, (ev_fin t Ft), Vt.
    assert (IZR k * bpow radix2 e <= IZR (zsum ks) * bpow radix2 e) by (apply Rmult_le_compat_r; [apply bpow_ge_0|apply IZR_le; clear - B1; lia]). destruct (Rleb_spec (IZR k * bpow radix2 e) (ev (fnormalise a b x))); [reflexivity|lra].
  - pose proof (NX x (or_intror H)) as Nx. unfold le_double in H. change (fle x a = true) in H. rewrite fle_ev in H by assumption. destruct (Rleb_spec (ev x) (ev a)) as [H'|]; [|discriminate]. destruct (fnormalise_mono a b Fa Fb L Fs x a Nx Na H') as (M1 & _ & M). destruct (EvAt a Fa (or_introl eq_refl)) as (_ & E0 & _). rewrite (E0 eq_refl) in M.
    apply (loop_zeros e _ ltac:(clear - He; lia) M1 M ks w); [|exact W]. clear - P HS. induction P as [|k l K P IH]; [constructor|]. cbn [fold_right] in HS. pose proof (zsum_nonneg l P). constructor; [lia|]. apply IH. lia.
Qed.
(** A sum in list order. *)
Definition fold_sum (l : list fl) : fl := fold_right fadd fzero l.
Lemma fold_sum_summation : summation fold_sum.
Proof. intros l. induction l as [|x l IH]; [constructor|]. cbn. change (x :: l) with ([x] ++ l). apply sums_add; [constructor|exact IH]. Qed.
Definition get {A} (r : result (list A)) : list A := match r with Ok l => l | Err _ => [] end.
Lemma got {A} (r : result (list A)) : match r with Ok _ => true | Err _ => false end = true -> r = Ok (get r).
Proof. destruct r; [reflexivity|discriminate]. Qed.
Definition w2bit : list fl := get (fsar_ideal_weights fold_sum 2 None).
(** The range (-2^1023, 2^1023) is accepted, but its span overflows and the input v_max is converted to zero. *)
Lemma c130_accepted_range_refuted : exists (w : list fl) (a b : fl) code, fsar_ideal_weights fold_sum 2 None = Ok w /\ is_finite a = true /\ is_finite b = true /\ fle b a = false /\
  fsar_convert (fun _ => fzero) (fun _ _ => fzero) [b] w [a; b] fzero fzero = Ok [code] /\ code = [0; 0]%Z.
Proof.
  exists w2bit, (fnum (-1) 1023), (fnum 1 1023), [0; 0]%Z. split; [apply got; vm_compute; reflexivity|]. split; [vm_compute; reflexivity|]. split; [vm_compute; reflexivity|]. split; [vm_compute; reflexivity|]. split; [vm_compute; reflexivity|reflexivity].
Qed.
(** ** C131: converting a reconstruction again *)
(** 3.3 as a double. *)
Definition f3_3 : fl := fdiv (fnum 33 0) (fnum 10 0).
(** Range (0, 3.3), two bits: the voltage of code 11 is converted to code 10. *)
Lemma c131_reconversion_refuted : exists (w y : list fl), fsar_ideal_weights fold_sum 2 None = Ok w /\ fsar_reconstruct fold_sum [[1; 1]%Z] w [fzero; f3_3] = Ok y /\
  fsar_convert (fun _ => fzero) (fun _ _ => fzero) y w [fzero; f3_3] fzero fzero = Ok [[1; 0]%Z].
Proof.
  exists w2bit, (get (fsar_reconstruct fold_sum [[1; 1]%Z] w2bit [fzero; f3_3])). split; [apply got; vm_compute; reflexivity|]. split; [apply got; vm_compute; reflexivity|]. vm_compute. reflexivity.
Qed.
(** With dyadic weights, a power-of-two span and v_min a multiple of the last step, re-conversion returns the codes. *)
Lemma c131_dyadic sum samp cmp (vin w : list fl) (a b : fl) e ks m q codes out : summation sum -> dyadic_weights e ks w -> total (map val w) <= 1 -> is_finite a = true -> is_finite b = true -> val b - val a = bpow radix2 m -> (m <= 970)%Z -> (-1074 <= e + m)%Z ->
  val a = IZR q * bpow radix2 (e + m) -> (Z.abs q + zsum ks <= 2 ^ 53)%Z -> (forall x, In x vin -> is_finite x = true /\ val a <= val x) ->
  fsar_convert samp cmp vin w [a; b] fzero fzero = Ok codes -> fsar_reconstruct sum codes w [a; b] = Ok out -> fsar_convert samp cmp out w [a; b] fzero fzero = Ok codes.
Proof.
  intros HS D T Fa Fb Hm Hr He Hq Hb Fv E1 E2. pose proof D as (He' & P & S & W). pose proof (bpow_gt_0 radix2 m) as Pm. set (z1 := fun _ : nat => 0). set (z2 := fun _ _ : nat => 0).
  rewrite (c128_convert samp cmp z1 z2 vin w a b fzero fzero e ks m D Fa Fb Hm ltac:(lia) (fun x Hx => proj1 (Fv x Hx)) eq_refl eq_refl) in E1.
  destruct (noise_free z1 z2 (map (fun x => rnd (val x - val a)) vin) (map val w) 0 (val b - val a) 0 0 ltac:(lra) ltac:(lra) ltac:(lra)) as (codes' & out' & E1' & E2' & L1 & L2 & N1 & N2). rewrite E1 in E1'. apply ok_inj in E1'. subst codes'.
  assert (IC : forall row, In row codes -> is_code (length w) row).
  { intros row Hi. apply (In_nth _ _ []) in Hi. destruct Hi as (i & Hi & <-). rewrite N1 by (rewrite L1 in Hi; exact Hi). split; [rewrite greedy_length, map_length; reflexivity|apply greedy_bits]. }
  destruct (c128_reconstruct sum codes w a b e ks m HS D Fa Fb Hm Hr He T IC) as (out1 & exact & E3 & E4 & Fo & Vo). rewrite E2 in E3. apply ok_inj in E3. subst out1.
  assert (X : map (fun x => rnd (val x - val a)) out = out').
  { assert (R1 : existsb (fun row => negb (length row =? length (map val w))%nat) codes = false).
    { apply not_true_iff_false. intros H. apply existsb_exists in H. destruct H as (row & I1 & H). apply IC in I1. destruct I1 as (I1 & _). rewrite map_length, I1, Nat.eqb_refl in H. discriminate. }
    unfold sar_reconstruct, parse_quant_range in E4, E2'. destruct (Rleb_spec (val b) (val a)) as [|_]; [exfalso; lra|]. destruct (Rleb_spec (val b - val a) 0) as [|_]; [exfalso; lra|]. cbn [bind] in E4, E2'. rewrite R1 in E4, E2'. apply ok_inj in E4, E2'. subst exact out'.
    rewrite <- (map_map val (fun r => rnd (r - val a))), Vo, !map_map. apply map_ext_in. intros row I1. destruct (IC row I1) as (Lr & Br). destruct (products e ks w P W row Lr Br) as (M1 & M2 & M3 & M4). destruct (dyadic_multiple e ks w P W) as (_ & WS).
    assert (B53 : IZR (zsum ks) * bpow radix2 e <= IZR (2 ^ 53) * bpow radix2 e) by (apply Rmult_le_compat_r; [apply bpow_ge_0|apply IZR_le, S]).
    destruct (sums_exact e _ _ (HS (map2 (fun c x => fmul (fnum c 0) x) row w)) ltac:(lia) M1) as ((Fu & k & K0 & Vk) & Vu); [rewrite M2; lra|]. rewrite M2, Vk in Vu.
    assert (K53 : (k <= zsum ks)%Z) by (apply le_IZR; apply Rmult_le_reg_r with (bpow radix2 e); [apply bpow_gt_0|]; lra). rewrite <- Vu, Hm, Hq. rewrite Rmult_assoc, <- bpow_plus.
    replace (IZR k * bpow radix2 (e + m) + IZR q * bpow radix2 (e + m)) with (IZR (k + q) * bpow radix2 (e + m)) by (rewrite plus_IZR; ring). rewrite (rnd_id (IZR (k + q) * _)) by (apply dyadic_double; lia).
    replace (IZR (k + q) * bpow radix2 (e + m) - IZR q * bpow radix2 (e + m)) with (IZR k * bpow radix2 (e + m)) by (rewrite plus_IZR; ring). rewrite Rminus_0_r, Rplus_0_r. rewrite Rmult_assoc, <- bpow_plus. apply rnd_id, dyadic_double; clear - K0 K53 Hb He; lia. }
  rewrite (c128_convert samp cmp z1 z2 out w a b fzero fzero e ks m D Fa Fb Hm ltac:(lia) ltac:(apply Forall_forall; exact Fo) eq_refl eq_refl). rewrite X.
  apply (c05_idempotent_codes z1 z2 (map (fun x => rnd (val x - val a)) vin) (map val w) 0 (val b - val a) codes out'); [lra| | |exact E1|exact E2'].
  - apply positive_Forall. rewrite (dyadic_values _ _ _ W), Forall_map. eapply Forall_impl; [|exact P]. cbv beta. intros k K. apply Rmult_lt_0_compat; [apply IZR_lt; lia|apply bpow_gt_0].
  - intros i Hi. rewrite map_length in Hi. rewrite (nth_map_in _ _ _ fzero) by exact Hi. rewrite <- rnd_0. apply rnd_le. destruct (Fv _ (nth_In _ fzero Hi)). lra.
Qed.

(** ** C132: the quantiser *)
Lemma fnum_not_nan z e : is_nan (fnum z e) = false.
Proof. apply is_nan_binary_normalize. Qed.
(** A larger input never gives a smaller output, infinities included, as long as the step is not zero. *)
Lemma c132_monotone n (a b x y : fl) : (n <= 1023)%nat -> is_finite a = true -> is_finite b = true -> fle b a = false -> is_finite (fsub b a) = true -> 0 < val (fdiv (fsub b a) (fnum (2 ^ Z.of_nat n) 0)) ->
  le_double x y -> le_double (fquantise n a b x) (fquantise n a b y).
Proof.
  intros Hn Fa Fb L Fs Pl H. destruct (span_fin a b Fa Fb L Fs) as (_ & Ps & _). destruct (fnum_pow_fin (Z.of_nat n) ltac:(lia)) as (Fp & Vp). set (p := fnum (2 ^ Z.of_nat n) 0) in *.
  assert (Fl : is_finite (fdiv (fsub b a) p) = true).
  { apply fdiv_fin; try assumption; [rewrite Vp; apply Rgt_not_eq, bpow_gt_0|]. rewrite Vp. assert (B1 : 1 <= bpow radix2 (Z.of_nat n)) by (apply (bpow_le radix2 0); lia).
    assert (Q : 0 <= val (fsub b a) / bpow radix2 (Z.of_nat n) <= val (fsub b a)).
    { split; [left; apply Rdiv_lt_0_compat; lra|]. apply Rmult_le_reg_r with (bpow radix2 (Z.of_nat n)); [lra|]. unfold Rdiv. rewrite Rmult_assoc, Rinv_l by lra. nra. }
    destruct Q as (Q1 & Q2). apply rnd_le in Q1, Q2. rewrite rnd_0 in Q1. rewrite (rnd_id _ (val_double (fsub b a))) in Q2. rewrite Rabs_pos_eq by exact Q1. pose proof (val_range _ Fs) as V. apply Rabs_def2 in V. lra. }
  unfold le_double in *. change (fle x y = true) in H. assert (Nx : is_nan x = false) by (destruct x; try reflexivity; rewrite fle_nan_l in H; discriminate). assert (Ny : is_nan y = false) by (destruct y; try reflexivity; rewrite fle_nan_r in H; discriminate).
  rewrite fle_ev in H by assumption. destruct (Rleb_spec (ev x) (ev y)) as [H0|]; [|discriminate].
  destruct (fsub_mono a Fa x y Nx Ny H0) as (N1 & N1' & H1). destruct (fdiv_mono _ Fl Pl _ _ N1 N1' H1) as (N2 & N2' & H2). destruct (ffloor_mono _ _ N2 N2' H2) as (N3 & N3' & H3).
  destruct (fclip_mono fzero (fnum (2 ^ Z.of_nat n - 1) 0) eq_refl (fnum_not_nan _ _) _ _ N3 N3' H3) as (N4 & N4' & H4). destruct (fmul_mono _ Fl Pl _ _ N4 N4' H4) as (N5 & N5' & H5). destruct (fadd_mono a Fa _ _ N5 N5' H5) as (N6 & N6' & H6).
  change (fle (fquantise n a b x) (fquantise n a b y) = true). unfold fquantise. cbv zeta. fold p. rewrite fle_ev by assumption. match goal with |- Rleb ?A ?B = true => destruct (Rleb_spec A B) as [|G] end; [reflexivity|]. exfalso. lra.
Qed.
Lemma clip_agree n z f : (forall k, (1 <= k <= 2 ^ Z.of_nat n - 1)%Z -> (k <= z <-> k <= f)%Z) -> clip_code n z = clip_code n f.
Proof.
  intros H. unfold clip_code. assert (P : (0 < 2 ^ Z.of_nat n)%Z) by (apply Z.pow_pos_nonneg; lia). set (T := (2 ^ Z.of_nat n - 1)%Z) in *. pose proof (H (Z.max 0 (Z.min z T))) as H1. pose proof (H (Z.max 0 (Z.min f T))) as H2. lia.
Qed.
Lemma code_exact n (x a d : fl) e : is_finite a = true -> is_finite x = true -> is_finite d = true -> val d = bpow radix2 e -> (e <= 970)%Z -> (n <= 53)%nat ->
  let c := fclip fzero (fnum (2 ^ Z.of_nat n - 1) 0) (ffloor (fdiv (fsub x a) d)) in
  is_finite c = true /\ val c = IZR (clip_code n (Zfloor (rnd (val x - val a) / bpow radix2 e))).
Proof.
  intros Fa Fx Fd Vd He Hn. pose proof (pow2_53 n Hn) as P53. assert (P0 : (0 < 2 ^ Z.of_nat n)%Z) by (apply Z.pow_pos_nonneg; lia). cbv zeta. set (y := rnd (val x - val a) / bpow radix2 e). set (q := fdiv (fsub x a) d). set (T := (2 ^ Z.of_nat n - 1)%Z) in *.
  destruct (fnum_fin T 0 ltac:(lia) ltac:(lia) ltac:(lia)) as (FT & VT). cbn [bpow] in VT. rewrite Rmult_1_r in VT. pose proof (val_range _ FT) as RT. rewrite VT in RT.
  assert (Nq : is_nan q = false) by (apply (quotient_compares x a d e 0 1); lia || assumption).
  assert (K : forall k, (1 <= k <= T)%Z -> (IZR k <= ev q <-> IZR k <= y)).
  { intros k Hk. pose proof (proj2 (quotient_compares x a d e 0 k Fa Fx Fd Vd He ltac:(lia) ltac:(lia))) as G. cbn [bpow] in G. rewrite Rmult_1_r in G. exact G. }
  destruct (ffloor_mono q q Nq Nq (Rle_refl _)) as (Nf & _ & _). destruct (fclip_ev fzero (fnum T 0) (ffloor q) eq_refl (fnum_not_nan _ _) Nf) as (Nc & Ec). rewrite (ev_fin _ FT), VT in Ec. change (ev fzero) with 0 in Ec.
  assert (G : ev (fclip fzero (fnum T 0) (ffloor q)) = IZR (clip_code n (Zfloor y))).
  { rewrite Ec. assert (TN : 0 <= IZR T) by (apply IZR_le; lia). pose proof big_pos as BP. apply Rabs_def2 in RT. destruct (is_finite q) eqn:Fq.
    - destruct (ffloor_fin q Fq) as (Ff & Vf). rewrite (ev_fin _ Ff), Vf. rewrite (ev_fin q Fq) in K. rewrite <- (clip_agree n (Zfloor (val q)) (Zfloor y)).
      + unfold clip_code. fold T. unfold Rmax, Rmin. destruct (Rle_dec (IZR (Zfloor (val q))) 0) as [A|A].
        * apply (le_IZR _ 0) in A. destruct (Rle_dec 0 (IZR T)); [|lra]. f_equal. lia.
        * apply Rnot_le_lt, (lt_IZR 0) in A. destruct (Rle_dec (IZR (Zfloor (val q))) (IZR T)) as [B|B]; [apply le_IZR in B|apply Rnot_le_lt, lt_IZR in B]; f_equal; lia.
      + intros k Hk. specialize (K k Hk). split; intros Q; apply Zfloor_lub; apply K || apply K; [apply Rle_trans with (2 := Zfloor_lb _); apply IZR_le, Q|apply Rle_trans with (2 := Zfloor_lb _); apply IZR_le, Q].
    - destruct q as [|s| |]; try discriminate. cbn [ffloor Bnearbyint ev] in *. destruct s.
      + rewrite Rmax_right by lra. rewrite Rmin_left by lra. unfold clip_code. fold T. f_equal. destruct (Z.eq_dec T 0) as [T0|T0]; [lia|]. assert (Zfloor y < 1)%Z; [|lia]. apply lt_IZR. apply Rle_lt_trans with (1 := Zfloor_lb _). apply Rnot_le_lt. intros C. apply (K 1%Z ltac:(lia)) in C. lra.
      + rewrite Rmax_left by lra. rewrite Rmin_right by lra. unfold clip_code. fold T. f_equal. destruct (Z.eq_dec T 0) as [T0|T0]; [lia|]. assert (T <= Zfloor y)%Z; [|lia]. apply Zfloor_lub. apply (K T ltac:(lia)). lra. }
  apply ev_finite; [exact Nc|rewrite G; symmetry; apply clampR_in|]; pose proof (clip_code_range n (Zfloor y)); apply Rle_lt_trans with (IZR T); try (apply Rabs_def2 in RT; lra); rewrite <- abs_IZR; apply IZR_le; lia.
Qed.
Lemma quantise_pow n s e r : s = bpow radix2 (e + Z.of_nat n) -> quantise n 0 s r = IZR (clip_code n (Zfloor (r / bpow radix2 e))) * bpow radix2 e.
Proof.
  intros Hm. pose proof (bpow_gt_0 radix2 e) as Pe. unfold quantise. assert (LS : (s - 0) / 2 ^ n = bpow radix2 e) by (rewrite Rminus_0_r, Hm, bpow_plus, <- (pow2_IZR n), pow2_Z; field; apply pow_nonzero; lra). rewrite LS, Rminus_0_r, Rplus_0_r. f_equal.
  unfold clip_code, rclip. set (f := Zfloor _). rewrite <- (pow2_Z n), <- minus_IZR. assert (P : (0 < 2 ^ Z.of_nat n)%Z) by (apply Z.pow_pos_nonneg; lia). set (T := (2 ^ Z.of_nat n - 1)%Z) in *. assert (0 <= T)%Z by lia. unfold Rmax, Rmin. destruct (Rle_dec (IZR f) 0) as [A|A].
  - apply (le_IZR _ 0) in A. destruct (Rle_dec 0 (IZR T)) as [B|B]; [f_equal; lia|exfalso; apply B, IZR_le; lia].
  - apply Rnot_le_lt, (lt_IZR 0) in A. destruct (Rle_dec (IZR f) (IZR T)) as [B|B]; [apply le_IZR in B|apply Rnot_le_lt, lt_IZR in B]; f_equal; lia.
Qed.
(** When the step is a power of two (n <= 53), quantising is one rounded subtraction, the exact quantiser, one rounded
    addition. *)
Lemma c132_dyadic n (a b x : fl) e : (n <= 53)%nat -> is_finite a = true -> is_finite b = true -> is_finite x = true -> val b - val a = bpow radix2 (e + Z.of_nat n) -> (-1074 <= e)%Z -> (e + Z.of_nat n <= 970)%Z ->
  is_finite (fquantise n a b x) = true /\ val (fquantise n a b x) = rnd (quantise n 0 (val b - val a) (rnd (val x - val a)) + val a).
Proof.
  intros Hn Fa Fb Fx Hm He Hen. destruct (span_of a b _ Fa Fb Hm ltac:(lia)) as (L & Fs & Vs). destruct (fnum_pow_fin (Z.of_nat n) ltac:(lia)) as (Fp & Vp). set (p := fnum (2 ^ Z.of_nat n) 0) in *. pose proof (bpow_gt_0 radix2 (Z.of_nat n)) as Pn. pose proof (bpow_gt_0 radix2 e) as Pe.
  assert (Q : val (fsub b a) / val p = bpow radix2 e) by (rewrite Vs, Vp, bpow_plus; field; lra). assert (De : double (bpow radix2 e)) by (apply generic_format_FLT_bpow; [reflexivity|lia]).
  destruct (fdiv_fin (fsub b a) p Fs Fp ltac:(lra)) as (Fl & Vl); [rewrite Q, (rnd_id _ De), Rabs_pos_eq by lra; apply bpow_lt; lia|]. rewrite Q, (rnd_id _ De) in Vl.
  destruct (code_exact n x a (fdiv (fsub b a) p) e Fa Fx Fl Vl ltac:(lia) Hn) as (Fc & Vc). set (c := fclip _ _ _) in *. set (z := clip_code n _) in *. pose proof (clip_code_range n (Zfloor (rnd (val x - val a) / bpow radix2 e))) as Rz. fold z in Rz. pose proof (pow2_53 n Hn) as P53.
  assert (Dz : rnd (val c * val (fdiv (fsub b a) p)) = IZR z * bpow radix2 e) by (rewrite Vc, Vl; apply rnd_id, dyadic_double; lia).
  assert (Rz0 : 0 <= IZR z * bpow radix2 e) by (apply Rmult_le_pos; [apply IZR_le; lia|lra]). assert (Rz1 : IZR z * bpow radix2 e <= val b - val a).
  { rewrite Hm, Z.add_comm, bpow_plus, <- pow2_IZR. apply Rmult_le_compat_r; [lra|apply IZR_le; lia]. }
  destruct (fmul_fin c _ Fc Fl) as (Fm & Vm); [rewrite Dz; apply dyadic_fits; lia|]. rewrite Dz in Vm.
  assert (QE : quantise n 0 (val b - val a) (rnd (val x - val a)) = IZR z * bpow radix2 e) by (apply quantise_pow, Hm).
  rewrite QE. change (fquantise n a b x) with (fadd (fmul c (fdiv (fsub b a) p)) a). rewrite <- Vm. apply fadd_fin; try assumption. rewrite Vm.
  pose proof (val_range a Fa) as Ra. pose proof (val_range b Fb) as Rb. apply Rabs_def2 in Ra, Rb.
  assert (Ga : rnd (val a) <= rnd (IZR z * bpow radix2 e + val a)) by (apply rnd_le; lra). assert (Gb : rnd (IZR z * bpow radix2 e + val a) <= rnd (val b)) by (apply rnd_le; lra).
  rewrite (rnd_id _ (val_double a)) in Ga. rewrite (rnd_id _ (val_double b)) in Gb. apply Rabs_def1; lra.
Qed.
(** Ranges from zero to a power of two: exactly the real quantiser of C39, no rounding at all. *)
Lemma c132_exact n (b x : fl) e : (n <= 53)%nat -> is_finite b = true -> is_finite x = true -> val b = bpow radix2 (e + Z.of_nat n) -> (-1074 <= e)%Z -> (e + Z.of_nat n <= 970)%Z ->
  is_finite (fquantise n fzero b x) = true /\ val (fquantise n fzero b x) = quantise n 0 (val b) (val x).
Proof.
  intros Hn Fb Fx Hb He Hen. destruct (c132_dyadic n fzero b x e Hn eq_refl Fb Fx) as (F & V); [change (val fzero) with 0; lra|exact He|exact Hen|]. split; [exact F|]. rewrite V. change (val fzero) with 0. rewrite !Rminus_0_r, Rplus_0_r. rewrite (rnd_id _ (val_double x)). apply rnd_id.
  pose proof (clip_code_range n (Zfloor (val x / bpow radix2 e))) as Rz. pose proof (pow2_53 n Hn) as P53.
  rewrite (quantise_pow n _ e _ Hb). apply dyadic_double; lia.
Qed.

(** ** C133: quantising twice *)
Definition f0_7 : fl := fdiv (fnum 7 0) (fnum 10 0).
(** False in doubles: 2 bits on the range (0, 0.7), the input 0.65 gives the top level, which quantises to the level below. *)
Lemma c133_requantise_refuted : exists n (a b x : fl), is_finite a = true /\ is_finite b = true /\ is_finite x = true /\ fle b a = false /\ flt (fquantise n a b (fquantise n a b x)) (fquantise n a b x) = true.
Proof. exists 2%nat, fzero, f0_7, (fdiv (fnum 65 0) (fnum 100 0)). repeat split; vm_compute; reflexivity. Qed.
(** True when the step is a power of two and v_min is a multiple of the step. *)
Lemma c133_dyadic n (a b x : fl) e q : (n <= 53)%nat -> is_finite a = true -> is_finite b = true -> is_finite x = true -> val a = IZR q * bpow radix2 e -> (Z.abs q + 2 ^ Z.of_nat n <= 2 ^ 53)%Z ->
  val b - val a = bpow radix2 (e + Z.of_nat n) -> (-1074 <= e)%Z -> (e + Z.of_nat n <= 970)%Z ->
  let y := fquantise n a b x in is_finite y = true /\ val (fquantise n a b y) = val y.
Proof.
  intros Hn Fa Fb Fx Va Hq Hm He Hen. cbv zeta. pose proof (bpow_gt_0 radix2 e) as Pe.
  assert (QE : forall r, quantise n 0 (val b - val a) r = IZR (clip_code n (Zfloor (r / bpow radix2 e))) * bpow radix2 e) by (intros r; apply quantise_pow, Hm).
  destruct (c132_dyadic n a b x e Hn Fa Fb Fx Hm He Hen) as (Fy & Vy). split; [exact Fy|]. destruct (c132_dyadic n a b _ e Hn Fa Fb Fy Hm He Hen) as (Fz & Vz). rewrite Vz, Vy. rewrite !QE. set (z := clip_code n (Zfloor (rnd (val x - val a) / bpow radix2 e))).
  pose proof (clip_code_range n (Zfloor (rnd (val x - val a) / bpow radix2 e))) as Rz. fold z in Rz. clearbody z.
  assert (D : rnd (IZR z * bpow radix2 e + val a) = IZR z * bpow radix2 e + val a) by (apply rnd_id; rewrite Va, <- Rmult_plus_distr_r, <- plus_IZR; apply dyadic_double; lia).
  rewrite D. replace (IZR z * bpow radix2 e + val a - val a) with (IZR z * bpow radix2 e) by ring. pose proof (pow2_53 n Hn). rewrite (rnd_id (IZR z * bpow radix2 e)) by (apply dyadic_double; lia).
  replace (IZR z * bpow radix2 e / bpow radix2 e) with (IZR z) by (field; lra). rewrite Zfloor_IZR. assert (CZ : clip_code n z = z) by (unfold clip_code; lia). rewrite CZ. exact D.
Qed.

(** ** Examples *)
(** 3 bits, range (0, 1): 0.8125 is converted to 6 = [1;1;0] and reconstructed as 0.75. *)
Lemma c128_convert_ex : fsar_convert noiseless (fun _ => noiseless) [fnum 13 (-4); fnum (-1) 0; fnum 5 0] (get (fsar_ideal_weights fold_sum 3 None)) [fzero; fone] fzero fzero = Ok [[1; 1; 0]; [0; 0; 0]; [1; 1; 1]]%Z.
Proof. vm_compute. reflexivity. Qed.
Lemma c128_convert_zero_ex : fsar_convert noiseless (fun _ => noiseless) [fnum 13 (-3)] (get (fsar_ideal_weights fold_sum 3 None)) [fzero; fnum 2 0] fzero fzero = sar_convert (fun _ => 0) (fun _ _ => 0) [val (fnum 13 (-3))] (map val (get (fsar_ideal_weights fold_sum 3 None))) [Fin 0; Fin (val (fnum 2 0))] 0 0.
Proof.
  destruct (c128_weights fold_sum 3 fold_sum_summation ltac:(lia)) as (w & Hw & _ & D). change (Z.of_nat 3) with 3%Z in *. rewrite Hw. cbn [get]. apply (c128_convert_zero _ _ _ _ [fnum 13 (-3)] w _ _ _ _ _ 1%Z D); try (vm_compute; reflexivity); try lia.
  - destruct (fnum_fin 2 0) as (_ & V); [lia..|]. rewrite V. cbn. lra.
  - intros x [<-|[]]. vm_compute. reflexivity.
Qed.
Lemma c128_reconstruct_ex : map (fun x => (fle (fnum 3 (-2)) x, fle x (fnum 3 (-2)))) (get (fsar_reconstruct fold_sum [[1; 1; 0]]%Z (get (fsar_ideal_weights fold_sum 3 None)) [fzero; fone])) = [(true, true)].
Proof. vm_compute. reflexivity. Qed.
Lemma c128_weights_ex : map (fun x => (fle (fnum 1 (-2)) x, fle x (fnum 1 (-2)))) (get (fsar_ideal_weights fold_sum 2 None)) = [(true, false); (true, true)].
Proof. vm_compute. reflexivity. Qed.
Lemma c128_roundtrip_ex : exists w codes out, fsar_ideal_weights fold_sum 3 None = Ok w /\ fsar_convert noiseless (fun _ => noiseless) [fnum 13 (-4)] w [fzero; fone] fzero fzero = Ok codes /\ fsar_reconstruct fold_sum codes w [fzero; fone] = Ok out /\ codes = [[1; 1; 0]]%Z /\ val (nth 0 out fzero) = 3 / 4.
Proof.
  destruct (c128_roundtrip fold_sum noiseless (fun _ => noiseless) [fnum 13 (-4)] fzero fzero 3 fold_sum_summation ltac:(lia)) as (w & codes & out & H1 & H2 & H3 & L1 & L2 & H); [intros x [<-|[]]; vm_compute; reflexivity|reflexivity|reflexivity|]. exists w, codes, out. split; [exact H1|]. split; [exact H2|]. split; [exact H3|].
  destruct (H 0%nat ltac:(cbn; lia)) as (C & _ & V). cbn [nth] in C, V. destruct (fnum_fin 13 (-4)) as (_ & V13); [lia..|]. rewrite V13 in *.
  assert (Z13 : Zfloor (IZR 13 * bpow radix2 (-4) * 2 ^ 3) = 6%Z) by (apply Zfloor_imp; cbn; lra). rewrite Z13 in *. split.
  - destruct codes as [|r [|]]; try discriminate L1. cbn [nth] in C. rewrite C. reflexivity.
  - rewrite V. cbn. lra.
Qed.
(** Non-dyadic weights, an odd range and an infinite input. *)
Lemma c129_monotone_ex : fsar_convert noiseless (fun _ => noiseless) [B754_infinity true; f0_7; f3_3; B754_infinity false] [f0_7; fdiv (fnum 2 0) (fnum 7 0)] [fdiv (fnum (-1) 0) (fnum 10 0); fdiv (fnum 9 0) (fnum 10 0)] fzero fzero = Ok [[0; 0]; [1; 0]; [1; 1]; [1; 1]]%Z.
Proof. vm_compute. reflexivity. Qed.
Lemma c130_saturation_ex : fsar_convert noiseless (fun _ => noiseless) [fzero; f3_3; fnum 1 1023; fnum (-1) 0] w2bit [fzero; f3_3] fzero fzero = Ok [[0; 0]; [1; 1]; [1; 1]; [0; 0]]%Z.
Proof. vm_compute. reflexivity. Qed.
(** Range (-1, 1), 2 bits: reconstructed codes convert to themselves. *)
Lemma c131_dyadic_ex : let r := [fnum (-1) 0; fnum 1 0] in fsar_convert noiseless (fun _ => noiseless) (get (fsar_reconstruct fold_sum [[1; 0]; [0; 1]; [1; 1]]%Z w2bit r)) w2bit r fzero fzero = Ok [[1; 0]; [0; 1]; [1; 1]]%Z.
Proof. vm_compute. reflexivity. Qed.
Lemma c132_monotone_ex : map (fun p => fle (fquantise 2 fzero f0_7 (fst p)) (fquantise 2 fzero f0_7 (snd p))) [(B754_infinity true, f0_7); (fnum 1 (-2), fnum 3 (-3)); (f3_3, B754_infinity false)] = [true; true; true] /\ flt (fquantise 2 fzero f0_7 (fnum 1 (-2))) (fquantise 2 fzero f0_7 (fnum 3 (-3))) = true.
Proof. split; vm_compute; reflexivity. Qed.
(** Range (-1, 1), 2 bits: 0.3 is quantised to 0. *)
Lemma c132_dyadic_ex : let y := fquantise 2 (fnum (-1) 0) (fnum 1 0) (fdiv (fnum 3 0) (fnum 10 0)) in (fle fzero y, fle y fzero) = (true, true).
Proof. vm_compute. reflexivity. Qed.
Lemma c132_exact_ex : val (fquantise 2 fzero (fnum 1 0) (fnum 5 (-3))) = 1 / 2.
Proof.
  destruct (fnum_fin 1 0) as (F1 & V1); [lia..|]. destruct (fnum_fin 5 (-3)) as (F5 & V5); [lia..|]. destruct (c132_exact 2 (fnum 1 0) (fnum 5 (-3)) (-2) ltac:(lia) F1 F5) as (_ & ->); [rewrite V1; cbn; lra|lia|lia|].
  rewrite (quantise_pow 2 _ (-2)) by (rewrite V1; cbn; lra). rewrite V5. assert (Q : Zfloor (IZR 5 * bpow radix2 (-3) / bpow radix2 (-2)) = 2%Z) by (apply Zfloor_imp; cbn; lra). rewrite Q. cbn. lra.
Qed.
Lemma c133_dyadic_ex : let q := fquantise 2 (fnum (-1) 0) (fnum 1 0) in map (fun x => (fle (q (q x)) (q x), fle (q x) (q (q x)))) [f0_7; f3_3; fnum (-5) 0] = [(true, true); (true, true); (true, true)].
Proof. vm_compute. reflexivity. Qed.
