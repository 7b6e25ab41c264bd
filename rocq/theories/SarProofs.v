From Verif Require Import Base BaseLemmas SarModel SarSpec.
From Coq Require Import Psatz ZifyBool.
Local Open Scope R_scope.

(** ** The vectorised loop is the per-sample greedy search *)
Fixpoint greedy (v : R) (nz : nat -> R) (j : nat) (dac : R) (w : list R) : list Z :=
  match w with
  | nil => nil
  | x :: r => if Rleb (dac + x) (v + nz j)
              then 1%Z :: greedy v nz (S j) (dac + x) r
              else 0%Z :: greedy v nz (S j) dac r
  end.

Definition noise_of (cmp : nat -> nat -> R) (cnorm : R) (noisy : bool) (i : nat) : nat -> R :=
  fun j => if noisy then cnorm * cmp j i else 0.

Lemma bit_loop_greedy cmp vn cnorm noisy w : forall j rows dacs,
  length rows = length vn -> length dacs = length vn ->
  length (fst (sar_bit_loop cmp vn cnorm noisy j w (rows, dacs))) = length vn /\
  forall i, (i < length vn)%nat ->
    nth i (fst (sar_bit_loop cmp vn cnorm noisy j w (rows, dacs))) [] =
    nth i rows [] ++ greedy (nth i vn 0) (noise_of cmp cnorm noisy i) j (nth i dacs 0) w.
Proof.
  induction w as [|x w IH]; intros j rows dacs Hr Hd.
  - simpl. split; [exact Hr|]. intros; rewrite app_nil_r; reflexivity.
  - cbn [sar_bit_loop].
    set (noise := if noisy then _ else _).
    assert (Hn : length noise = length vn)
      by (unfold noise; destruct noisy; rewrite map_length, ?seq_length; reflexivity).
    unfold sar_bit_step.
    set (vt := map (fun d => d + x) dacs).
    assert (Hvt : length vt = length vn) by (unfold vt; rewrite map_length; exact Hd).
    set (bit := map2 (fun x0 t => Rleb t x0) (map2 Rplus vn noise) vt).
    assert (Hb : length bit = length vn).
    { unfold bit. rewrite map2_length; rewrite map2_length; congruence. }
    set (rows' := map2 _ rows bit). set (dacs' := map2 _ bit _).
    assert (Hr' : length rows' = length vn) by (unfold rows'; rewrite map2_length; congruence).
    assert (Hd' : length dacs' = length vn).
    { unfold dacs'. rewrite map2_length; rewrite ?map2_length; congruence. }
    destruct (IH (S j) rows' dacs' Hr' Hd') as [IHl IHn]. split; [exact IHl|].
    intros i Hi. rewrite (IHn i Hi).
    assert (Enz : nth i noise 0 = noise_of cmp cnorm noisy i j).
    { unfold noise, noise_of. destruct noisy.
      - rewrite (nth_map_in _ _ _ O) by (rewrite seq_length; exact Hi). rewrite seq_nth by exact Hi. reflexivity.
      - rewrite (nth_map_in _ _ _ 0) by exact Hi. reflexivity. }
    assert (Evt : nth i vt 0 = nth i dacs 0 + x).
    { unfold vt. rewrite (nth_map_in _ _ _ 0) by congruence. reflexivity. }
    assert (Ebit : nth i bit false = Rleb (nth i dacs 0 + x) (nth i vn 0 + noise_of cmp cnorm noisy i j)).
    { unfold bit. rewrite (map2_nth _ _ _ _ 0 0) by (rewrite map2_length; congruence).
      rewrite (map2_nth _ _ _ _ 0 0) by congruence. rewrite Enz, Evt. reflexivity. }
    assert (Erow : nth i rows' [] = nth i rows [] ++ [if nth i bit false then 1%Z else 0%Z]).
    { unfold rows'. rewrite (map2_nth _ _ _ _ [] false) by congruence. reflexivity. }
    assert (Edac : nth i dacs' 0 = if nth i bit false then nth i dacs 0 + x else nth i dacs 0).
    { unfold dacs'. rewrite (map2_nth _ _ _ _ false (0,0)) by (rewrite ?map2_length; congruence).
      rewrite (map2_nth _ _ _ _ 0 0) by congruence. cbn [fst snd]. rewrite Evt. reflexivity. }
    rewrite Erow, Edac, Ebit, <- app_assoc. cbn [greedy].
    destruct (Rleb _ _); reflexivity.
Qed.

(** ** Facts about the greedy search *)
Definition gval (c : list Z) (w : list R) : R := dot (map IZR c) w.

Lemma greedy_length v nz w : forall j dac, length (greedy v nz j dac w) = length w.
Proof. induction w as [|x w IH]; intros; simpl; [reflexivity|]. destruct (Rleb _ _); simpl; f_equal; apply IH. Qed.

Lemma greedy_bits v nz w : forall j dac b, In b (greedy v nz j dac w) -> b = 0%Z \/ b = 1%Z.
Proof.
  induction w as [|x w IH]; intros j dac b; simpl; [easy|].
  destruct (Rleb _ _); simpl; intros [<-|H]; auto; eapply IH; exact H.
Qed.

(** Residual interval: the invariant behind C02, C03 and C06. *)
Fixpoint noise_ok (w : list R) (nz : nat -> R) (j : nat) (d p : R) : Prop :=
  match w with
  | nil => True
  | x :: r => x - lsum r - d <= nz j <= p /\ noise_ok r nz (S j) d p
  end.

Lemma greedy_residual w nz d p : forall v j dac,
  noise_ok w nz j d p -> - p <= v - dac -> v - dac < lsum w + d ->
  - p <= v - dac - gval (greedy v nz j dac w) w < d.
Proof.
  unfold gval. induction w as [|x w IH]; intros v j dac Hok Hlo Hhi; [simpl in *; lra|].
  destruct Hok as [[H1 H2] Hok]. cbn [greedy lsum] in *.
  destruct (Rleb_spec (dac + x) (v + nz j)) as [Hb|Hb]; cbn [map dot].
  - specialize (IH v (S j) (dac + x) Hok ltac:(lra) ltac:(lra)). lra.
  - specialize (IH v (S j) dac Hok ltac:(lra) ltac:(lra)). lra.
Qed.

Lemma gval_nonneg w : forall c, (forall b, In b c -> b = 0%Z \/ b = 1%Z) ->
  Forall (fun x => 0 <= x) w -> 0 <= gval c w <= lsum w.
Proof.
  unfold gval; induction w as [|x w IH]; intros c Hc Hw.
  - rewrite dot_nil_r; simpl; lra.
  - inversion Hw; subst. destruct c as [|b c]; simpl.
    + assert (0 <= lsum w) by (apply lsum_nonneg; assumption). lra.
    + destruct (IH c) as [I1 I2]; [intros; apply Hc; right; assumption|assumption|].
      destruct (Hc b (or_introl eq_refl)) as [->| ->]; lra.
Qed.

Definition nz0 : nat -> R := fun _ => 0.

Lemma greedy0_cons v j dac x w : greedy v nz0 j dac (x :: w) =
  if Rleb (dac + x) v then 1%Z :: greedy v nz0 (S j) (dac + x) w
  else 0%Z :: greedy v nz0 (S j) dac w.
Proof. cbn [greedy]. unfold nz0 at 1. rewrite Rplus_0_r. reflexivity. Qed.

(** Noise-free, non-negative weights: value never exceeds the (non-negative) input. *)
Lemma greedy_below w : forall v j dac, Forall (fun x => 0 <= x) w -> dac <= v ->
  dac + gval (greedy v nz0 j dac w) w <= v.
Proof.
  unfold gval; induction w as [|x w IH]; intros v j dac Hw H; [simpl; lra|].
  inversion Hw as [|? ? Hx Hw']; subst. rewrite !greedy0_cons.
  destruct (Rleb_spec (dac + x) v) as [Hb|Hb]; cbn [map dot].
  - specialize (IH v (S j) (dac + x) Hw' ltac:(lra)). lra.
  - specialize (IH v (S j) dac Hw' ltac:(lra)). lra.
Qed.

Lemma greedy_lex w : forall v1 v2 j dac, v1 <= v2 ->
  lex_le (greedy v1 nz0 j dac w) (greedy v2 nz0 j dac w).
Proof.
  induction w as [|x w IH]; intros v1 v2 j dac H; [constructor|]. rewrite !greedy0_cons.
  destruct (Rleb_spec (dac + x) (v1)); destruct (Rleb_spec (dac + x) (v2)).
  - apply lex_eq, IH, H.
  - lra.
  - apply lex_lt; lia.
  - apply lex_eq, IH, H.
Qed.

Lemma greedy_zero_below w : forall v j dac, Forall (fun x => 0 <= x) w -> v < dac ->
  gval (greedy v nz0 j dac w) w = 0.
Proof.
  unfold gval; induction w as [|x w IH]; intros v j dac Hw H; [reflexivity|]. inversion Hw; subst.
  rewrite !greedy0_cons. destruct (Rleb_spec (dac + x) v); [lra|].
  cbn [map dot]. rewrite IH by assumption. lra.
Qed.

Lemma greedy_monotone w : forall v1 v2 j dac, Forall (fun x => 0 <= x) w -> v1 <= v2 ->
  gval (greedy v1 nz0 j dac w) w <= gval (greedy v2 nz0 j dac w) w.
Proof.
  induction w as [|x w IH]; intros v1 v2 j dac Hw H; [unfold gval; simpl; lra|].
  inversion Hw as [|? ? Hx Hw']; subst.
  assert (Hbits : forall v dac', 0 <= gval (greedy v nz0 (S j) dac' w) w)
    by (intros; apply gval_nonneg; [apply greedy_bits|assumption]).
  rewrite !greedy0_cons.
  destruct (Rleb_spec (dac + x) (v1)); destruct (Rleb_spec (dac + x) (v2));
    unfold gval in *; cbn [map dot].
  - specialize (IH v1 v2 (S j) (dac + x) Hw' H). lra.
  - lra.
  - specialize (Hbits v2 (dac + x)).
    destruct (Rle_lt_dec dac v1) as [Hd|Hd].
    + pose proof (greedy_below w v1 (S j) dac Hw' Hd). unfold gval in *. lra.
    + pose proof (greedy_zero_below w v1 (S j) dac Hw' Hd). unfold gval in *. lra.
  - specialize (IH v1 v2 (S j) dac Hw' H). lra.
Qed.

Lemma greedy_idem w : forall v j dac, Forall (fun x => 0 < x) w -> dac <= v ->
  greedy (dac + gval (greedy v nz0 j dac w) w) nz0 j dac w = greedy v nz0 j dac w.
Proof.
  induction w as [|x w IH]; intros v j dac Hw Hd; [reflexivity|].
  inversion Hw as [|? ? Hx Hw']; subst.
  assert (Hw0 : Forall (fun x => 0 <= x) w) by (eapply Forall_impl; [|exact Hw']; simpl; intros; lra).
  assert (Hbits : forall dac', 0 <= gval (greedy v nz0 (S j) dac' w) w)
    by (intros; apply gval_nonneg; [apply greedy_bits|assumption]).
  rewrite !greedy0_cons.
  destruct (Rleb_spec (dac + x) v) as [Hb|Hb].
  - replace (gval (1%Z :: greedy v nz0 (S j) (dac + x) w) (x :: w))
      with (x + gval (greedy v nz0 (S j) (dac + x) w) w) by (unfold gval; simpl; lra).
    destruct (Rleb_spec (dac + x) (dac + (x + gval (greedy v nz0 (S j) (dac + x) w) w))) as [Hc|Hc].
    + f_equal. rewrite <- Rplus_assoc. apply IH; [assumption|lra].
    + specialize (Hbits (dac + x)). lra.
  - replace (gval (0%Z :: greedy v nz0 (S j) dac w) (x :: w))
      with (gval (greedy v nz0 (S j) dac w) w) by (unfold gval; simpl; lra).
    pose proof (greedy_below w v (S j) dac Hw0 Hd).
    destruct (Rleb_spec (dac + x) (dac + gval (greedy v nz0 (S j) dac w) w)) as [Hc|Hc]; [lra|].
    f_equal. apply IH; assumption.
Qed.

Lemma greedy_top w : forall v j dac, Forall (fun x => 0 <= x) w -> dac + lsum w <= v ->
  gval (greedy v nz0 j dac w) w = lsum w.
Proof.
  unfold gval; induction w as [|x w IH]; intros v j dac Hw H; [reflexivity|]. inversion Hw; subst.
  assert (0 <= lsum w) by (apply lsum_nonneg; assumption).
  cbn [lsum] in *. rewrite !greedy0_cons. destruct (Rleb_spec (dac + x) v); [|lra].
  cbn [map dot]. rewrite IH by (assumption || lra). lra.
Qed.

(** Value idempotence, also with zero weights. *)
Lemma greedy_idem_val w : forall v j dac, Forall (fun x => 0 <= x) w -> dac <= v ->
  gval (greedy (dac + gval (greedy v nz0 j dac w) w) nz0 j dac w) w = gval (greedy v nz0 j dac w) w.
Proof.
  induction w as [|x w IH]; intros v j dac Hw Hd; [reflexivity|].
  inversion Hw as [|? ? Hx Hw']; subst.
  assert (Hbits : forall dac', 0 <= gval (greedy v nz0 (S j) dac' w) w)
    by (intros; apply gval_nonneg; [apply greedy_bits|assumption]).
  assert (G1 : forall c, gval (1%Z :: c) (x :: w) = x + gval c w) by (intros; unfold gval; simpl; lra).
  assert (G0 : forall c, gval (0%Z :: c) (x :: w) = gval c w) by (intros; unfold gval; simpl; lra).
  rewrite !greedy0_cons.
  destruct (Rleb_spec (dac + x) v) as [Hb|Hb].
  - rewrite G1.
    destruct (Rleb_spec (dac + x) (dac + (x + gval (greedy v nz0 (S j) (dac + x) w) w))) as [Hc|Hc].
    + rewrite G1. f_equal. rewrite <- Rplus_assoc. apply IH; [assumption|lra].
    + specialize (Hbits (dac + x)). lra.
  - rewrite G0.
    pose proof (greedy_below w v (S j) dac Hw' Hd).
    destruct (Rleb_spec (dac + x) (dac + gval (greedy v nz0 (S j) dac w) w)) as [Hc|Hc]; [lra|].
    rewrite G0. apply IH; assumption.
Qed.

(** ** API level *)
Lemma parse_ok a b : a < b -> parse_quant_range [Fin a; Fin b] = Ok (a, b).
Proof. intros H; simpl. destruct (Rleb_spec b a); [lra|reflexivity]. Qed.

Lemma convert_spec samp cmp vin w a b s c : a < b -> exists codes,
  sar_convert samp cmp vin w [Fin a; Fin b] s c = Ok codes /\
  length codes = length vin /\
  forall i, (i < length vin)%nat ->
    nth i codes [] =
    greedy ((nth i vin 0 + (if Rltb 0 s then s * samp i else 0) - a) / (b - a))
           (noise_of cmp (c / (b - a)) (Rltb 0 c) i) 0 0 w.
Proof.
  intros H. unfold sar_convert. rewrite parse_ok by exact H. cbn [bind].
  set (vs := if Rltb 0 s then _ else _).
  assert (Hvs : length vs = length vin).
  { unfold vs; destruct (Rltb 0 s); [|reflexivity]. apply map2_length. rewrite map_length, seq_length. reflexivity. }
  set (vn := map _ vs). assert (Hvn : length vn = length vin) by (unfold vn; rewrite map_length; exact Hvs).
  eexists; split; [reflexivity|].
  destruct (bit_loop_greedy cmp vn (c / (b - a)) (Rltb 0 c) w 0 (map (fun _ => []) vn) (map (fun _ => 0) vn)) as [L N];
    [apply map_length|apply map_length|].
  split; [rewrite L; exact Hvn|]. intros i Hi. rewrite N by lia.
  rewrite (nth_map_in _ _ _ 0) by lia. rewrite (nth_map_in _ _ _ 0) by lia. cbn [app].
  f_equal. unfold vn. rewrite (nth_map_in _ _ _ 0) by lia. f_equal. f_equal.
  unfold vs. destruct (Rltb 0 s); [|lra].
  rewrite (map2_nth _ _ _ _ 0 0) by (rewrite ?map_length, ?seq_length; lia).
  rewrite (nth_map_in _ _ _ O) by (rewrite seq_length; lia). rewrite seq_nth by lia. reflexivity.
Qed.

Lemma reconstruct_spec codes w a b : a < b ->
  (forall i, (i < length codes)%nat -> length (nth i codes []) = length w) ->
  exists out, sar_reconstruct codes w [Fin a; Fin b] = Ok out /\ length out = length codes /\
  forall i, (i < length codes)%nat -> nth i out 0 = gval (nth i codes []) w * (b - a) + a.
Proof.
  intros H Hl. unfold sar_reconstruct. rewrite parse_ok by exact H. cbn [bind].
  destruct (existsb _ codes) eqn:E.
  - apply existsb_exists in E. destruct E as [row [Hin Hne]].
    apply In_nth with (d := []) in Hin. destruct Hin as [i [Hi Ei]]. specialize (Hl i Hi). rewrite Ei in Hl.
    rewrite Hl, Nat.eqb_refl in Hne. discriminate.
  - eexists; split; [reflexivity|]. rewrite map_length. split; [reflexivity|].
    intros i Hi. rewrite (nth_map_in _ _ _ []) by exact Hi. reflexivity.
Qed.

(** Encode then decode, per sample. *)
Lemma roundtrip_spec samp cmp vin w a b s c : a < b -> exists codes out,
  sar_convert samp cmp vin w [Fin a; Fin b] s c = Ok codes /\
  sar_reconstruct codes w [Fin a; Fin b] = Ok out /\
  length codes = length vin /\ length out = length vin /\
  (forall i, (i < length vin)%nat -> nth i codes [] =
     greedy ((nth i vin 0 + (if Rltb 0 s then s * samp i else 0) - a) / (b - a))
           (noise_of cmp (c / (b - a)) (Rltb 0 c) i) 0 0 w) /\
  (forall i, (i < length vin)%nat -> nth i out 0 = gval (nth i codes []) w * (b - a) + a).
Proof.
  intros H. destruct (convert_spec samp cmp vin w a b s c H) as [codes [E [L N]]].
  destruct (reconstruct_spec codes w a b H) as [out [E2 [L2 N2]]].
  { intros i Hi. rewrite N by lia. apply greedy_length. }
  exists codes, out. repeat split; auto; try lia. intros; apply N2; lia.
Qed.

(** ** Links between the list recursion and the index-based specification *)
Lemma total_lsum w : total w = lsum w.
Proof. unfold total. symmetry. apply lsum_rsum. Qed.

Lemma tail_sum_cons_S x w j : tail_sum (x :: w) (S j) = tail_sum w j.
Proof. reflexivity. Qed.
Lemma tail_sum_0 w : tail_sum w 0 = lsum w.
Proof. unfold tail_sum. rewrite Nat.sub_0_r, lsum_rsum. reflexivity. Qed.

Lemma nonneg_Forall w : nonneg w <-> Forall (fun x => 0 <= x) w.
Proof.
  unfold nonneg. rewrite Forall_forall. split.
  - intros H x Hin. apply In_nth with (d := 0) in Hin. destruct Hin as [i [Hi <-]]. apply H, Hi.
  - intros H j Hj. apply H, nth_In, Hj.
Qed.
Lemma positive_Forall w : positive w <-> Forall (fun x => 0 < x) w.
Proof.
  unfold positive. rewrite Forall_forall. split.
  - intros H x Hin. apply In_nth with (d := 0) in Hin. destruct Hin as [i [Hi <-]]. apply H, Hi.
  - intros H j Hj. apply H, nth_In, Hj.
Qed.

Lemma noise_ok_intro w nz d p : forall j,
  (forall k, (k < length w)%nat -> - slack w d k <= nz (j + k)%nat <= p) -> noise_ok w nz j d p.
Proof.
  induction w as [|x w IH]; intros j H; cbn [noise_ok]; [exact I|]. split.
  - specialize (H O). cbn [length] in H. rewrite Nat.add_0_r in H.
    unfold slack in H. rewrite tail_sum_cons_S, tail_sum_0 in H. cbn [nth] in H.
    specialize (H ltac:(lia)). lra.
  - apply IH. intros k Hk. specialize (H (S k)). cbn [length] in H.
    unfold slack in H. rewrite tail_sum_cons_S in H. cbn [nth] in H. rewrite Nat.add_succ_r in H.
    unfold slack. apply H. lia.
Qed.

Lemma scale_lt a b v x : a < b -> ((v - a) / (b - a) < x <-> v < a + (b - a) * x).
Proof.
  intros H. split; intros L.
  - apply (Rmult_lt_compat_l (b - a)) in L; [|lra].
    replace ((b - a) * ((v - a) / (b - a))) with (v - a) in L by (field; lra). lra.
  - apply (Rmult_lt_reg_l (b - a)); [lra|].
    replace ((b - a) * ((v - a) / (b - a))) with (v - a) by (field; lra). lra.
Qed.
Lemma scale_le a b v x : a < b -> (x <= (v - a) / (b - a) <-> a + (b - a) * x <= v).
Proof.
  intros H. split; intros L.
  - apply (Rmult_le_compat_l (b - a)) in L; [|lra].
    replace ((b - a) * ((v - a) / (b - a))) with (v - a) in L by (field; lra). lra.
  - apply (Rmult_le_reg_l (b - a)); [lra|].
    replace ((b - a) * ((v - a) / (b - a))) with (v - a) by (field; lra). lra.
Qed.
Lemma scale_back a b v : a < b -> v = a + (b - a) * ((v - a) / (b - a)).
Proof. intros; field; lra. Qed.

Lemma noise_of_off cmp c i : noise_of cmp c false i = nz0.
Proof. reflexivity. Qed.

Lemma covering_noise_ok w d : covering w d -> noise_ok w nz0 0 d 0.
Proof.
  intros H. apply noise_ok_intro. intros k Hk. unfold nz0, slack. specialize (H k Hk). lra.
Qed.

(** C06 (and C03 as the noise-free case). *)
Lemma c06_bounded_noise samp cmp vin w a b s c d p :
  a < b -> 0 < c -> 0 <= p ->
  (forall i j, (i < length vin)%nat -> (j < length w)%nat ->
     - slack w d j * (b - a) <= c * cmp j i <= p * (b - a)) ->
  let sampled i := nth i vin 0 + (if Rltb 0 s then s * samp i else 0) in
  (forall i, (i < length vin)%nat ->
     a - p * (b - a) <= sampled i < a + (b - a) * (total w + d)) ->
  exists codes out,
    sar_convert samp cmp vin w [Fin a; Fin b] s c = Ok codes /\
    sar_reconstruct codes w [Fin a; Fin b] = Ok out /\
    length out = length vin /\
    forall i, (i < length vin)%nat ->
      - p * (b - a) <= sampled i - nth i out 0 < d * (b - a).
Proof.
  intros Hab Hc Hp Hn sampled Hin.
  destruct (roundtrip_spec samp cmp vin w a b s c Hab) as [codes [out [E1 [E2 [L1 [L2 [N1 N2]]]]]]].
  exists codes, out. repeat split; auto; rewrite N2, N1 by assumption; fold (sampled i);
    set (v := sampled i) in *; set (u := (v - a) / (b - a));
    assert (G : - p <= u - 0 - gval (greedy u (noise_of cmp (c / (b - a)) (Rltb 0 c) i) 0 0 w) w < d);
    try (pose proof (scale_back a b v Hab) as Ev; fold u in Ev; nra);
    (apply greedy_residual;
     [ apply noise_ok_intro; intros k Hk; unfold noise_of;
       destruct (Rltb_spec 0 c); [|lra]; cbn [Nat.add]; specialize (Hn i k H Hk);
       replace (c / (b - a) * cmp k i) with ((c * cmp k i) / (b - a)) by (field; lra);
       split; [apply Rmult_le_reg_r with (b - a); [lra|]|apply Rmult_le_reg_r with (b - a); [lra|]];
       replace (c * cmp k i / (b - a) * (b - a)) with (c * cmp k i) by (field; lra); lra
     | specialize (Hin i H); unfold u; rewrite Rminus_0_r; apply scale_le; [exact Hab|]; fold v in Hin; lra
     | specialize (Hin i H); unfold u; rewrite Rminus_0_r, <- total_lsum; apply scale_lt; [exact Hab|]; fold v in Hin; lra ]).
Qed.

Lemma noise_free samp cmp vin w a b s c : a < b -> s <= 0 -> c <= 0 -> exists codes out,
  sar_convert samp cmp vin w [Fin a; Fin b] s c = Ok codes /\
  sar_reconstruct codes w [Fin a; Fin b] = Ok out /\
  length codes = length vin /\ length out = length vin /\
  (forall i, (i < length vin)%nat -> nth i codes [] = greedy ((nth i vin 0 - a) / (b - a)) nz0 0 0 w) /\
  (forall i, (i < length vin)%nat ->
     nth i out 0 = gval (greedy ((nth i vin 0 - a) / (b - a)) nz0 0 0 w) w * (b - a) + a).
Proof.
  intros Hab Hs Hc.
  destruct (roundtrip_spec samp cmp vin w a b s c Hab) as [codes [out [E1 [E2 [L1 [L2 [N1 N2]]]]]]].
  exists codes, out.
  destruct (Rltb_spec 0 s); [lra|]. destruct (Rltb_spec 0 c); [lra|].
  assert (N1' : forall i, (i < length vin)%nat -> nth i codes [] = greedy ((nth i vin 0 - a) / (b - a)) nz0 0 0 w).
  { intros i Hi. rewrite N1, noise_of_off by exact Hi. f_equal. f_equal. lra. }
  repeat split; auto. intros i Hi. rewrite N2, N1' by exact Hi. reflexivity.
Qed.

Lemma c03_covering_error samp cmp vin w a b s c d :
  a < b -> s <= 0 -> c <= 0 -> covering w d ->
  (forall i, (i < length vin)%nat -> a <= nth i vin 0 < a + (b - a) * (total w + d)) ->
  exists codes out,
    sar_convert samp cmp vin w [Fin a; Fin b] s c = Ok codes /\
    sar_reconstruct codes w [Fin a; Fin b] = Ok out /\
    samplewise (fun v y => 0 <= v - y < (b - a) * d) vin out.
Proof.
  intros Hab Hs Hc Hcov Hin.
  destruct (noise_free samp cmp vin w a b s c Hab Hs Hc) as [codes [out [E1 [E2 [L1 [L2 [N1 N2]]]]]]].
  exists codes, out. split; [exact E1|]. split; [exact E2|]. split; [symmetry; exact L2|].
  intros i Hi. rewrite N2 by exact Hi. specialize (Hin i Hi). set (v := nth i vin 0) in *.
  set (u := (v - a) / (b - a)).
  assert (G : - 0 <= u - 0 - gval (greedy u nz0 0 0 w) w < d).
  { apply greedy_residual; [apply covering_noise_ok, Hcov| |]; unfold u; rewrite Rminus_0_r.
    - apply scale_le; [exact Hab|lra].
    - rewrite <- total_lsum. apply scale_lt; [exact Hab|lra]. }
  pose proof (scale_back a b v Hab) as Ev; fold u in Ev. nra.
Qed.

(** Greedy on prefix + something: takes the whole prefix, then decides. *)
Lemma greedy_gap w1 : forall x w2 v j dac, Forall (fun y => 0 <= y) (w1 ++ x :: w2) ->
  dac + lsum w1 <= v < dac + lsum w1 + x ->
  gval (greedy v nz0 j dac (w1 ++ x :: w2)) (w1 ++ x :: w2) <= lsum w1 + lsum w2.
Proof.
  induction w1 as [|y w1 IH]; intros x w2 v j dac Hw Hv; cbn [app lsum] in *.
  - rewrite greedy0_cons. destruct (Rleb_spec (dac + x) v); [lra|].
    unfold gval; cbn [map dot]. inversion Hw; subst.
    destruct (gval_nonneg w2 (greedy v nz0 (S j) dac w2)) as [_ G]; [apply greedy_bits|assumption|].
    unfold gval in G. lra.
  - rewrite greedy0_cons. inversion Hw; subst.
    assert (0 <= lsum w1) by (apply lsum_nonneg; match goal with H : Forall _ (w1 ++ _) |- _ => apply Forall_app in H; tauto end).
    destruct (Rleb_spec (dac + y) v); [|lra].
    unfold gval; cbn [map dot].
    match goal with H : Forall _ (w1 ++ _) |- _ => pose proof (IH x w2 v (S j) (dac + y) H ltac:(lra)) as G end.
    unfold gval in G. lra.
Qed.

Lemma c03_noncovering_gap samp cmp w a b d j :
  a < b -> 0 <= d -> nonneg w -> (j < length w)%nat ->
  tail_sum w (S j) + d < nth j w 0 ->
  exists v codes out,
    a <= v < a + (b - a) * (total w + d) /\
    sar_convert samp cmp [v] w [Fin a; Fin b] 0 0 = Ok codes /\
    sar_reconstruct codes w [Fin a; Fin b] = Ok out /\
    (b - a) * d <= v - nth 0 out 0.
Proof.
  intros Hab Hd Hw Hj Hgap.
  pose proof (nth_split w 0 Hj) as [w1 [w2 [Ew Lw]]]. revert Ew Hgap. generalize (nth j w 0) as x. intros x Ew Hgap.
  assert (Ht : tail_sum w (S j) = lsum w2).
  { rewrite Ew. clear - Lw. subst j. induction w1 as [|y w1 IH]; [apply tail_sum_0|].
    cbn [length app]. rewrite tail_sum_cons_S. exact IH. }
  apply nonneg_Forall in Hw.
  assert (Hw' := Hw). rewrite Ew in Hw'. apply Forall_app in Hw'. destruct Hw' as [Hw1 Hw2].
  apply Forall_cons_iff in Hw2. destruct Hw2 as [Hx Hw3].
  pose proof (lsum_nonneg _ Hw1). pose proof (lsum_nonneg _ Hw3).
  set (u := lsum w1 + lsum w2 + d). set (v := a + (b - a) * u).
  destruct (noise_free samp cmp [v] w a b 0 0 Hab ltac:(lra) ltac:(lra)) as [codes [out [E1 [E2 [L1 [L2 [N1 N2]]]]]]].
  exists v, codes, out.
  assert (Etot : total w = lsum w1 + x + lsum w2).
  { rewrite total_lsum, Ew, lsum_app. cbn [lsum]. lra. }
  split; [|split; [exact E1|split; [exact E2|]]].
  - unfold v. rewrite Etot. unfold u. split; nra.
  - rewrite N2 by (simpl; lia). cbn [nth].
    replace ((v - a) / (b - a)) with u by (unfold v; field; lra).
    assert (G : gval (greedy u nz0 0 0 w) w <= lsum w1 + lsum w2).
    { rewrite Ew. apply greedy_gap; [rewrite <- Ew; exact Hw|]. unfold u; lra. }
    unfold v, u in *. nra.
Qed.

Lemma c04_monotone samp cmp vin w a b s c :
  a < b -> s <= 0 -> c <= 0 -> nonneg w ->
  exists codes out,
    sar_convert samp cmp vin w [Fin a; Fin b] s c = Ok codes /\
    sar_reconstruct codes w [Fin a; Fin b] = Ok out /\
    length out = length vin /\
    forall i k, (i < length vin)%nat -> (k < length vin)%nat ->
      nth i vin 0 <= nth k vin 0 -> nth i out 0 <= nth k out 0.
Proof.
  intros Hab Hs Hc Hw. apply nonneg_Forall in Hw.
  destruct (noise_free samp cmp vin w a b s c Hab Hs Hc) as [codes [out [E1 [E2 [L1 [L2 [N1 N2]]]]]]].
  exists codes, out. repeat split; auto.
  intros i k Hi Hk Hik. rewrite (N2 i Hi), (N2 k Hk).
  assert (G : (nth i vin 0 - a) / (b - a) <= (nth k vin 0 - a) / (b - a)).
  { apply Rmult_le_compat_r; [left; apply Rinv_0_lt_compat; lra|lra]. }
  pose proof (greedy_monotone w _ _ 0%nat 0 Hw G). nra.
Qed.

Lemma c04_lexicographic samp cmp vin w a b s c :
  a < b -> s <= 0 -> c <= 0 ->
  exists codes,
    sar_convert samp cmp vin w [Fin a; Fin b] s c = Ok codes /\
    length codes = length vin /\
    (forall i, (i < length vin)%nat -> is_code (length w) (nth i codes [])) /\
    forall i k, (i < length vin)%nat -> (k < length vin)%nat ->
      nth i vin 0 <= nth k vin 0 -> lex_le (nth i codes []) (nth k codes []).
Proof.
  intros Hab Hs Hc.
  destruct (noise_free samp cmp vin w a b s c Hab Hs Hc) as [codes [out [E1 [E2 [L1 [L2 [N1 N2]]]]]]].
  exists codes. split; [exact E1|]. split; [exact L1|]. split.
  - intros i Hi. rewrite N1 by exact Hi. split; [apply greedy_length|apply greedy_bits].
  - intros i k Hi Hk Hik. rewrite (N1 i Hi), (N1 k Hk). apply greedy_lex.
    apply Rmult_le_compat_r; [left; apply Rinv_0_lt_compat; lra|lra].
Qed.

Lemma c05_range_and_saturation samp cmp vin w a b s c :
  a < b -> s <= 0 -> c <= 0 -> nonneg w ->
  exists codes out,
    sar_convert samp cmp vin w [Fin a; Fin b] s c = Ok codes /\
    sar_reconstruct codes w [Fin a; Fin b] = Ok out /\
    samplewise (fun v y =>
      a <= y <= a + (b - a) * total w /\
      (v < a -> y = a) /\
      (a + (b - a) * total w <= v -> y = a + (b - a) * total w)) vin out.
Proof.
  intros Hab Hs Hc Hw. apply nonneg_Forall in Hw.
  destruct (noise_free samp cmp vin w a b s c Hab Hs Hc) as [codes [out [E1 [E2 [L1 [L2 [N1 N2]]]]]]].
  exists codes, out. split; [exact E1|]. split; [exact E2|]. split; [symmetry; exact L2|].
  intros i Hi. rewrite (N2 i Hi), total_lsum. set (u := (nth i vin 0 - a) / (b - a)).
  destruct (gval_nonneg w (greedy u nz0 0 0 w)) as [G1 G2]; [apply greedy_bits|exact Hw|].
  split; [split; nra|]. split; intros Hv.
  - rewrite (greedy_zero_below w u 0%nat 0 Hw); [lra|]. unfold u. apply scale_lt; lra.
  - rewrite (greedy_top w u 0%nat 0 Hw); [lra|]. unfold u. rewrite Rplus_0_l. apply scale_le; lra.
Qed.

Lemma c05_idempotent samp cmp vin w a b :
  a < b -> nonneg w ->
  exists codes out codes2 out2,
    sar_convert samp cmp vin w [Fin a; Fin b] 0 0 = Ok codes /\
    sar_reconstruct codes w [Fin a; Fin b] = Ok out /\
    sar_convert samp cmp out w [Fin a; Fin b] 0 0 = Ok codes2 /\
    sar_reconstruct codes2 w [Fin a; Fin b] = Ok out2 /\
    out2 = out.
Proof.
  intros Hab Hw. apply nonneg_Forall in Hw.
  destruct (noise_free samp cmp vin w a b 0 0 Hab ltac:(lra) ltac:(lra)) as [codes [out [E1 [E2 [L1 [L2 [N1 N2]]]]]]].
  destruct (noise_free samp cmp out w a b 0 0 Hab ltac:(lra) ltac:(lra)) as [codes2 [out2 [F1 [F2 [M1 [M2 [K1 K2]]]]]]].
  exists codes, out, codes2, out2. repeat (split; [assumption|]).
  apply (nth_ext_eq 0); [congruence|]. intros i Hi. rewrite M2 in Hi. rewrite (K2 i Hi).
  assert (Hi' : (i < length vin)%nat) by lia. rewrite (N2 i Hi').
  set (u := (nth i vin 0 - a) / (b - a)).
  replace ((gval (greedy u nz0 0 0 w) w * (b - a) + a - a) / (b - a))
    with (0 + gval (greedy u nz0 0 0 w) w) by (field; lra).
  f_equal. f_equal. destruct (Rle_lt_dec 0 u) as [Hu|Hu].
  - apply greedy_idem_val; assumption.
  - rewrite (greedy_zero_below w u 0%nat 0 Hw Hu), Rplus_0_r.
    pose proof (greedy_below w 0 0%nat 0 Hw ltac:(lra)).
    destruct (gval_nonneg w (greedy 0 nz0 0 0 w)) as [G1 G2]; [apply greedy_bits|exact Hw|]. lra.
Qed.

Lemma c05_idempotent_codes samp cmp vin w a b codes out :
  a < b -> positive w -> (forall i, (i < length vin)%nat -> a <= nth i vin 0) ->
  sar_convert samp cmp vin w [Fin a; Fin b] 0 0 = Ok codes ->
  sar_reconstruct codes w [Fin a; Fin b] = Ok out ->
  sar_convert samp cmp out w [Fin a; Fin b] 0 0 = Ok codes.
Proof.
  intros Hab Hw Hin E1' E2'. apply positive_Forall in Hw.
  destruct (noise_free samp cmp vin w a b 0 0 Hab ltac:(lra) ltac:(lra)) as [codes' [out' [E1 [E2 [L1 [L2 [N1 N2]]]]]]].
  rewrite E1' in E1; injection E1 as <-. rewrite E2' in E2; injection E2 as <-.
  destruct (noise_free samp cmp out w a b 0 0 Hab ltac:(lra) ltac:(lra)) as [codes2 [out2 [F1 [F2 [M1 [M2 [K1 K2]]]]]]].
  rewrite F1. f_equal. apply (nth_ext_eq []); [congruence|]. intros i Hi.
  assert (Hi' : (i < length vin)%nat) by lia. assert (Hi2 : (i < length out)%nat) by lia.
  rewrite (K1 i Hi2), (N1 i Hi'), (N2 i Hi').
  set (u := (nth i vin 0 - a) / (b - a)).
  replace ((gval (greedy u nz0 0 0 w) w * (b - a) + a - a) / (b - a))
    with (0 + gval (greedy u nz0 0 0 w) w) by (field; lra).
  apply greedy_idem; [exact Hw|]. unfold u. apply scale_le; [exact Hab|]. specialize (Hin i Hi'). lra.
Qed.

Lemma greedy_ext v nz nz' w : (forall j, nz j = nz' j) -> forall j dac,
  greedy v nz j dac w = greedy v nz' j dac w.
Proof.
  intros H; induction w as [|x w IH]; intros j dac; [reflexivity|]. cbn [greedy].
  rewrite H. destruct (Rleb _ _); f_equal; apply IH.
Qed.

(** The batch never mixes samples: row i depends only on sample i and its own draws. *)
Lemma c04_batch_independent samp samp' cmp cmp' vin vin' w a b s c codes codes' i i' :
  sar_convert samp cmp vin w [Fin a; Fin b] s c = Ok codes ->
  sar_convert samp' cmp' vin' w [Fin a; Fin b] s c = Ok codes' ->
  (i < length vin)%nat -> (i' < length vin')%nat ->
  nth i vin 0 = nth i' vin' 0 -> samp i = samp' i' -> (forall j, cmp j i = cmp' j i') ->
  nth i codes [] = nth i' codes' [].
Proof.
  intros E E' Hi Hi' Hv Hs Hc.
  destruct (Rlt_dec a b) as [Hab|Hab].
  2:{ unfold sar_convert, parse_quant_range in E. destruct (Rleb_spec b a); [discriminate|lra]. }
  destruct (convert_spec samp cmp vin w a b s c Hab) as [k [F1 [L1 N1]]].
  destruct (convert_spec samp' cmp' vin' w a b s c Hab) as [k' [F2 [L2 N2]]].
  rewrite E in F1; injection F1 as <-. rewrite E' in F2; injection F2 as <-.
  rewrite N1, N2 by assumption. rewrite Hv, Hs.
  apply greedy_ext. intros j. unfold noise_of. rewrite Hc. reflexivity.
Qed.

(** ** Ideal weights *)
Fixpoint cov (w : list R) (d : R) : Prop :=
  match w with nil => True | x :: r => x <= lsum r + d /\ cov r d end.

Lemma cov_covering w d : cov w d -> covering w d.
Proof.
  unfold covering; induction w as [|x w IH]; intros H j Hj; [simpl in Hj; lia|].
  destruct H as [H1 H2]. rewrite tail_sum_cons_S. destruct j as [|j]; cbn [nth].
  - rewrite tail_sum_0. exact H1.
  - apply IH; [exact H2|simpl in Hj; lia].
Qed.

Lemma cov_insert l1 l2 x d : cov (l1 ++ l2) d -> 0 <= x -> x <= lsum l2 + d -> cov (l1 ++ x :: l2) d.
Proof.
  induction l1 as [|y l1 IH]; cbn [app cov]; intros H Hx Hle.
  - split; assumption.
  - destruct H as [H1 H2]. split; [rewrite lsum_app in *; cbn [lsum]; lra|apply IH; assumption].
Qed.

Lemma cov_scale w d k : 0 < k -> cov w d -> cov (map (fun x => x / k) w) (d / k).
Proof.
  intros Hk; induction w as [|x w IH]; cbn [map cov]; [trivial|]. intros [H1 H2]. split; [|apply IH, H2].
  replace (lsum (map (fun x0 => x0 / k) w)) with (lsum w / k).
  - unfold Rdiv. rewrite <- Rmult_plus_distr_r. apply Rmult_le_compat_r; [left; apply Rinv_0_lt_compat, Hk|exact H1].
  - clear. induction w as [|x w IH]; simpl; [lra|rewrite <- IH; lra].
Qed.

Lemma cov_nth w d k : cov w d -> (k < length w)%nat -> nth k w 0 <= lsum (skipn (S k) w) + d.
Proof.
  revert k; induction w as [|x w IH]; intros k H Hk; [simpl in Hk; lia|]. destruct H as [H1 H2].
  destruct k as [|k]; [exact H1|]. cbn [nth]. change (skipn (S (S k)) (x :: w)) with (skipn (S k) w).
  apply IH; [exact H2|simpl in Hk; lia].
Qed.

Lemma lsum_div k w : lsum (map (fun x => x / k) w) = lsum w / k.
Proof. induction w as [|x w IH]; simpl; [lra|rewrite IH; lra]. Qed.

Fixpoint bl (n : nat) : list Z := match n with O => nil | S m => (2 ^ Z.of_nat m)%Z :: bl m end.

Lemma binary_list_bl n : binary_list (Z.of_nat n) = bl n.
Proof.
  unfold binary_list. rewrite Nat2Z.id.
  induction n as [|n IH]; [reflexivity|]. cbn [seq bl map]. f_equal; [f_equal; lia|].
  rewrite <- IH, <- seq_shift, map_map. apply map_ext. intros i. f_equal. lia.
Qed.

Lemma bl_length n : length (bl n) = n.
Proof. induction n as [|n IH]; simpl; congruence. Qed.

Lemma bl_nth n i : (i < n)%nat -> nth i (bl n) 0%Z = (2 ^ Z.of_nat (n - 1 - i))%Z.
Proof.
  revert i; induction n as [|n IH]; intros i Hi; [lia|]. destruct i as [|i]; cbn [bl nth].
  - f_equal. lia.
  - rewrite IH by lia. f_equal. lia.
Qed.

Lemma IZR_pow2 n : IZR (2 ^ Z.of_nat n) = 2 ^ n.
Proof. rewrite pow_IZR. f_equal. Qed.

Lemma bl_sum n : lsum (map IZR (bl n)) = 2 ^ n - 1.
Proof. induction n as [|n IH]; [simpl; lra|]. cbn [bl map lsum]. rewrite IH, IZR_pow2. simpl; lra. Qed.

Lemma bl_cov n : cov (map IZR (bl n)) 1.
Proof.
  induction n as [|n IH]; [exact I|]. cbn [bl map cov]. split; [|exact IH].
  rewrite bl_sum, IZR_pow2. lra.
Qed.

Lemma bl_pos n : Forall (fun x => 1 <= x) (map IZR (bl n)).
Proof.
  induction n as [|n IH]; [constructor|]. cbn [bl map]. constructor; [|exact IH].
  rewrite IZR_pow2. apply pow_R1_Rle; lra.
Qed.

Lemma bl_last n : (0 < n)%nat -> exists l, rev (map IZR (bl n)) = 1 :: l.
Proof.
  induction n as [|n IH]; intros H; [lia|]. destruct n as [|n].
  - exists []. reflexivity.
  - destruct IH as [l E]; [lia|]. cbn [bl map rev] in *. rewrite E. eexists; reflexivity.
Qed.

Definition raw_good (w : list R) : Prop :=
  cov w 1 /\ Forall (fun x => 1 <= x) w /\ exists l, rev w = 1 :: l.

Lemma raw_good_insert l1 l2 x : raw_good (l1 ++ l2) -> 1 <= x -> x <= lsum l2 + 1 ->
  (l2 <> [] \/ x = 1) -> raw_good (l1 ++ x :: l2).
Proof.
  intros [H1 [H2 [l H3]]] Hx Hle Hne. repeat split.
  - apply cov_insert; [exact H1|lra|exact Hle].
  - apply Forall_app in H2. apply Forall_app. split; [tauto|]. constructor; tauto.
  - rewrite rev_app_distr in *. cbn [rev]. destruct (rev l2) as [|y t] eqn:E.
    + destruct Hne as [Hne| ->]; [|eexists; reflexivity].
      exfalso; apply Hne. rewrite <- (rev_involutive l2), E. reflexivity.
    + simpl in H3. injection H3 as -> _. eexists; reflexivity.
Qed.

Lemma map_nthZ w k : nth k (map IZR w) 0 = IZR (nth k w 0%Z).
Proof. change 0 with (IZR 0%Z) at 1. apply map_nth. Qed.

Lemma py_insert_split {A} (i : Z) (x : A) l : exists k, (k <= length l)%nat /\
  py_insert i x l = firstn k l ++ x :: skipn k l /\
  ((0 <= i <= Z.of_nat (length l))%Z -> k = Z.to_nat i) /\
  ((- Z.of_nat (length l) <= i < 0)%Z -> k = Z.to_nat (i + Z.of_nat (length l))).
Proof.
  unfold py_insert. destruct (Z.ltb_spec i 0).
  - exists (Z.to_nat (Z.max 0 (i + Z.of_nat (length l)))). repeat split; try lia.
  - exists (Z.to_nat (Z.min i (Z.of_nat (length l)))). repeat split; try lia.
Qed.

Lemma raw_weights_good n r z : (1 <= n)%Z -> raw_weights n r = Ok z -> raw_good (map IZR z).
Proof.
  intros Hn. unfold raw_weights.
  assert (En : n = Z.of_nat (Z.to_nat n)) by lia. rewrite En, binary_list_bl. set (m := Z.to_nat n).
  assert (Hm : (0 < m)%nat) by lia.
  assert (G : raw_good (map IZR (bl m)))
    by (repeat split; [apply bl_cov|apply bl_pos|apply bl_last, Hm]).
  destruct r as [r|]; [|intros E; injection E as <-; exact G].
  unfold py_index. rewrite bl_length.
  set (j := if (r <? 0)%Z then (r + Z.of_nat m)%Z else r).
  destruct ((0 <=? j) && (j <? Z.of_nat m))%Z eqn:Ej; [|discriminate].
  intros E; injection E as <-.
  destruct (py_insert_split (r + 1) (nth (Z.to_nat j) (bl m) 0%Z) (bl m)) as [k [Hk [Ep [K1 K2]]]].
  rewrite bl_length in *. rewrite Ep. clear Ep.
  rewrite map_app. cbn [map]. rewrite <- map_nthZ, <- firstn_map, <- skipn_map.
  set (w := map IZR (bl m)) in *. assert (Lw : length w = m) by (unfold w; rewrite map_length; apply bl_length).
  assert (Hj : (Z.to_nat j < m)%nat) by (apply andb_prop in Ej; lia).
  assert (Hx : 1 <= nth (Z.to_nat j) w 0).
  { destruct G as [_ [G _]]. rewrite Forall_forall in G. apply G, nth_In. lia. }
  assert (Hc : nth (Z.to_nat j) w 0 <= lsum (skipn (S (Z.to_nat j)) w) + 1)
    by (apply cov_nth; [apply G|lia]).
  destruct (Z.eq_dec r (-1)) as [->|Hr].
  - (* r = -1: the LSB is inserted in front *)
    assert (k = O) by (rewrite K1; lia). subst k. cbn [firstn skipn app].
    change (nth (Z.to_nat j) w 0 :: w) with ([] ++ nth (Z.to_nat j) w 0 :: w).
    apply raw_good_insert; [exact G|exact Hx| |left; intros E0; rewrite E0 in Lw; simpl in Lw; lia].
    destruct G as [_ [G _]]. assert (0 <= lsum (skipn (S (Z.to_nat j)) w)).
    { apply lsum_nonneg. rewrite Forall_forall in *. intros y Hy. specialize (G y).
      assert (In y w) by (rewrite <- (firstn_skipn (S (Z.to_nat j)) w); apply in_or_app; right; exact Hy).
      specialize (G H). lra. }
    assert (lsum w = lsum (firstn (S (Z.to_nat j)) w) + lsum (skipn (S (Z.to_nat j)) w))
      by (rewrite <- lsum_app, firstn_skipn; reflexivity).
    assert (0 <= lsum (firstn (S (Z.to_nat j)) w)).
    { apply lsum_nonneg. rewrite Forall_forall in *. intros y Hy. specialize (G y).
      assert (In y w) by (rewrite <- (firstn_skipn (S (Z.to_nat j)) w); apply in_or_app; left; exact Hy).
      specialize (G H1). lra. }
    lra.
  - assert (k = S (Z.to_nat j)).
    { unfold j in *. destruct (Z.ltb_spec r 0); apply andb_prop in Ej.
      - rewrite K2; lia.
      - rewrite K1; lia. }
    subst k. apply raw_good_insert; [rewrite firstn_skipn; exact G|exact Hx|exact Hc|].
    destruct (Nat.eq_dec (S (Z.to_nat j)) m) as [Em|Em].
    + right. unfold w. rewrite map_nthZ, bl_nth by lia.
      replace (m - 1 - Z.to_nat j)%nat with O by lia. reflexivity.
    + left. intros E0. apply (f_equal (@length R)) in E0. rewrite skipn_length in E0. simpl in E0. lia.
Qed.

Definition lsb_of (w : list R) : R := nth (length w - 1) w 0.

Lemma rev_last (w : list R) x l : rev w = x :: l -> nth (length w - 1) w 0 = x.
Proof.
  intros E. assert (Ew : w = rev l ++ [x]) by (rewrite <- (rev_involutive w), E; reflexivity).
  rewrite Ew, app_length. simpl. rewrite Nat.add_sub. rewrite app_nth2; [|lia].
  rewrite Nat.sub_diag. reflexivity.
Qed.

Lemma raw_weights_n_pos n r z : raw_weights n r = Ok z -> z <> [] -> (1 <= n)%Z.
Proof.
  unfold raw_weights. destruct (Z_lt_le_dec n 1) as [H|H]; [|auto].
  assert (E : binary_list n = []) by (unfold binary_list; replace (Z.to_nat n) with O by lia; reflexivity).
  rewrite E. destruct r as [r|].
  - unfold py_index. cbn [length]. destruct (_ && _)%Z eqn:F; [|discriminate].
    apply andb_prop in F. lia.
  - intros F; injection F as <-. congruence.
Qed.

Lemma ideal_weights_inv n r w : sar_ideal_weights n r = Ok w -> exists z l,
  (1 <= n)%Z /\ raw_weights n r = Ok z /\ rev (map IZR z) = 1 :: l /\ raw_good (map IZR z) /\
  w = map (fun x => x / (lsum (map IZR z) + 1)) (map IZR z).
Proof.
  unfold sar_ideal_weights. destruct (raw_weights n r) as [z|e] eqn:E; cbn [bind]; [|discriminate].
  destruct (rev (map IZR z)) as [|x l] eqn:R; [discriminate|]. intros F; injection F as <-.
  assert (Hz : z <> []) by (intros ->; discriminate).
  pose proof (raw_weights_n_pos _ _ _ E Hz) as Hn. pose proof (raw_weights_good _ _ _ Hn E) as G.
  assert (x = 1). { destruct G as [_ [_ [l' G]]]. rewrite R in G. congruence. } subst x.
  exists z, l. repeat split; auto; apply G.
Qed.

Lemma raw_good_sum w : raw_good w -> 0 < lsum w + 1.
Proof.
  intros [_ [H _]]. assert (0 <= lsum w); [|lra]. apply lsum_nonneg.
  eapply Forall_impl; [|exact H]. simpl; intros; lra.
Qed.

Lemma c01_sum_plus_lsb n r w : sar_ideal_weights n r = Ok w ->
  total w + nth (length w - 1) w 0 = 1 /\ positive w.
Proof.
  intros E. destruct (ideal_weights_inv n r w E) as [z [l [Hn [Ez [R [G Ew]]]]]].
  pose proof (raw_good_sum _ G) as Hp. set (D := lsum (map IZR z) + 1) in *. split.
  - rewrite total_lsum. subst w. rewrite lsum_div, map_length.
    rewrite (nth_map_in _ _ _ 0).
    + rewrite (rev_last _ _ _ R). unfold D in *. field. lra.
    + assert (length (map IZR z) <> O); [|lia]. intros H. apply length_zero_iff_nil in H. rewrite H in R. discriminate.
  - apply positive_Forall. subst w. rewrite Forall_map. destruct G as [_ [G _]].
    eapply Forall_impl; [|exact G]. simpl. intros x Hx. apply Rdiv_lt_0_compat; lra.
Qed.

Lemma c02_ideal_accuracy samp cmp n r w a b s c vin :
  sar_ideal_weights n r = Ok w -> a < b -> s <= 0 -> c <= 0 ->
  (forall i, (i < length vin)%nat -> a <= nth i vin 0 < b) ->
  exists codes out,
    sar_convert samp cmp vin w [Fin a; Fin b] s c = Ok codes /\
    sar_reconstruct codes w [Fin a; Fin b] = Ok out /\
    samplewise (fun v y => 0 <= v - y < (b - a) * nth (length w - 1) w 0) vin out.
Proof.
  intros E Hab Hs Hc Hin. apply c03_covering_error; try assumption.
  - destruct (ideal_weights_inv n r w E) as [z [l [Hn [Ez [R [G Ew]]]]]].
    pose proof (raw_good_sum _ G) as Hp. apply cov_covering.
    assert (El : nth (length w - 1) w 0 = 1 / (lsum (map IZR z) + 1)).
    { subst w. rewrite map_length, (nth_map_in _ _ _ 0).
      - rewrite (rev_last _ _ _ R). reflexivity.
      - assert (length (map IZR z) <> O); [|lia]. intros H. apply length_zero_iff_nil in H. rewrite H in R. discriminate. }
    rewrite El. subst w. apply cov_scale; [exact Hp|apply G].
  - destruct (c01_sum_plus_lsb n r w E) as [H _]. rewrite H. intros i Hi. specialize (Hin i Hi). lra.
Qed.

Lemma c01_plain n : (1 <= n)%Z -> exists w,
  sar_ideal_weights n None = Ok w /\ length w = Z.to_nat n /\
  forall i, (i < Z.to_nat n)%nat -> nth i w 0 = 2 ^ (Z.to_nat n - 1 - i) / 2 ^ Z.to_nat n.
Proof.
  intros Hn. unfold sar_ideal_weights, raw_weights. cbn [bind].
  assert (En : n = Z.of_nat (Z.to_nat n)) by lia. rewrite En, binary_list_bl, Nat2Z.id. set (m := Z.to_nat n).
  destruct (bl_last m ltac:(lia)) as [l R]. rewrite R. eexists; split; [reflexivity|].
  rewrite !map_length, bl_length. split; [reflexivity|]. intros i Hi.
  rewrite (nth_map_in _ _ _ 0) by (rewrite map_length, bl_length; exact Hi).
  rewrite map_nthZ, bl_nth, IZR_pow2, bl_sum by exact Hi. f_equal. lra.
Qed.

Lemma c01_redundant n r : (1 <= n)%Z -> (0 <= r < n)%Z -> exists w,
  sar_ideal_weights n (Some r) = Ok w /\ length w = S (Z.to_nat n) /\
  let N := Z.to_nat n in let k := Z.to_nat r in
  let D := 2 ^ N + 2 ^ (N - 1 - k) in
  (forall i, (i <= k)%nat -> nth i w 0 = 2 ^ (N - 1 - i) / D) /\
  (forall i, (k < i <= N)%nat -> nth i w 0 = 2 ^ (N - i) / D).
Proof.
  intros Hn Hr.
  assert (exists z, raw_weights n (Some r) = Ok z /\
    z = firstn (S (Z.to_nat r)) (bl (Z.to_nat n)) ++ nth (Z.to_nat r) (bl (Z.to_nat n)) 0%Z :: skipn (S (Z.to_nat r)) (bl (Z.to_nat n)))
    as [z [Ez Hz]].
  { unfold raw_weights. assert (En : n = Z.of_nat (Z.to_nat n)) by lia.
    rewrite En, binary_list_bl, Nat2Z.id. set (m := Z.to_nat n) in *. unfold py_index. rewrite bl_length.
    destruct (Z.ltb_spec r 0); [lia|]. destruct ((0 <=? r) && (r <? Z.of_nat m))%Z eqn:F; [|apply andb_false_iff in F; lia].
    eexists; split; [reflexivity|].
    destruct (py_insert_split (r + 1) (nth (Z.to_nat r) (bl m) 0%Z) (bl m)) as [k [Hk [Ep [K1 K2]]]].
    rewrite Ep, K1 by (rewrite bl_length; lia). replace (Z.to_nat (r + 1)) with (S (Z.to_nat r)) by lia. reflexivity. }
  pose proof (raw_weights_good _ _ _ Hn Ez) as G. destruct G as [G1 [G2 [l R]]].
  unfold sar_ideal_weights. rewrite Ez. cbn [bind]. rewrite R. eexists; split; [reflexivity|].
  set (N := Z.to_nat n) in *. set (k := Z.to_nat r) in *. assert (Hk : (k < N)%nat) by lia.
  assert (Lz : length z = S N).
  { rewrite Hz, app_length. cbn [length]. rewrite firstn_length, skipn_length, bl_length. lia. }
  rewrite !map_length. split; [exact Lz|].
  assert (Es : lsum (map IZR z) + 1 = 2 ^ N + 2 ^ (N - 1 - k)).
  { rewrite Hz, map_app, lsum_app. cbn [map lsum]. rewrite bl_nth, IZR_pow2 by exact Hk.
    assert (H : lsum (map IZR (firstn (S k) (bl N))) + lsum (map IZR (skipn (S k) (bl N))) = 2 ^ N - 1)
      by (rewrite <- lsum_app, <- map_app, firstn_skipn; apply bl_sum). lra. }
  rewrite Es. split; intros i Hi; (rewrite (nth_map_in _ _ _ 0) by (rewrite map_length; lia)); rewrite map_nthZ; f_equal;
    rewrite Hz.
  - rewrite app_nth1 by (rewrite firstn_length, bl_length; lia).
    assert (E : nth i (bl N) 0%Z = nth i (firstn (S k) (bl N)) 0%Z).
    { rewrite <- (firstn_skipn (S k) (bl N)) at 1. apply app_nth1. rewrite firstn_length, bl_length; lia. }
    rewrite <- E, bl_nth by lia. apply IZR_pow2.
  - rewrite app_nth2 by (rewrite firstn_length, bl_length; lia). rewrite firstn_length, bl_length, Nat.min_l by lia.
    destruct (i - S k)%nat as [|q] eqn:Eq; cbn [nth].
    + rewrite bl_nth, IZR_pow2 by lia. f_equal. lia.
    + assert (E : nth (S k + q) (bl N) 0%Z = nth q (skipn (S k) (bl N)) 0%Z).
      { rewrite <- (firstn_skipn (S k) (bl N)) at 1. rewrite app_nth2 by (rewrite firstn_length, bl_length; lia).
        rewrite firstn_length, bl_length, Nat.min_l by lia. f_equal. lia. }
      rewrite <- E, bl_nth, IZR_pow2 by lia. f_equal. lia.
Qed.

Lemma c01_errors n r :
  (n < 1)%Z \/ (exists k, r = Some k /\ ~ (- n <= k < n)%Z) <->
  sar_ideal_weights n r = Err IndexError.
Proof.
  split.
  - intros H. unfold sar_ideal_weights, raw_weights.
    assert (Ln : length (binary_list n) = Z.to_nat n) by (unfold binary_list; rewrite map_length, seq_length; reflexivity).
    destruct r as [r|].
    + unfold py_index. rewrite Ln. destruct (_ && _)%Z eqn:F; [|reflexivity]. exfalso.
      apply andb_prop in F. destruct H as [H|[k [Hk H]]]; [|injection Hk as <-]; destruct (Z.ltb_spec r 0); lia.
    + destruct H as [H|[k [Hk H]]]; [|discriminate].
      assert (binary_list n = []) as -> by (apply length_zero_iff_nil; lia). reflexivity.
  - intros E. destruct (Z_lt_le_dec n 1) as [H|H]; [left; exact H|right].
    destruct r as [r|].
    2:{ destruct (c01_plain n H) as [w [Ew _]]. congruence. }
    exists r; split; [reflexivity|]. intros Hr.
    unfold sar_ideal_weights in E. destruct (raw_weights n (Some r)) as [z|e] eqn:Ez; cbn [bind] in E.
    + destruct (raw_weights_good _ _ _ H Ez) as [_ [_ [l R]]]. rewrite R in E. discriminate.
    + unfold raw_weights, py_index in Ez.
      assert (Ln : length (binary_list n) = Z.to_nat n) by (unfold binary_list; rewrite map_length, seq_length; reflexivity).
      rewrite Ln in Ez. destruct (_ && _)%Z eqn:F; [discriminate|]. apply andb_false_iff in F.
      destruct (Z.ltb_spec r 0); lia.
Qed.

(** Observed behaviour for redundant_bit = -1: the copy of the LSB goes to the front. *)
Lemma c01_minus_one n : (1 <= n)%Z -> exists w,
  sar_ideal_weights n (Some (-1)%Z) = Ok w /\ length w = S (Z.to_nat n) /\
  nth 0 w 0 = 1 / (2 ^ Z.to_nat n + 1).
Proof.
  intros Hn. assert (exists z, raw_weights n (Some (-1)%Z) = Ok z /\ z = 1%Z :: bl (Z.to_nat n)) as [z [Ez Hz]].
  { unfold raw_weights. assert (En : n = Z.of_nat (Z.to_nat n)) by lia.
    rewrite En, binary_list_bl, Nat2Z.id. set (m := Z.to_nat n) in *. unfold py_index. rewrite bl_length.
    change (-1 <? 0)%Z with true. cbv iota.
    destruct ((0 <=? -1 + Z.of_nat m) && (-1 + Z.of_nat m <? Z.of_nat m))%Z eqn:F; [|apply andb_false_iff in F; lia].
    eexists; split; [reflexivity|].
    destruct (py_insert_split (-1 + 1) (nth (Z.to_nat (-1 + Z.of_nat m)) (bl m) 0%Z) (bl m)) as [k [Hk [Ep [K1 K2]]]].
    rewrite Ep, K1 by (rewrite bl_length; lia).
    assert (Ev : nth (Z.to_nat (-1 + Z.of_nat m)) (bl m) 0%Z = 1%Z).
    { rewrite bl_nth by lia. replace (m - 1 - Z.to_nat (-1 + Z.of_nat m))%nat with O by lia. reflexivity. }
    rewrite Ev. reflexivity. }
  destruct (raw_weights_good _ _ _ Hn Ez) as [_ [_ [l R]]].
  unfold sar_ideal_weights. rewrite Ez. cbn [bind]. rewrite R. eexists; split; [reflexivity|].
  rewrite !map_length. subst z. cbn [length map nth lsum]. rewrite bl_length, bl_sum. split; [reflexivity|].
  f_equal. lra.
Qed.

(** ** Mismatch *)
Lemma map_fin_part l : map fin_part (map Fin l) = l.
Proof. rewrite map_map. apply map_id. Qed.
Lemma all_finite_map l : all_finite (map Fin l) = true.
Proof. unfold all_finite. induction l; simpl; auto. Qed.
Lemma all_finite_inv l : all_finite l = true -> l = map Fin (map fin_part l).
Proof.
  unfold all_finite. induction l as [|x l IH]; simpl; [reflexivity|]. intros H. apply andb_prop in H.
  destruct H as [H1 H2]. destruct x; try discriminate. simpl. f_equal. apply IH, H2.
Qed.
Lemma existsb_nonpos_false l : existsb (fun x => Rleb x 0) l = false <-> Forall (fun x => 0 < x) l.
Proof.
  induction l as [|x l IH]; simpl; [split; [constructor|reflexivity]|].
  rewrite orb_false_iff, IH, Rleb_false. split; [intros [H1 H2]; constructor; assumption|].
  inversion 1; subst; tauto.
Qed.

Lemma all_finite_false l : all_finite l = false -> exists x, In x l /\ ~ posfin x.
Proof.
  unfold all_finite. induction l as [|x l IH]; simpl; [discriminate|]. intros H. apply andb_false_iff in H.
  destruct H as [H|H].
  - exists x. split; [left; reflexivity|]. intros [r [-> _]]. discriminate.
  - destruct (IH H) as [y [H1 H2]]. exists y. tauto.
Qed.

Lemma nonpos_exists l : existsb (fun x => Rleb x 0) (map fin_part l) = true -> exists x, In x l /\ ~ posfin x.
Proof.
  intros H. apply existsb_exists in H. destruct H as [y [H1 H2]]. apply in_map_iff in H1.
  destruct H1 as [x [E Hx]]. exists x. split; [exact Hx|]. intros [r [-> Hr]]. simpl in E. subst y.
  apply Rleb_true in H2. lra.
Qed.

Definition effective_units (ws : list R) (cap_units : option (list R)) : list R :=
  match cap_units with Some u => u | None => map (fun x => x / lmin1 (hd 0 ws) (tl ws)) ws end.

Lemma mismatch_eval ws s draws cu :
  ws <> [] -> Forall (fun x => 0 < x) ws -> 0 <= s ->
  (forall u, cu = Some u -> length u = length ws /\ Forall (fun x => 0 < x) u) ->
  sar_apply_cap_mismatch (map Fin ws) (Fin s) draws (option_map (map Fin) cu) =
  Ok (map2 (fun x d => x * (1 + d)) ws
        (map2 Rmult (map (fun c => s / sqrt c) (effective_units ws cu)) draws)).
Proof.
  intros Hne Hpos Hs Hcu. unfold sar_apply_cap_mismatch.
  destruct (map Fin ws) as [|x0 l0] eqn:E0; [destruct ws; simpl in E0; congruence|]. rewrite <- E0.
  rewrite all_finite_map, map_fin_part. cbn [negb].
  rewrite (proj2 (existsb_nonpos_false ws)) by exact Hpos.
  destruct (Rltb_spec s 0); [lra|].
  destruct cu as [u|]; cbn [option_map effective_units bind].
  - destruct (Hcu u eq_refl) as [Hl Hu]. rewrite map_length, Hl, Nat.eqb_refl, all_finite_map, map_fin_part. cbn [negb].
    rewrite (proj2 (existsb_nonpos_false u)) by exact Hu. reflexivity.
  - reflexivity.
Qed.

Lemma c07_default_units ws s draws :
  ws <> [] -> positive ws -> 0 <= s -> length draws = length ws ->
  exists out m,
    sar_apply_cap_mismatch (map Fin ws) (Fin s) draws None = Ok out /\
    In m ws /\ (forall x, In x ws -> m <= x) /\ length out = length ws /\
    forall i, (i < length ws)%nat ->
      nth i out 0 = nth i ws 0 * (1 + s / sqrt (nth i ws 0 / m) * nth i draws 0).
Proof.
  intros Hne Hpos Hs Hd. apply positive_Forall in Hpos.
  pose proof (mismatch_eval ws s draws None Hne Hpos Hs ltac:(discriminate)) as E. cbn [option_map] in E.
  eexists. exists (lmin1 (hd 0 ws) (tl ws)). split; [exact E|].
  destruct ws as [|w0 ws']; [congruence|]. cbn [hd tl].
  split; [apply lmin1_in|]. split.
  { intros x [<-|Hx]; [apply lmin1_le_init|apply lmin1_le, Hx]. }
  cbn [effective_units hd tl]. set (m := lmin1 w0 ws'). set (ws := w0 :: ws') in *.
  split; [apply map2_length; rewrite map2_length; rewrite !map_length; congruence|].
  intros i Hi. rewrite (map2_nth _ _ _ _ 0 0) by (rewrite ?map2_length; rewrite ?map_length; congruence).
  rewrite (map2_nth _ _ _ _ 0 0) by (rewrite ?map_length; congruence).
  rewrite (nth_map_in _ _ _ 0) by (rewrite map_length; exact Hi).
  rewrite (nth_map_in _ _ _ 0) by exact Hi. reflexivity.
Qed.

Lemma c07_given_units ws s draws u :
  ws <> [] -> positive ws -> 0 <= s -> positive u -> length u = length ws -> length draws = length ws ->
  exists out,
    sar_apply_cap_mismatch (map Fin ws) (Fin s) draws (Some (map Fin u)) = Ok out /\
    length out = length ws /\
    forall i, (i < length ws)%nat ->
      nth i out 0 = nth i ws 0 * (1 + s / sqrt (nth i u 0) * nth i draws 0).
Proof.
  intros Hne Hpos Hs Hu Hlu Hd. apply positive_Forall in Hpos. apply positive_Forall in Hu.
  pose proof (mismatch_eval ws s draws (Some u) Hne Hpos Hs) as E. cbn [option_map effective_units] in E.
  eexists; split; [apply E; intros v Hv; injection Hv as <-; split; assumption|].
  split; [apply map2_length; rewrite map2_length; rewrite ?map_length; congruence|].
  intros i Hi. rewrite (map2_nth _ _ _ _ 0 0) by (rewrite ?map2_length; rewrite ?map_length; congruence).
  rewrite (map2_nth _ _ _ _ 0 0) by (rewrite ?map_length; congruence).
  rewrite (nth_map_in _ _ _ 0) by congruence. reflexivity.
Qed.

Lemma c07_zero_sigma ws draws cu :
  ws <> [] -> positive ws -> length draws = length ws ->
  (forall u, cu = Some u -> length u = length ws /\ positive u) ->
  sar_apply_cap_mismatch (map Fin ws) (Fin 0) draws (option_map (map Fin) cu) = Ok ws.
Proof.
  intros Hne Hpos Hd Hcu. apply positive_Forall in Hpos. rewrite mismatch_eval; try assumption; try lra.
  2:{ intros u Eu. destruct (Hcu u Eu) as [H1 H2]. split; [exact H1|apply positive_Forall, H2]. }
  f_equal. assert (Lu : length (effective_units ws cu) = length ws).
  { destruct cu as [u|]; cbn [effective_units]; [apply (Hcu u eq_refl)|apply map_length]. }
  revert Lu Hd. generalize (effective_units ws cu) as u. clear.
  revert draws; induction ws as [|x ws IH]; intros [|z draws] [|c u] Lu Hd; try discriminate; [reflexivity|].
  cbn [map map2]. f_equal; [unfold Rdiv; rewrite Rmult_0_l, Rmult_0_l; lra|].
  apply IH; simpl in *; lia.
Qed.

Lemma c07_scale ws s draws k out :
  0 < k -> ws <> [] -> positive ws -> 0 <= s -> length draws = length ws ->
  sar_apply_cap_mismatch (map Fin ws) (Fin s) draws None = Ok out ->
  sar_apply_cap_mismatch (map Fin (map (fun x => k * x) ws)) (Fin s) draws None
    = Ok (map (fun x => k * x) out).
Proof.
  intros Hk Hne Hpos Hs Hd E. apply positive_Forall in Hpos.
  pose proof (mismatch_eval ws s draws None Hne Hpos Hs ltac:(discriminate)) as E1. cbn [option_map] in E1.
  rewrite E in E1. injection E1 as ->.
  assert (Hpos2 : Forall (fun x => 0 < x) (map (fun x => k * x) ws)).
  { rewrite Forall_map. eapply Forall_impl; [|exact Hpos]. simpl; intros; nra. }
  assert (Hne2 : map (fun x => k * x) ws <> []) by (destruct ws; [congruence|discriminate]).
  pose proof (mismatch_eval _ s draws None Hne2 Hpos2 Hs ltac:(discriminate)) as E2. cbn [option_map] in E2.
  rewrite E2. f_equal. cbn [effective_units].
  assert (Hm : lmin1 (hd 0 (map (fun x => k * x) ws)) (tl (map (fun x => k * x) ws)) = k * lmin1 (hd 0 ws) (tl ws)).
  { destruct ws as [|w0 ws]; [congruence|]. cbn [map hd tl]. clear - Hk. unfold lmin1.
    induction ws as [|x ws IH]; [reflexivity|]. cbn [map fold_right]. rewrite IH.
    unfold Rmin. destruct (Rle_dec (k * x) _), (Rle_dec x _); try reflexivity; exfalso; nra. }
  rewrite Hm. assert (Hmp : 0 < lmin1 (hd 0 ws) (tl ws)).
  { destruct ws as [|w0 ws]; [congruence|]. rewrite Forall_forall in Hpos. apply Hpos, lmin1_in. }
  revert Hmp. generalize (lmin1 (hd 0 ws) (tl ws)) as m. intros m Hmp.
  assert (Eu : map (fun x => x / (k * m)) (map (fun x => k * x) ws) = map (fun x => x / m) ws).
  { rewrite map_map. apply map_ext. intros; field; lra. }
  rewrite Eu, map2_map_l, map_map2.
  generalize (map2 Rmult (map (fun c => s / sqrt c) (map (fun x => x / m) ws)) draws) as l. clear.
  induction ws as [|x ws IH]; intros [|y l]; cbn [map2]; try reflexivity. rewrite (IH l). f_equal. lra.
Qed.

Lemma c07_errors weights sigma draws cu :
  bad_mismatch_input weights sigma cu <->
  sar_apply_cap_mismatch weights sigma draws cu = Err ValueError.
Proof.
  split.
  - intros H. unfold sar_apply_cap_mismatch. destruct weights as [|x0 l0] eqn:E0; [reflexivity|]. rewrite <- E0 in *.
    destruct (all_finite weights) eqn:F; cbn [negb]; [|reflexivity].
    destruct (existsb _ (map fin_part weights)) eqn:P; [reflexivity|].
    apply existsb_nonpos_false in P. apply all_finite_inv in F.
    destruct sigma as [s| | |]; try reflexivity. destruct (Rltb_spec s 0); [reflexivity|].
    destruct cu as [u|]; cbn [bind].
    + destruct (length u =? _)%nat eqn:L; cbn [negb]; [|reflexivity].
      destruct (all_finite u) eqn:Fu; cbn [negb]; [|reflexivity].
      destruct (existsb _ (map fin_part u)) eqn:Pu; [reflexivity|]. exfalso.
      apply existsb_nonpos_false in Pu. apply all_finite_inv in Fu. apply Nat.eqb_eq in L. rewrite map_length in L.
      destruct H as [H|[[x [H1 H2]]|[H|[v [Hv [H|[x [H1 H2]]]]]]]].
      * congruence.
      * apply H2. rewrite F in H1. apply in_map_iff in H1. destruct H1 as [r [<- Hr]]. exists r. split; [reflexivity|].
        rewrite Forall_forall in P. apply P, Hr.
      * apply H. exists s. split; [reflexivity|lra].
      * injection Hv as <-. congruence.
      * injection Hv as <-. apply H2. rewrite Fu in H1. apply in_map_iff in H1. destruct H1 as [r [<- Hr]].
        exists r. split; [reflexivity|]. rewrite Forall_forall in Pu. apply Pu, Hr.
    + exfalso. destruct H as [H|[[x [H1 H2]]|[H|[v [Hv _]]]]].
      * congruence.
      * apply H2. rewrite F in H1. apply in_map_iff in H1. destruct H1 as [r [<- Hr]]. exists r. split; [reflexivity|].
        rewrite Forall_forall in P. apply P, Hr.
      * apply H. exists s. split; [reflexivity|lra].
      * discriminate.
  - intros H. unfold sar_apply_cap_mismatch in H. unfold bad_mismatch_input.
    destruct weights as [|x0 l0] eqn:E0; [left; reflexivity|]. rewrite <- E0 in *. right.
    destruct (all_finite weights) eqn:F; cbn [negb] in H; [|left; apply all_finite_false, F].
    destruct (existsb _ (map fin_part weights)) eqn:P; [left; apply nonpos_exists, P|]. right.
    destruct sigma as [s| | |]; try (left; intros [q [Hq _]]; discriminate).
    destruct (Rltb_spec s 0); [left; intros [q [Hq ?]]; injection Hq as <-; lra|]. right.
    destruct cu as [u|]; cbn [bind] in H; [|discriminate]. exists u. split; [reflexivity|].
    destruct (length u =? _)%nat eqn:L; cbn [negb] in H.
    2:{ left. apply Nat.eqb_neq in L. rewrite map_length in L. exact L. }
    right. destruct (all_finite u) eqn:Fu; cbn [negb] in H; [|apply all_finite_false, Fu].
    destruct (existsb _ (map fin_part u)) eqn:Pu; [apply nonpos_exists, Pu|discriminate].
Qed.

(** ** Concrete instances *)
Ltac rsolve := unfold total, tail_sum, slack, covering, nonneg, positive; cbn; try lra.

Lemma c01_weights_ex :
  sar_ideal_weights 3 None = Ok [4/8; 2/8; 1/8] /\
  sar_ideal_weights 3 (Some 1%Z) = Ok [4/10; 2/10; 2/10; 1/10] /\
  sar_ideal_weights 3 (Some (-1)%Z) = Ok [1/9; 4/9; 2/9; 1/9] /\
  sar_ideal_weights 3 (Some 3%Z) = Err IndexError /\ sar_ideal_weights 0 None = Err IndexError.
Proof.
  unfold sar_ideal_weights.
  replace (raw_weights 3 None) with (Ok [4; 2; 1]%Z) by (vm_compute; reflexivity).
  replace (raw_weights 3 (Some 1%Z)) with (Ok [4; 2; 2; 1]%Z) by (vm_compute; reflexivity).
  replace (raw_weights 3 (Some (-1)%Z)) with (Ok [1; 4; 2; 1]%Z) by (vm_compute; reflexivity).
  replace (raw_weights 3 (Some 3%Z)) with (Err IndexError : result (list Z)) by (vm_compute; reflexivity).
  repeat split; cbn; list_eq; lra.
Qed.

Lemma c02_hypotheses_ex :
  let vin := [-1; 0.3; 0.99] in
  exists w, sar_ideal_weights 3 (Some 1%Z) = Ok w /\ length w = 4%nat /\
    (forall i, (i < length vin)%nat -> -1 <= nth i vin 0 < 1).
Proof.
  exists [4/10; 2/10; 2/10; 1/10]. split; [apply c01_weights_ex|]. split; [reflexivity|].
  intros i Hi. cases_lt i.
Qed.

Lemma c03_hypotheses_ex :
  covering [1/2; 1/4; 1/4; 1/8] (1/8) /\ 0 <= 1.2 < 0 + (1 - 0) * (total [1/2; 1/4; 1/4; 1/8] + 1/8) /\
  tail_sum [1/2; 1/8] 1 + 1/8 < nth 0 [1/2; 1/8] 0 /\ nonneg [1/2; 1/8].
Proof.
  split; [intros j Hj; unfold tail_sum; cases_lt j|]. split; [rsolve|]. split; [rsolve|].
  intros j Hj. cases_lt j.
Qed.

Lemma c06_hypotheses_ex :
  let w := [1/2; 1/4; 1/4; 1/8] in let d := 1/8 in
  let cmp := fun j (_ : nat) => match j with 1%nat => -2 | 2%nat => 1 | _ => 0 end in
  (forall i j, (i < 1)%nat -> (j < length w)%nat ->
     - slack w d j * (1 - 0) <= 1/10 * cmp j i <= 1/10 * (1 - 0)) /\
  slack w d 1 = 1/4 /\ cmp 1%nat 0%nat <> 0 /\
  0 - 1/10 * (1 - 0) <= 0.6 < 0 + (1 - 0) * (total w + d).
Proof.
  cbn zeta. split; [intros i j _ Hj; unfold slack, tail_sum; cases_lt j|].
  repeat split; rsolve.
Qed.

(** The legacy helper multiplies every weight by one plus sigma times its draw: the relative error
    does not depend on the weight. *)
Lemma c07_legacy ws sigma draws : length draws = length ws ->
  length (sar_apply_mismatch ws sigma draws) = length ws /\
  (forall i, (i < length ws)%nat -> nth i (sar_apply_mismatch ws sigma draws) 0 = nth i ws 0 + sigma * nth i draws 0 * nth i ws 0) /\
  (sigma = 0 -> sar_apply_mismatch ws sigma draws = ws).
Proof.
  unfold sar_apply_mismatch. revert draws. induction ws as [|w t IH]; intros [|d ds] H; try discriminate H.
  - split; [reflexivity|]. split; [intros i Hi; cbn in Hi; lia|reflexivity].
  - destruct (IH ds ltac:(cbn in H; lia)) as (A & B & C). cbn [map2 length]. split; [rewrite A; reflexivity|]. split.
    + intros [|i] Hi; [cbn [nth]; ring|cbn [nth]; apply B; cbn in Hi; lia].
    + intros Z. rewrite (C Z), Z. f_equal. ring.
Qed.
Lemma c07_hypotheses_ex :
  positive [4; 2; 1] /\ ([4; 2; 1] : list R) <> [] /\
  bad_mismatch_input [Fin 1; NaN] (Fin 0.1) None /\
  ~ bad_mismatch_input [Fin 4; Fin 1] (Fin 0.1) (Some [Fin 8; Fin 2]).
Proof.
  split; [intros j Hj; cases_lt j|]. split; [discriminate|]. split.
  - right; left. exists NaN. split; [right; left; reflexivity|]. intros [r [H _]]; discriminate.
  - intros [H|[[x [H1 H2]]|[H|[u [Hu [H|[x [H1 H2]]]]]]]].
    + discriminate.
    + apply H2. destruct H1 as [<-|[<-|[]]]; eexists; (split; [reflexivity|lra]).
    + apply H. exists 0.1. split; [reflexivity|lra].
    + injection Hu as <-. apply H. reflexivity.
    + injection Hu as <-. apply H2. destruct H1 as [<-|[<-|[]]]; eexists; (split; [reflexivity|lra]).
Qed.
