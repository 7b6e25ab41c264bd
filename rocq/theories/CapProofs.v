From Verif Require Import Base BaseLemmas CapModel CapSpec.
From Coq Require Import Psatz.
Local Open Scope R_scope.

(** ** Prefix runs of the loop *)
Definition run (cd cb cp : list R) (k : nat) : list R * R :=
  fold_left cap_step (firstn k (combine (combine cd cb) cp)) ([], 0).

Lemma firstn_snoc {A} (l : list A) d k : (k < length l)%nat -> firstn (S k) l = firstn k l ++ [nth k l d].
Proof.
  revert l; induction k as [|k IH]; intros [|x l] H; simpl in *; try lia; [reflexivity|].
  f_equal. apply IH. lia.
Qed.

Section Prefix.
Variables cd cb cp : list R.
Hypothesis Lb : length cb = length cd.
Hypothesis Lp : length cp = length cd.

Lemma run_S k : (k < length cd)%nat ->
  run cd cb cp (S k) = cap_step (run cd cb cp k) (nth k cd 0, nth k cb 0, nth k cp 0).
Proof.
  intros H. unfold run. rewrite (firstn_snoc _ (0,0,0)).
  - rewrite fold_left_app. cbn [fold_left]. f_equal. rewrite combine_nth, combine_nth; try reflexivity; try assumption.
    + congruence.
    + rewrite combine_length. lia.
  - rewrite !combine_length. lia.
Qed.

Lemma run_full : run cd cb cp (length cd) = fold_left cap_step (combine (combine cd cb) cp) ([], 0).
Proof. unfold run. rewrite firstn_all2; [reflexivity|]. rewrite !combine_length. lia. Qed.

Lemma convert_run : convert_cap_to_weight cd cb cp = Ok (run cd cb cp (length cd)).
Proof.
  unfold convert_cap_to_weight. rewrite Lb, Lp, Nat.eqb_refl. cbn [negb andb]. rewrite run_full. reflexivity.
Qed.

Lemma run_ind (P : nat -> list R -> R -> Prop) :
  P O [] 0 ->
  (forall k ws c, (k < length cd)%nat -> P k ws c ->
     let '(ws', c') := cap_step (ws, c) (nth k cd 0, nth k cb 0, nth k cp 0) in P (S k) ws' c') ->
  forall k, (k <= length cd)%nat -> let '(ws, c) := run cd cb cp k in P k ws c.
Proof.
  intros H0 HS k. induction k as [|k IH]; intros Hk.
  - unfold run. simpl. exact H0.
  - rewrite run_S by lia. specialize (IH ltac:(lia)). destruct (run cd cb cp k) as [ws c].
    apply HS; [lia|exact IH].
Qed.

Lemma run_length k : (k <= length cd)%nat -> length (fst (run cd cb cp k)) = k.
Proof.
  intros H. pose proof (run_ind (fun k ws _ => length ws = k) eq_refl) as I.
  assert (G : let '(ws, _) := run cd cb cp k in length ws = k).
  { apply I; [|exact H]. clear. intros k ws c Hk E. unfold cap_step.
    destruct (Reqb _ _); rewrite app_length, ?map_length; simpl; lia. }
  destruct (run cd cb cp k); exact G.
Qed.

Hypothesis Nd : nonneg_list cd.
Hypothesis Np : nonneg_list cp.

(** Signs, sum at most one, and no leak without parasitics. *)
Lemma run_signs k : (k <= length cd)%nat ->
  let '(ws, c) := run cd cb cp k in
  Forall (fun w => 0 <= w) ws /\ lsum ws <= 1 /\ 0 <= c /\ (c = 0 -> Forall (fun w => w = 0) ws).
Proof.
  intros H.
  pose proof (run_ind (fun k ws c => Forall (fun w => 0 <= w) ws /\ lsum ws <= 1 /\ 0 <= c /\
                       (c = 0 -> Forall (fun w => w = 0) ws))) as I.
  apply I; [|clear H k I|exact H].
  - repeat split; try constructor; simpl; lra.
  - intros k ws c Hk (F & S1 & C0 & Z).
    unfold cap_step. destruct (Reqb_spec (nth k cd 0 + nth k cp 0 + c) 0) as [E|E].
    + pose proof (Nd k Hk). pose proof (Np k ltac:(lia)). assert (Ec : c = 0) by lra.
      rewrite lsum_app; cbn [lsum]. repeat split; try lra.
      * apply Forall_app; split; [exact F|constructor; [lra|constructor]].
      * intros _. apply Forall_app; split; [apply Z, Ec|repeat constructor].
    + pose proof (Nd k Hk). pose proof (Np k ltac:(lia)).
      set (cn := nth k cd 0 + nth k cp 0 + c) in *.
      assert (Pn : 0 < cn) by (unfold cn in *; lra).
      assert (Fw : Forall (fun w => 0 <= w) (map (fun w => w * (c / cn)) ws ++ [nth k cd 0 / cn])).
      { apply Forall_app; split.
        - rewrite Forall_map. eapply Forall_impl; [|exact F]. cbn. intros w Hw.
          apply Rmult_le_pos; [exact Hw|]. apply Rdiv_le_0_compat; lra.
        - constructor; [|constructor]. apply Rdiv_le_0_compat; lra. }
      assert (Cp : 0 < (if Rltb 0 (nth k cb 0) then nth k cb 0 * cn / (nth k cb 0 + cn) else cn)).
      { destruct (Rltb_spec 0 (nth k cb 0)); [|lra]. apply Rdiv_lt_0_compat; nra. }
      split; [exact Fw|]. split; [|split; [lra|intros; lra]].
      rewrite lsum_app. cbn [lsum].
      replace (map (fun w => w * (c / cn)) ws) with (map (fun w => (c / cn) * w) ws)
        by (apply map_ext; intros; lra).
      rewrite lsum_map_scale. rewrite Rplus_0_r.
      replace (c / cn * lsum ws + nth k cd 0 / cn) with ((c * lsum ws + nth k cd 0) / cn) by (field; lra).
      apply Rdiv_le_upper; [lra|]. unfold cn. nra.
Qed.

Lemma run_noleak : (forall i, (i < length cp)%nat -> nth i cp 0 = 0) ->
  forall k, (k <= length cd)%nat -> let '(ws, c) := run cd cb cp k in 0 <= c /\ c * (1 - lsum ws) = 0.
Proof.
  intros Hz k H.
  pose proof (run_ind (fun k ws c => 0 <= c /\ c * (1 - lsum ws) = 0)) as I.
  apply I; [|clear H k I|exact H]; [simpl; lra|].
  intros k ws c Hk [C0 E]. pose proof (Nd k Hk) as D0. rewrite (Hz k) by lia. unfold cap_step.
  destruct (Reqb_spec (nth k cd 0 + 0 + c) 0) as [En|En].
  - rewrite lsum_app. cbn [lsum]. split; [exact C0|]. lra.
  - set (cn := nth k cd 0 + 0 + c) in *. assert (Pn : 0 < cn) by (unfold cn in *; lra).
    assert (L : lsum (map (fun w => w * (c / cn)) ws ++ [nth k cd 0 / cn]) = 1).
    { rewrite lsum_app. cbn [lsum].
      replace (map (fun w => w * (c / cn)) ws) with (map (fun w => (c / cn) * w) ws)
        by (apply map_ext; intros; lra).
      rewrite lsum_map_scale.
      replace (c / cn * lsum ws + (nth k cd 0 / cn + 0)) with ((c * lsum ws + nth k cd 0) / cn) by (field; lra).
      replace (c * lsum ws) with c by lra. unfold cn in *. field. lra. }
    rewrite L. split; [|ring]. destruct (Rltb_spec 0 (nth k cb 0)); [|lra].
    apply Rdiv_le_0_compat; nra.
Qed.

(** The loop computes the Norton equivalent of the part of the network below a link. *)
Lemma run_norton (b : list R) (v q : nat -> R) :
  length b = length cd -> network_solution cd cb cp b v q ->
  forall k, (k < length cd)%nat ->
    let '(ws, c) := run cd cb cp (S k) in
    let cn := nth k cd 0 + nth k cp 0 + snd (run cd cb cp k) in
    q k = cn * (dot ws (firstn (S k) b) - v k) /\
    (forall v', (if Rlt_dec 0 (nth k cb 0) then q k = nth k cb 0 * (v k - v') else v k = v') ->
        q k = c * (dot ws (firstn (S k) b) - v')).
Proof.
  intros Lbb (Hn & Hl & Ht). induction k as [|k IH]; intros Hk.
  - rewrite run_S by lia. unfold run. simpl fold_left. cbn [snd].
    pose proof (Hn O Hk) as N0. cbn [cap_step]. cbn iota in N0.
    pose proof (Nd O Hk) as D0. pose proof (Np O ltac:(lia)) as P0.
    destruct b as [|b0 b']; [simpl in Lbb; lia|]. cbn [firstn]. cbn [nth] in N0.
    destruct (Reqb_spec (nth 0 cd 0 + nth 0 cp 0 + 0) 0) as [E|E]; cbn [dot app map].
    + assert (D1 : nth 0 cd 0 = 0) by lra. assert (P1 : nth 0 cp 0 = 0) by lra. rewrite D1, P1 in *.
      split; [lra|]. intros v' _. lra.
    + set (cn := nth 0 cd 0 + nth 0 cp 0 + 0) in *. assert (Pn : 0 < cn) by (unfold cn in *; lra).
      assert (Q : q O = cn * (nth 0 cd 0 / cn * b0 + 0 - v O)).
      { replace (cn * (nth 0 cd 0 / cn * b0 + 0 - v O)) with (nth 0 cd 0 * b0 - cn * v O) by (field; lra).
        unfold cn. lra. }
      split; [exact Q|]. intros v' Hv. unfold Rltb.
      destruct (Rlt_dec 0 (nth 0 cb 0)) as [B|B].
      * set (W := nth 0 cd 0 / cn * b0 + 0) in *.
        assert (Ev : v O = v' + q O / nth 0 cb 0) by (rewrite Hv; field; lra).
        rewrite Ev in Q. apply (Rmult_eq_reg_r ((nth 0 cb 0 + cn) / nth 0 cb 0)).
        2:{ apply Rgt_not_eq. apply Rdiv_lt_0_compat; lra. }
        transitivity (q O + cn * (q O / nth 0 cb 0)); [field; lra|].
        replace (nth 0 cb 0 * cn / (nth 0 cb 0 + cn) * (W - v') * ((nth 0 cb 0 + cn) / nth 0 cb 0))
          with (cn * (W - v')) by (field; lra). lra.
      * rewrite <- Hv. exact Q.
  - specialize (IH ltac:(lia)). rewrite run_S by lia.
    destruct (run cd cb cp (S k)) as [ws c] eqn:R1. cbn [snd]. destruct IH as [_ IH].
    specialize (IH (v (S k)) (Hl k ltac:(lia))).
    pose proof (Hn (S k) Hk) as N0. cbn iota in N0.
    pose proof (Nd (S k) Hk) as D0. pose proof (Np (S k) ltac:(lia)) as P0.
    pose proof (run_signs (S k) ltac:(lia)) as SG. rewrite R1 in SG. destruct SG as (_ & _ & C0 & _).
    pose proof (run_length (S k) ltac:(lia)) as LW. rewrite R1 in LW. cbn [fst] in LW.
    rewrite (firstn_snoc b 0 (S k)) by lia.
    assert (LF : length (firstn (S k) b) = S k) by (apply firstn_length_le; lia).
    set (W0 := dot ws (firstn (S k) b)) in *. set (bk := nth (S k) b 0) in *.
    unfold cap_step. set (cn := nth (S k) cd 0 + nth (S k) cp 0 + c) in *.
    destruct (Reqb_spec cn 0) as [E|E].
    + assert (D1 : nth (S k) cd 0 = 0) by (unfold cn in E; lra).
      assert (P1 : nth (S k) cp 0 = 0) by (unfold cn in E; lra).
      assert (C1 : c = 0) by (unfold cn in E; lra).
      rewrite D1, P1, C1 in *. rewrite E. split; [lra|]. intros; lra.
    + assert (Pn : 0 < cn) by (unfold cn in *; lra).
      rewrite dot_app by (rewrite map_length; congruence). cbn [dot].
      assert (DW : dot (map (fun w => w * (c / cn)) ws) (firstn (S k) b) = c / cn * W0).
      { unfold W0. clear. generalize (firstn (S k) b) as l. induction ws as [|x ws IHw]; intros [|y l]; simpl; try lra.
        rewrite IHw. lra. }
      rewrite DW.
      set (W := c / cn * W0 + (nth (S k) cd 0 / cn * bk + 0)).
      assert (Q : q (S k) = cn * (W - v (S k))).
      { unfold W. replace (cn * (c / cn * W0 + (nth (S k) cd 0 / cn * bk + 0) - v (S k)))
          with (c * W0 + nth (S k) cd 0 * bk - cn * v (S k)) by (field; lra). unfold cn. lra. }
      split; [exact Q|]. intros v' Hv. unfold Rltb.
      destruct (Rlt_dec 0 (nth (S k) cb 0)) as [B|B].
      * assert (Ev : v (S k) = v' + q (S k) / nth (S k) cb 0) by (rewrite Hv; field; lra).
        rewrite Ev in Q. apply (Rmult_eq_reg_r ((nth (S k) cb 0 + cn) / nth (S k) cb 0)).
        2:{ apply Rgt_not_eq. apply Rdiv_lt_0_compat; lra. }
        transitivity (q (S k) + cn * (q (S k) / nth (S k) cb 0)); [field; lra|].
        replace (nth (S k) cb 0 * cn / (nth (S k) cb 0 + cn) * (W - v') * ((nth (S k) cb 0 + cn) / nth (S k) cb 0))
          with (cn * (W - v')) by (field; lra). lra.
      * rewrite <- Hv. exact Q.
Qed.

(** Without bridges. *)
Lemma run_nobridge : (forall i, (i < length cb)%nat -> nth i cb 0 <= 0) ->
  forall k, (k <= length cd)%nat ->
    let '(ws, c) := run cd cb cp k in
    c = rsum k (fun i => nth i cd 0 + nth i cp 0) /\ 0 <= c /\
    (forall i, (i < k)%nat -> nth i ws 0 * c = nth i cd 0) /\ length ws = k /\
    (c = 0 -> forall i, (i < k)%nat -> nth i ws 0 = 0).
Proof.
  intros Hz k H.
  pose proof (run_ind (fun k ws c => c = rsum k (fun i => nth i cd 0 + nth i cp 0) /\ 0 <= c /\
    (forall i, (i < k)%nat -> nth i ws 0 * c = nth i cd 0) /\ length ws = k /\
    (c = 0 -> forall i, (i < k)%nat -> nth i ws 0 = 0))) as I.
  apply I; [|clear H k I|exact H].
  - simpl. repeat split; try lra; intros; lia.
  - intros k ws c Hk (E1 & C0 & E2 & Lw & E3). unfold cap_step.
    pose proof (Nd k Hk) as D0. pose proof (Np k ltac:(lia)) as P0. cbn [rsum].
    destruct (Reqb_spec (nth k cd 0 + nth k cp 0 + c) 0) as [E|E].
    + assert (C1 : c = 0) by lra. assert (D1 : nth k cd 0 = 0) by lra. split; [lra|]. split; [lra|].
      split; [|split; [rewrite app_length; simpl; lia|]]; intros.
      * destruct (Nat.eq_dec i k) as [->|Hne].
        { rewrite app_nth2 by lia. replace (k - length ws)%nat with O by lia. simpl. lra. }
        rewrite app_nth1 by lia. apply E2. lia.
      * destruct (Nat.eq_dec i k) as [->|Hne].
        { rewrite app_nth2 by lia. replace (k - length ws)%nat with O by lia. reflexivity. }
        rewrite app_nth1 by lia. apply E3; [exact C1|lia].
    + set (cn := nth k cd 0 + nth k cp 0 + c) in *. assert (Pn : 0 < cn) by (unfold cn in *; lra).
      destruct (Rltb_spec 0 (nth k cb 0)) as [B|B]; [specialize (Hz k ltac:(lia)); lra|].
      split; [unfold cn; lra|]. split; [lra|].
      split; [|split; [rewrite app_length, map_length; simpl; lia|intros; lra]].
      intros i Hi. destruct (Nat.eq_dec i k) as [->|Hne].
      { rewrite app_nth2 by (rewrite map_length; lia). rewrite map_length.
        replace (k - length ws)%nat with O by lia. cbn [nth]. field. lra. }
      rewrite app_nth1 by (rewrite map_length; lia). rewrite (nth_map_in _ _ _ 0) by lia.
      transitivity (nth i ws 0 * c); [field; lra|]. apply E2. lia.
Qed.
End Prefix.

(** ** Final lemmas *)
(** Non-negative weights, total at most one, non-negative total capacitance; exactly one
    when there is no parasitic capacitance. *)
Lemma c08_conservation cd cb cp :
  length cb = length cd -> length cp = length cd -> nonneg_list cd -> nonneg_list cp ->
  exists w c, convert_cap_to_weight cd cb cp = Ok (w, c) /\ length w = length cd /\
    nonneg_list w /\ sum_list w <= 1 /\ 0 <= c /\
    ((forall i, (i < length cp)%nat -> nth i cp 0 = 0) -> 0 < c -> sum_list w = 1).
Proof.
  intros Lb Lp Nd Np. rewrite convert_run by assumption.
  pose proof (run_signs cd cb cp Lb Lp Nd Np (length cd) ltac:(lia)) as S.
  pose proof (run_length cd cb cp Lb Lp (length cd) ltac:(lia)) as L.
  pose proof (fun Hz => run_noleak cd cb cp Lb Lp Nd Hz (length cd) ltac:(lia)) as NL.
  destruct (run cd cb cp (length cd)) as [w c]. cbn [fst] in L. destruct S as (F & S1 & C0 & _).
  exists w, c. split; [reflexivity|]. split; [exact L|]. unfold sum_list. rewrite <- lsum_rsum.
  split; [|split; [exact S1|split; [exact C0|]]].
  - intros i Hi. rewrite Forall_forall in F. apply F, nth_In, Hi.
  - intros Hz Hc. destruct (NL Hz) as [_ E]. apply Rmult_integral in E. lra.
Qed.

(** The returned weights are what electrostatics gives: for every choice of bit voltages
    and every solution of the charge equations, the top node sits at the weighted sum. *)
Lemma c08_electrostatics cd cb cp b v q w c :
  length cb = length cd -> length cp = length cd -> length b = length cd ->
  nonneg_list cd -> nonneg_list cp ->
  convert_cap_to_weight cd cb cp = Ok (w, c) -> 0 < c ->
  network_solution cd cb cp b v q ->
  v (length cd - 1)%nat = rsum (length cd) (fun i => nth i w 0 * nth i b 0).
Proof.
  intros Lb Lp Lbb Nd Np E Hc Sol. rewrite convert_run in E by assumption. injection E as E.
  destruct (Nat.eq_dec (length cd) 0) as [Z|Z].
  { rewrite Z in E. unfold run in E. simpl in E. injection E as <- <-. lra. }
  assert (Ek : length cd = S (length cd - 1)) by lia. set (k := (length cd - 1)%nat) in *.
  pose proof (run_norton cd cb cp Lb Lp Nd Np b v q Lbb Sol k ltac:(lia)) as N.
  pose proof (run_length cd cb cp Lb Lp (S k) ltac:(lia)) as L.
  pose proof (run_signs cd cb cp Lb Lp Nd Np k ltac:(lia)) as SG.
  rewrite run_S in N by (try assumption; lia). rewrite Ek, run_S in E by (try assumption; lia).
  rewrite run_S in L by (try assumption; lia).
  destruct (run cd cb cp k) as [ws0 c0] eqn:R0. rewrite E in N, L. cbn [snd fst] in *.
  destruct SG as (_ & _ & C0 & _). destruct N as [Q _]. destruct Sol as (_ & _ & Qt).
  assert (Qk : q k = 0) by exact Qt. rewrite Qk in Q.
  rewrite firstn_all2 in Q by lia. rewrite Ek. rewrite <- L at 1.
  unfold cap_step in E. set (cn := nth k cd 0 + nth k cp 0 + c0) in *.
  destruct (Reqb_spec cn 0) as [Ez|Ez].
  { injection E as E1 E2. pose proof (Nd k ltac:(lia)). pose proof (Np k ltac:(lia)). unfold cn in Ez. lra. }
  symmetry in Q. apply Rmult_integral in Q. destruct Q as [Q|Q]; [contradiction|].
  rewrite dot_rsum in Q by lia. lra.
Qed.

Lemma c09_no_bridge cd cb cp :
  length cb = length cd -> length cp = length cd -> nonneg_list cd -> nonneg_list cp ->
  (forall i, (i < length cb)%nat -> nth i cb 0 <= 0) ->
  exists w c, convert_cap_to_weight cd cb cp = Ok (w, c) /\ length w = length cd /\
    c = sum_list cd + sum_list cp /\
    forall i, (i < length cd)%nat ->
      (0 < c -> nth i w 0 = nth i cd 0 / (sum_list cd + sum_list cp)) /\ (c = 0 -> nth i w 0 = 0).
Proof.
  intros Lb Lp Nd Np Hz. rewrite convert_run by assumption.
  pose proof (run_nobridge cd cb cp Lb Lp Nd Np Hz (length cd) ltac:(lia)) as N.
  destruct (run cd cb cp (length cd)) as [w c]. destruct N as (E1 & C0 & E2 & L & E3).
  rewrite rsum_plus in E1. exists w, c. split; [reflexivity|]. split; [exact L|].
  unfold sum_list. rewrite Lp. split; [exact E1|]. intros i Hi. split; [|intros; apply E3; assumption].
  intros Hc. rewrite <- E1. rewrite <- (E2 i Hi). field. lra.
Qed.

Lemma c09_scale cd cb cp k w c :
  0 < k -> length cb = length cd -> length cp = length cd -> nonneg_list cd -> nonneg_list cp ->
  convert_cap_to_weight cd cb cp = Ok (w, c) ->
  convert_cap_to_weight (map (Rmult k) cd) (map (Rmult k) cb) (map (Rmult k) cp) = Ok (w, k * c).
Proof.
  intros Hk Lb Lp Nd Np E. rewrite convert_run in E by assumption.
  rewrite convert_run by (rewrite !map_length; assumption). rewrite map_length. injection E as E. f_equal.
  assert (G : forall j, (j <= length cd)%nat ->
     run (map (Rmult k) cd) (map (Rmult k) cb) (map (Rmult k) cp) j =
     (fst (run cd cb cp j), k * snd (run cd cb cp j))).
  { induction j as [|j IH]; intros Hj; [unfold run; simpl; f_equal; lra|].
    rewrite run_S by (rewrite ?map_length; lia). rewrite run_S by lia. rewrite IH by lia.
    rewrite !(nth_map_in _ _ _ 0) by lia.
    pose proof (run_signs cd cb cp Lb Lp Nd Np j ltac:(lia)) as SG.
    destruct (run cd cb cp j) as [ws c0]. cbn [fst snd]. destruct SG as (_ & _ & C0 & _).
    unfold cap_step.
    replace (k * nth j cd 0 + k * nth j cp 0 + k * c0) with (k * (nth j cd 0 + nth j cp 0 + c0)) by ring.
    pose proof (Nd j ltac:(lia)) as D0. pose proof (Np j ltac:(lia)) as P0.
    set (cn := nth j cd 0 + nth j cp 0 + c0) in *.
    destruct (Reqb_spec cn 0) as [Z|Z], (Reqb_spec (k * cn) 0) as [Z2|Z2]; cbn [fst snd]; try reflexivity.
    + exfalso. apply Z2. rewrite Z. ring.
    + exfalso. apply Z. nra.
    + assert (Pn : 0 < cn) by (unfold cn in *; lra). f_equal.
      * f_equal; [apply map_ext; intros; field; lra|f_equal; field; lra].
      * destruct (Rltb_spec 0 (nth j cb 0)), (Rltb_spec 0 (k * nth j cb 0)); try nra.
        field. split; nra. }
  rewrite G by lia. rewrite E. reflexivity.
Qed.

Lemma c09_length_mismatch cd cb cp :
  ~ (length cd = length cb /\ length cb = length cp) <->
  convert_cap_to_weight cd cb cp = Err ValueError.
Proof.
  unfold convert_cap_to_weight.
  destruct (Nat.eqb_spec (length cd) (length cb)), (Nat.eqb_spec (length cb) (length cp)); cbn [negb andb];
    split; intros H; try reflexivity; try discriminate; try tauto.
Qed.

(** Two-bit array with one bridge: hypotheses met, and a solution of the charge equations
    in which the LSB bridge divides its contribution. *)
Lemma c08_network_ex :
  convert_cap_to_weight [1; 1] [1; 0] [1; 0] = Ok ([1/2 * ((2/3) / (5/3)); 1 / (5/3)], 5/3) /\
  network_solution [1; 1] [1; 0] [1; 0] [1; 0] (fun i => match i with O => 2/5 | _ => 1/5 end)
    (fun i => match i with O => 1/5 | _ => 0 end).
Proof.
  split.
  - unfold convert_cap_to_weight. cbn -[Rdiv].
    destruct (Reqb_spec (1 + 1 + 0) 0); [lra|]. cbn -[Rdiv].
    destruct (Rltb_spec 0 1); [|lra].
    destruct (Reqb_spec (1 + 0 + 1 * (1 + 1 + 0) / (1 + (1 + 1 + 0))) 0); [lra|]. cbn -[Rdiv].
    destruct (Rltb_spec 0 0); [lra|]. list_eq; field.
  - split; [|split].
    + intros i Hi. cases_lt i.
    + intros i Hi. destruct i; [|simpl in Hi; lia]. cbn. destruct (Rlt_dec 0 1); lra.
    + reflexivity.
Qed.
