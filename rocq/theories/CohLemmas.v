(** * Closed form of the alignment loop. *)
From Coq Require Import Lia Lra Psatz FunctionalExtensionality.
From Verif Require Import Base BaseLemmas Cplx FreqModel UnitsModel TiModel TiToneProofs SpecModel SpecLemmas CohModel CohSpec.
Local Open Scope R_scope.

Lemma nth_map_seq {A} (f : nat -> A) n i d : (i < n)%nat -> nth i (map f (seq 0 n)) d = f i.
Proof.
  intros Hi. rewrite (nth_indep _ d (f O)) by (rewrite map_length, seq_length; exact Hi).
  rewrite (map_nth f). rewrite seq_nth by exact Hi. reflexivity.
Qed.
Lemma nth_firstn_lt {A} (l : list A) k i d : (i < k)%nat -> nth i (firstn k l) d = nth i l d.
Proof. revert k i. induction l as [|x t IH]; intros [|k] [|i] H; cbn; try lia; try reflexivity. apply IH. lia. Qed.
Fixpoint cpow (z : C) (h : nat) : C := match h with O => C1 | S m => Cmult (cpow z m) z end.
Definition landing (k n h : nat) : nat * bool :=
  let m := ((k * h) mod n)%nat in if (2 * m <? n)%nat then (m, false) else ((n - m)%nat, true).
Definition rot (cj : bool) (z : C) : C := if cj then Cconj z else z.
Fixpoint first_order (k n m b : nat) : option nat :=
  match m with
  | O => None
  | S m' => match first_order k n m' b with
            | Some h => Some h
            | None => if (fst (landing k n (S m')) =? b)%nat then Some (S m') else None
            end
  end.

Lemma even_zone hf n : (0 < n)%nat -> Nat.even (2 * hf / n) = (2 * (hf mod n) <? n)%nat.
Proof.
  intros Hn. pose proof (Nat.div_mod hf n ltac:(lia)) as E. pose proof (Nat.mod_upper_bound hf n ltac:(lia)) as B.
  assert (Q : (2 * hf / n = 2 * (hf / n) + 2 * (hf mod n) / n)%nat).
  { rewrite E at 1. replace (2 * (n * (hf / n) + hf mod n))%nat with (2 * (hf mod n) + (2 * (hf / n)) * n)%nat by lia.
    rewrite Nat.div_add by lia. lia. }
  rewrite Q, Nat.add_comm, Nat.even_add_mul_2.
  destruct (Nat.ltb_spec (2 * (hf mod n)) n) as [L|L].
  - rewrite Nat.div_small by exact L. reflexivity.
  - replace (2 * (hf mod n) / n)%nat with 1%nat; [reflexivity|].
    apply (Nat.div_unique (2 * (hf mod n)) n 1 (2 * (hf mod n) - n)); lia.
Qed.

Lemma harmonic_step_eq k n p s h : (0 < n)%nat ->
  harmonic_step k n p s h =
  let b := fst (landing k n h) in
  mkAlign (if al_done s b then al_fft s else upd (al_fft s) b (Cmult (al_fft s b) (rot (snd (landing k n h)) (al_phasor s))))
          (if al_done s b then al_done s else upd (al_done s) b true)
          (Cmult (al_phasor s) p).
Proof.
  intros Hn. unfold harmonic_step. cbv zeta. rewrite even_zone by exact Hn. unfold landing. cbv zeta.
  pose proof (Nat.div_mod (k * h) n ltac:(lia)) as E. pose proof (Nat.mod_upper_bound (k * h) n ltac:(lia)) as B.
  destruct (Nat.ltb_spec (2 * ((k * h) mod n)) n) as [L|L]; cbn [fst snd].
  - replace (k * h - k * h / n * n)%nat with ((k * h) mod n)%nat by (rewrite (Nat.mul_comm (k * h / n)); lia).
    destruct (al_done s _); reflexivity.
  - replace (n + k * h / n * n - k * h)%nat with (n - (k * h) mod n)%nat by (rewrite (Nat.mul_comm (k * h / n)); lia).
    replace (n - (k * h) mod n <? n)%nat with true by (symmetry; apply Nat.ltb_lt; lia). cbn [andb].
    destruct (al_done s _); reflexivity.
Qed.

Lemma align_loop k n p X m : (0 < n)%nat ->
  let s := fold_left (harmonic_step k n p) (seq 1 m) (mkAlign X (fun _ => false) p) in
  al_phasor s = cpow p (S m) /\
  (forall b, al_done s b = match first_order k n m b with Some _ => true | None => false end) /\
  (forall b, al_fft s b = match first_order k n m b with
                          | Some h => Cmult (X b) (rot (snd (landing k n h)) (cpow p h))
                          | None => X b end).
Proof.
  intros Hn. induction m as [|m IH].
  - cbn. split; [|split; intros; reflexivity]. unfold C1; destruct p; unfold Cmult; cbn. f_equal; ring.
  - cbv zeta in *. rewrite seq_S, fold_left_app. cbn [fold_left Nat.add].
    set (s := fold_left (harmonic_step k n p) (seq 1 m) (mkAlign X (fun _ => false) p)) in *.
    destruct IH as [Hp [Hd Hf]]. rewrite harmonic_step_eq by exact Hn. cbv zeta. cbn [al_phasor al_done al_fft].
    split; [rewrite Hp; reflexivity|]. set (b0 := fst (landing k n (S m))).
    split; intros b; cbn [first_order]; fold b0.
    + rewrite (Hd b0). destruct (first_order k n m b0) as [h0|] eqn:E0.
      * rewrite Hd. destruct (first_order k n m b) as [h|] eqn:E; [reflexivity|].
        destruct (Nat.eqb_spec b0 b) as [->|]; [congruence|reflexivity].
      * unfold upd. rewrite Hd. rewrite (Nat.eqb_sym b b0). destruct (Nat.eqb_spec b0 b) as [->|].
        -- rewrite E0. reflexivity.
        -- destruct (first_order k n m b); reflexivity.
    + rewrite (Hd b0). destruct (first_order k n m b0) as [h0|] eqn:E0.
      * rewrite Hf. destruct (first_order k n m b) as [h|] eqn:E; [reflexivity|].
        destruct (Nat.eqb_spec b0 b) as [->|]; [congruence|reflexivity].
      * unfold upd. rewrite (Nat.eqb_sym b b0). destruct (Nat.eqb_spec b0 b) as [->|].
        -- rewrite Hf, E0, Hp. reflexivity.
        -- rewrite Hf. destruct (first_order k n m b); reflexivity.
Qed.

(** The aligned spectrum at a bin other than DC. *)
Lemma align_closed X k r n b : (0 < n)%nat -> (0 < k)%nat -> b <> O ->
  align_spectrum X k r n b =
  match first_order k n n b with
  | Some h => Cmult (X b) (rot (snd (landing k n h)) (cpow (align_phasor (X k)) h))
  | None => Cmult (X b) (cpower (align_phasor (X k)) (if Rltb 0 r then INR b / r else 0))
  end.
Proof.
  intros Hn Hk Hb. unfold align_spectrum. replace (k <=? 0)%nat with false by (symmetry; apply Nat.leb_gt; lia).
  cbv zeta. unfold upd at 1. replace (b =? 0)%nat with false by (symmetry; apply Nat.eqb_neq; exact Hb).
  pose proof (align_loop k n (align_phasor (X k)) X n Hn) as [_ [Hd Hf]].
  rewrite Hd, Hf. destruct (first_order k n n b); reflexivity.
Qed.
Lemma align_dc X k r n : (0 < k)%nat -> align_spectrum X k r n 0 = C0.
Proof.
  intros Hk. unfold align_spectrum. replace (k <=? 0)%nat with false by (symmetry; apply Nat.leb_gt; lia). reflexivity.
Qed.

Lemma first_order_some k n m b h : first_order k n m b = Some h ->
  (1 <= h <= m)%nat /\ fst (landing k n h) = b /\ (forall h', (1 <= h' < h)%nat -> fst (landing k n h') <> b).
Proof.
  revert h. induction m as [|m IH]; intros h; cbn [first_order]; [discriminate|].
  destruct (first_order k n m b) as [h0|] eqn:E.
  - intros Q. injection Q as <-. destruct (IH h0 eq_refl) as [? [? ?]]. split; [lia|]. split; assumption.
  - destruct (Nat.eqb_spec (fst (landing k n (S m))) b) as [L|L]; [|discriminate].
    intros Q. injection Q as <-. split; [lia|]. split; [exact L|]. intros h' Hh'.
    clear IH L. revert h' Hh'. induction m as [|m IHm]; intros h' Hh'; [lia|]. cbn [first_order] in E.
    destruct (first_order k n m b) as [h0|] eqn:E'; [discriminate|].
    destruct (Nat.eqb_spec (fst (landing k n (S m))) b) as [L|L]; [discriminate|].
    destruct (Nat.eq_dec h' (S m)) as [->|]; [exact L|]. apply IHm; [reflexivity|lia].
Qed.
Lemma first_order_none k n m b : first_order k n m b = None ->
  forall h', (1 <= h' <= m)%nat -> fst (landing k n h') <> b.
Proof.
  induction m as [|m IHm]; intros E h' Hh'; [lia|]. cbn [first_order] in E.
  destruct (first_order k n m b) as [h0|] eqn:E'; [discriminate|].
  destruct (Nat.eqb_spec (fst (landing k n (S m))) b) as [L|L]; [discriminate|].
  destruct (Nat.eq_dec h' (S m)) as [->|]; [exact L|]. apply IHm; [reflexivity|lia].
Qed.

Lemma landing_appears n k h : (0 < n)%nat ->
  (snd (landing k n h) = false -> appears_direct n k h (fst (landing k n h))) /\
  (snd (landing k n h) = true -> appears_mirrored n k h (fst (landing k n h))).
Proof.
  intros Hn. unfold landing. cbv zeta.
  pose proof (Nat.div_mod (k * h) n ltac:(lia)) as E. pose proof (Nat.mod_upper_bound (k * h) n ltac:(lia)) as B.
  destruct (Nat.ltb_spec (2 * ((k * h) mod n)) n) as [L|L]; cbn [fst snd]; split; intros Q; try discriminate.
  - split; [exact L|]. exists (k * h / n)%nat. nia.
  - split; [lia|]. exists (k * h / n + 1)%nat. nia.
Qed.
Lemma appears_landing n k h b : (0 < n)%nat -> (0 < b)%nat -> appears n k h b -> fst (landing k n h) = b.
Proof.
  intros Hn Hb [[Hl [q Hq]]|[Hl [q Hq]]]; unfold landing; cbv zeta; rewrite (Nat.mul_comm k h).
  - assert (M : ((h * k) mod n = b)%nat) by (rewrite Hq, Nat.mod_add by lia; apply Nat.mod_small; lia).
    rewrite M. replace (2 * b <? n)%nat with true by (symmetry; apply Nat.ltb_lt; lia). reflexivity.
  - assert (M : ((h * k) mod n = n - b)%nat).
    { symmetry. destruct q as [|q]; [lia|]. apply (Nat.mod_unique _ _ q); nia. }
    rewrite M. destruct (Nat.ltb_spec (2 * (n - b)) n); cbn [fst]; lia.
Qed.
(** Any order can be brought into the range 1..n without changing its bin. *)
Lemma landing_reduce n k h : (0 < n)%nat -> (1 <= h)%nat ->
  exists h', (1 <= h' <= n)%nat /\ landing k n h' = landing k n h.
Proof.
  intros Hn Hh. destruct (Nat.eq_dec (h mod n) 0) as [E|E].
  - exists n. split; [lia|]. unfold landing. cbv zeta. replace ((k * n) mod n)%nat with ((k * h) mod n)%nat; [reflexivity|].
    rewrite Nat.mod_mul by lia. apply Nat.mod_divides in E; [|lia]. destruct E as [q ->].
    replace (k * (n * q))%nat with (k * q * n)%nat by ring. apply Nat.mod_mul. lia.
  - exists (h mod n)%nat. pose proof (Nat.mod_upper_bound h n ltac:(lia)). split; [lia|]. unfold landing.
    rewrite Nat.mul_mod_idemp_r by lia. reflexivity.
Qed.
Lemma harmonic_first n k b : (0 < n)%nat -> (0 < b)%nat -> harmonic_bin n k b ->
  exists h, first_order k n n b = Some h.
Proof.
  intros Hn Hb [h [Hh Ha]]. apply appears_landing in Ha; try assumption.
  destruct (landing_reduce n k h Hn Hh) as [h' [Hr El]]. destruct (first_order k n n b) as [h0|] eqn:E; [eauto|].
  exfalso. apply (first_order_none _ _ _ _ E h' Hr). rewrite El. exact Ha.
Qed.

(** ** Phasors *)
Lemma cpow_cis t h : cpow (cis t) h = cis (INR h * t).
Proof.
  induction h as [|h IH]; cbn [cpow]; [rewrite Rmult_0_l; symmetry; apply cis_0|].
  rewrite IH, <- cis_plus. f_equal. rewrite S_INR. ring.
Qed.
Lemma cpow_mult a b h : cpow (Cmult a b) h = Cmult (cpow a h) (cpow b h).
Proof. induction h as [|h IH]; cbn [cpow]; [unfold C1, Cmult; cbn; f_equal; ring|]. rewrite IH. ring. Qed.
Lemma cpow_scale c z h : cpow (Cscale c z) h = Cscale (c ^ h) (cpow z h).
Proof.
  induction h as [|h IH]; cbn [cpow pow]; [symmetry; apply Cscale_1|]. rewrite IH.
  unfold Cscale, Cmult; cbn. f_equal; ring.
Qed.
Lemma Cmod_cpow z h : Cmod (cpow z h) = Cmod z ^ h.
Proof.
  induction h as [|h IH]; cbn [cpow pow]; [replace C1 with (RtoC 1) by reflexivity; rewrite Cmod_RtoC; apply Rabs_R1|].
  rewrite Cmod_mult, IH. ring.
Qed.
Lemma rot_mult cj a b : rot cj (Cmult a b) = Cmult (rot cj a) (rot cj b).
Proof. destruct cj; cbn; [apply Cconj_mult|reflexivity]. Qed.
Lemma Cmod_rot cj z : Cmod (rot cj z) = Cmod z.
Proof. destruct cj; cbn; [apply Cmod_conj|reflexivity]. Qed.
Lemma rot_cis cj t : rot cj (cis t) = cis (if cj then - t else t).
Proof. destruct cj; cbn [rot]; [symmetry; apply cis_neg|reflexivity]. Qed.
Lemma rot_scale cj c z : rot cj (Cscale c z) = Cscale c (rot cj z).
Proof. destruct cj; cbn; [|reflexivity]. unfold Cconj, Cscale; cbn. f_equal; ring. Qed.

Definition shrink (z : C) : R := Cmod z / (Cmod z + / 10 ^ 20).
Lemma eps_pos : 0 < / 10 ^ 20.
Proof. apply Rinv_0_lt_compat. apply pow_lt. lra. Qed.
Lemma shrink_range z : 0 <= shrink z < 1.
Proof.
  unfold shrink. pose proof (Cmod_nonneg z). pose proof eps_pos. split.
  - apply Rmult_le_pos; [assumption|]. apply Rlt_le, Rinv_0_lt_compat. lra.
  - apply (Rmult_lt_reg_r (Cmod z + / 10 ^ 20)); [lra|]. unfold Rdiv. rewrite Rmult_assoc, Rinv_l by lra. lra.
Qed.
Lemma align_phasor_mod z : Cmod (align_phasor z) = shrink z.
Proof.
  unfold align_phasor, shrink. rewrite Cmod_conj, Cmod_scale. pose proof (Cmod_nonneg z). pose proof eps_pos.
  rewrite Rabs_right; [unfold Rdiv; ring|]. apply Rle_ge, Rlt_le, Rinv_0_lt_compat. lra.
Qed.
Lemma align_phasor_polar z t m : 0 <= m -> z = Cscale m (cis t) ->
  align_phasor z = Cscale (shrink z) (cis (- t)).
Proof.
  intros Hm E. unfold align_phasor, shrink. rewrite cis_neg.
  assert (Em : Cmod z = m) by (rewrite E, Cmod_scale, Cmod_cis, Rabs_right by lra; ring).
  rewrite Em. rewrite E at 1. unfold Cscale, Cconj, Rdiv; cbn. f_equal; ring.
Qed.
Lemma align_phasor_turn z t : align_phasor (Cmult z (cis t)) = Cmult (align_phasor z) (cis (- t)).
Proof.
  unfold align_phasor. rewrite Cmod_mult, Cmod_cis, Rmult_1_r, cis_neg, <- Cscale_mult, Cconj_mult. reflexivity.
Qed.

Lemma rpower_le_one a x : 0 < a <= 1 -> 0 <= x -> 0 < Rpower a x <= 1.
Proof.
  intros [Ha H1] Hx. unfold Rpower. split; [apply exp_pos|]. rewrite <- exp_0.
  assert (L : x * ln a <= 0). { assert (ln a <= 0). { destruct H1 as [H1|H1]; [left; rewrite <- ln_1; apply ln_increasing; lra|right; rewrite H1; apply ln_1]. } nra. }
  destruct L as [L|L]; [left; apply exp_increasing; exact L|right; rewrite L; reflexivity].
Qed.
Lemma Ceqb0_spec z : Ceqb0 z = true <-> z = C0.
Proof.
  destruct z as [x y]. unfold Ceqb0, Re, Im; cbn. rewrite Bool.andb_true_iff, !Reqb_true. unfold C0. split.
  - intros [-> ->]. reflexivity.
  - intros E. injection E as -> ->. auto.
Qed.
Lemma cpower_mod_le z x : Cmod z <= 1 -> 0 <= x -> Cmod (cpower z x) <= 1.
Proof.
  intros Hz Hx. unfold cpower. destruct (Reqb x 0); [replace C1 with (RtoC 1) by reflexivity; rewrite Cmod_RtoC, Rabs_R1; lra|].
  destruct (Ceqb0 z) eqn:E; [rewrite Cmod_0; lra|].
  assert (0 < Cmod z). { destruct (Req_dec (Cmod z) 0) as [Q|Q]; [apply Cmod_eq_0 in Q; apply Ceqb0_spec in Q; congruence|pose proof (Cmod_nonneg z); lra]. }
  pose proof (rpower_le_one (Cmod z) x ltac:(lra) Hx). rewrite Cmod_scale, Cmod_cis, Rabs_right by lra. lra.
Qed.
