(** * Capacitor arrays in double precision: final lemmas c217_. *)
From Flocq Require Import Core.Core IEEE754.BinarySingleNaN.
From Coq Require Import Psatz Floats.SpecFloat.
From Verif Require Import Base BaseLemmas CapModel FltModel FltSpec FltLemmas FltProofs FfreqModel FfreqLemmas FfreqProofs FcapModel.
Local Open Scope R_scope.

(** A finite, non-negative double. *)
Definition cap (x : fl) : Prop := is_finite x = true /\ 0 <= val x.
(** A double between 0 and 1. *)
Definition share (x : fl) : Prop := is_finite x = true /\ 0 <= val x <= 1.

Lemma rnd_pos r : 0 <= r -> 0 <= rnd r.
Proof. intros H. rewrite <- rnd_0. apply rnd_le, H. Qed.
Lemma rnd_1 : rnd 1 = 1.
Proof. apply rnd_id. replace 1 with (IZR 1 * bpow radix2 0) by (cbn; lra). apply dyadic_double; lia. Qed.
Lemma one_lt_big : 1 < big.
Proof. apply (bpow_lt radix2 0 1024). lia. Qed.
Lemma share_rnd r : 0 <= r <= 1 -> 0 <= rnd r <= 1 /\ Rabs (rnd r) < big.
Proof.
  intros [A B]. assert (0 <= rnd r <= 1) by (split; [apply rnd_pos, A | rewrite <- rnd_1; apply rnd_le, B]). split; [assumption |]. rewrite Rabs_pos_eq by lra. pose proof one_lt_big. lra.
Qed.
Lemma quotient a c : cap a -> cap c -> 0 < val c -> val a <= val c -> share (fdiv a c).
Proof.
  intros [Fa A] [Fc C] P L. assert (Q : 0 <= val a / val c <= 1). { split; [apply Rmult_le_pos; [exact A | left; apply Rinv_0_lt_compat, P] |]. apply (Rmult_le_reg_r (val c)); [exact P |]. unfold Rdiv. rewrite Rmult_assoc, Rinv_l by lra. lra. }
  destruct (share_rnd _ Q) as (Q1 & Q2). destruct (fdiv_fin a c Fa Fc ltac:(lra) Q2) as (F & V). split; [exact F | rewrite V; exact Q1].
Qed.
Lemma product a c : share a -> share c -> share (fmul a c).
Proof.
  intros [Fa A] [Fc C]. assert (Q : 0 <= val a * val c <= 1) by (split; [apply Rmult_le_pos; lra | nra]). destruct (share_rnd _ Q) as (Q1 & Q2). destruct (fmul_fin a c Fa Fc Q2) as (F & V). split; [exact F | rewrite V; exact Q1].
Qed.
(** A sum of caps is a cap not smaller than its parts, or infinite. *)
Lemma cap_sum a b : cap a -> cap b -> is_finite (fadd a b) = true -> cap (fadd a b) /\ val a <= val (fadd a b) /\ val b <= val (fadd a b) /\ val (fadd a b) = rnd (val a + val b).
Proof.
  intros [Fa A] [Fb B] F. destruct (fadd_ev a b Fa Fb) as (_ & E). rewrite ev_fin in E by exact F. assert (L : Rabs (rnd (val a + val b)) < big).
  { pose proof (val_range _ F) as V. rewrite E in V. unfold clampR in V. revert V. unfold Rmin, Rmax. repeat destruct Rle_dec; intros V; apply Rabs_def2 in V; apply Rabs_def1; lra. }
  rewrite clampR_in in E by exact L. assert (val a <= rnd (val a + val b)) by (rewrite <- (rnd_id (val a)) at 1; [apply rnd_le; lra | apply val_double]). assert (val b <= rnd (val a + val b)) by (rewrite <- (rnd_id (val b)) at 1; [apply rnd_le; lra | apply val_double]).
  rewrite E. repeat split; try assumption; lra.
Qed.
Lemma feq_zero x : is_finite x = true -> 0 <= val x -> feq x fzero = Reqb (val x) 0.
Proof.
  intros F P. unfold feq. rewrite !fle_ev by (try apply fin_not_nan; easy). rewrite !ev_fin by easy. change (val fzero) with 0. unfold Reqb. destruct (Rleb_spec (val x) 0); destruct (Rleb_spec 0 (val x)); destruct Req_EM_T; cbn; try reflexivity; lra.
Qed.

Definition lost (x : fl) : Prop := is_finite x = false.
Lemma add_lost_r x y : is_finite x = true -> lost y -> lost (fadd x y).
Proof. unfold lost. destruct x as [a|a| |a m e H], y as [b|b| |b n f K]; intros A B; try discriminate; reflexivity. Qed.
Lemma add_lost_l x y : lost x -> is_finite y = true -> lost (fadd x y).
Proof. unfold lost. destruct x as [a|a| |a m e H], y as [b|b| |b n f K]; intros A B; try discriminate; reflexivity. Qed.
Lemma feq_lost x : lost x -> feq x fzero = false.
Proof. unfold lost. destruct x as [a|a| |a m e H]; intros A; try discriminate; [destruct a |]; reflexivity. Qed.
Lemma mul_lost x y : is_finite x = true -> lost y -> lost (fmul x y).
Proof. unfold lost. destruct x as [a|a| |a m e H], y as [b|b| |b n f K]; intros A B; try discriminate; reflexivity. Qed.
Lemma div_lost x y : lost x -> lost (fdiv x y).
Proof. unfold lost. destruct x as [a|a| |a m e H], y as [b|b| |b n f K]; intros A; try discriminate; reflexivity. Qed.

Lemma series cb cn : cap cb -> cap cn -> 0 < val cb -> is_finite (fdiv (fmul cb cn) (fadd cb cn)) = true -> cap (fdiv (fmul cb cn) (fadd cb cn)).
Proof.
  intros B N P F. split; [exact F |]. destruct (is_finite (fmul cb cn)) eqn:Fm; [| rewrite (div_lost _ _ Fm) in F; discriminate].
  assert (M : 0 <= val (fmul cb cn)). { destruct (fmul_ev cb cn (proj1 B) (proj1 N)) as (_ & E). rewrite ev_fin in E by exact Fm. rewrite E. unfold clampR. pose proof (rnd_pos (val cb * val cn) ltac:(apply Rmult_le_pos; [apply B | apply N])). pose proof big_pos. unfold Rmax, Rmin. repeat destruct Rle_dec; lra. }
  destruct (is_finite (fadd cb cn)) eqn:Fs.
  - destruct (cap_sum cb cn B N Fs) as (S & S1 & S2 & _). destruct (fdiv_ev (fmul cb cn) (fadd cb cn) Fm Fs ltac:(lra)) as (_ & E). rewrite ev_fin in E by exact F. rewrite E. assert (0 <= rnd (val (fmul cb cn) / val (fadd cb cn))) by (apply rnd_pos, Rmult_le_pos; [exact M | left; apply Rinv_0_lt_compat; lra]). pose proof big_pos. unfold clampR, Rmax, Rmin. repeat destruct Rle_dec; lra.
  - revert Fs F Fm. clear. generalize (fmul cb cn), (fadd cb cn). intros x y A B C. destruct x as [a|a| |a m e H], y as [b|b| |b n f K]; try discriminate; right; reflexivity.
Qed.
Lemma share_0 : share fzero.
Proof. split; [reflexivity | change (val fzero) with 0; lra]. Qed.

Definition sound (st : list fl * fl) : Prop := (Forall share (fst st) /\ cap (snd st)) \/ lost (snd st).
Lemma step_sound st c : (let '(cd, cb, cp) := c in cap cd /\ cap cb /\ cap cp) -> sound st -> sound (fcap_step st c).
Proof.
  destruct st as [w l], c as [[cd cb] cp]. intros (D & B & P) S. unfold sound, fcap_step in *. cbn [fst snd] in *. set (cn := fadd (fadd cd cp) l).
  assert (X : lost cn -> lost (if flt fzero cb then fdiv (fmul cb cn) (fadd cb cn) else cn)) by (intros L; destruct (flt fzero cb); [apply div_lost, mul_lost; [apply B | exact L] | exact L]).
  destruct (is_finite (fadd cd cp)) eqn:F1.
  2:{ assert (L : lost cn). { unfold cn. destruct S as [[_ [Fl _]] | S]; [apply add_lost_l; [exact F1 | exact Fl] |]. unfold lost in *. revert F1 S. generalize (fadd cd cp). intros x. destruct x as [a|a| |a m e H], l as [b|b| |b n f K]; intros U V; try discriminate; try reflexivity; destruct a, b; reflexivity. }
      rewrite feq_lost by exact L. right. exact (X L). }
  destruct S as [[W L] | S].
  2:{ assert (M : lost cn) by (apply add_lost_r; assumption). rewrite feq_lost by exact M. right. exact (X M). }
  destruct (cap_sum cd cp D P F1) as (C1 & L1 & _). destruct (is_finite cn) eqn:Fn.
  2:{ rewrite feq_lost by exact Fn. right. exact (X Fn). }
  destruct (cap_sum _ l C1 L Fn) as (C2 & L2 & L3 & _). fold cn in C2, L2, L3. rewrite feq_zero by apply C2. destruct (Reqb_spec (val cn) 0) as [Z | Z].
  - left. cbn [fst snd]. split; [| exact L]. apply Forall_app. split; [exact W | constructor; [exact share_0 | constructor]].
  - assert (Pn : 0 < val cn) by (destruct C2; lra). cbn [fst snd]. destruct (is_finite (if flt fzero cb then fdiv (fmul cb cn) (fadd cb cn) else cn)) eqn:Fc; [left | right; exact Fc]. split.
    + apply Forall_app. split; [| constructor; [apply quotient; try assumption; lra | constructor]]. apply Forall_map. apply Forall_impl with (2 := W). intros x Hx. apply product; [exact Hx |]. apply quotient; assumption.
    + destruct (flt fzero cb) eqn:Fb; [| exact C2]. apply series; try assumption. rewrite flt_ev in Fb by (try apply fin_not_nan; try apply B; reflexivity). rewrite !ev_fin in Fb by (try apply B; reflexivity). change (val fzero) with 0 in Fb. destruct (Rltb_spec 0 (val cb)); [assumption | discriminate].
Qed.
Lemma fold_sound cs st : Forall (fun '(cd, cb, cp) => cap cd /\ cap cb /\ cap cp) cs -> sound st -> sound (fold_left fcap_step cs st).
Proof. revert st. induction cs as [| c cs IH]; intros st H S; [exact S |]. inversion H; subst. cbn [fold_left]. apply IH; [assumption |]. apply step_sound; [| exact S]. destruct c as [[? ?] ?]. assumption. Qed.
Lemma zip_caps cd cb cp : Forall cap cd -> Forall cap cb -> Forall cap cp -> Forall (fun '(x, y, z) => cap x /\ cap y /\ cap z) (combine (combine cd cb) cp).
Proof.
  intros A. revert cb cp. induction A as [| x cd X A IH]; intros cb cp B P; [constructor |]. destruct cb as [| y cb]; [constructor |]. destruct cp as [| z cp]; [constructor |]. inversion B; inversion P; subst. cbn [combine]. constructor; [auto | apply IH; assumption].
Qed.
Lemma step_length st c : length (fst (fcap_step st c)) = S (length (fst st)).
Proof. destruct st as [w l], c as [[cd cb] cp]. unfold fcap_step. destruct feq; cbn [fst]; rewrite app_length, ?map_length; cbn; lia. Qed.
Lemma fold_length cs st : length (fst (fold_left fcap_step cs st)) = (length cs + length (fst st))%nat.
Proof. revert st. induction cs as [| c cs IH]; intros st; [reflexivity |]. cbn [fold_left length]. rewrite IH, step_length. lia. Qed.

(** In double precision, for any finite non-negative capacitances: whenever the total that is returned is finite, every weight is
    a finite double between 0 and 1, one per bit.  Nothing is assumed about intermediate overflow or underflow. *)
Lemma c217_weights (cd cb cp w : list fl) (c : fl) : Forall cap cd -> Forall cap cb -> Forall cap cp -> fconvert_cap cd cb cp = Ok (w, c) -> is_finite c = true ->
  length w = length cd /\ Forall share w /\ cap c.
Proof.
  intros A B P E F. unfold fconvert_cap in E. destruct (length cd =? length cb)%nat eqn:L1; [| discriminate]. destruct (length cb =? length cp)%nat eqn:L2; [| discriminate]. cbn [andb negb] in E. apply Nat.eqb_eq in L1, L2. injection E as E.
  split.
  - pose proof (fold_length (combine (combine cd cb) cp) ([], fzero)) as L. rewrite E in L. cbn [fst length] in L. rewrite L, !combine_length. lia.
  - assert (S : sound ([], fzero)) by (left; split; [constructor | split; [reflexivity | right; reflexivity]]). pose proof (fold_sound _ _ (zip_caps cd cb cp A B P) S) as R. rewrite E in R. destruct R as [R | R]; [exact R | unfold lost in R; cbn [snd] in R; congruence].
Qed.

Lemma ratio k e m : IZR k * bpow radix2 e / bpow radix2 (m + e) = IZR k * bpow radix2 (- m).
Proof. rewrite bpow_plus, bpow_opp. pose proof (bpow_gt_0 radix2 e). pose proof (bpow_gt_0 radix2 m). field. lra. Qed.
Lemma dyadic_small k e : (0 <= k <= 2 ^ 53)%Z -> (-1074 <= e <= 960)%Z -> rnd (IZR k * bpow radix2 e) = IZR k * bpow radix2 e /\ Rabs (rnd (IZR k * bpow radix2 e)) < big.
Proof.
  intros K E. assert (D : rnd (IZR k * bpow radix2 e) = IZR k * bpow radix2 e) by (apply rnd_id, dyadic_double; lia). split; [exact D |]. rewrite D. pose proof (bpow_gt_0 radix2 e). rewrite Rabs_pos_eq by (apply Rmult_le_pos; [apply IZR_le; lia | lra]).
  apply Rle_lt_trans with (bpow radix2 53 * bpow radix2 e).
  - apply Rmult_le_compat_r; [lra |]. change (bpow radix2 53) with (IZR (2 ^ 53)). apply IZR_le. lia.
  - rewrite <- bpow_plus. apply bpow_lt. lia.
Qed.
(** [x] is [k] units of 2^[e]. *)
Definition units (e k : Z) (x : fl) : Prop := is_finite x = true /\ val x = IZR k * bpow radix2 e.
Lemma add_units e a b x y : units e a x -> units e b y -> (0 <= a)%Z -> (0 <= b)%Z -> (a + b <= 2 ^ 53)%Z -> (-1000 <= e <= 900)%Z -> units e (a + b) (fadd x y).
Proof.
  intros [F A] [G B] P Q L E. destruct (dyadic_small (a + b) e ltac:(lia) ltac:(lia)) as (D1 & D2). assert (S : val x + val y = IZR (a + b) * bpow radix2 e) by (rewrite A, B, plus_IZR; ring).
  destruct (fadd_fin x y F G) as (H & V); [rewrite S; exact D2 |]. split; [exact H |]. rewrite V, S. exact D1.
Qed.
Lemma div_units e a m x y : units e a x -> units e (2 ^ m) y -> (0 <= a <= 2 ^ 53)%Z -> (0 <= m <= 53)%Z -> is_finite (fdiv x y) = true /\ val (fdiv x y) = IZR a * bpow radix2 (- m) /\ val x / val y = IZR a * bpow radix2 (- m).
Proof.
  intros [F A] [G B] P M. destruct (dyadic_small a (- m) ltac:(lia) ltac:(lia)) as (D1 & D2). assert (Y : val y = bpow radix2 (m + e)) by (rewrite B, bpow_plus; f_equal; change 2%Z with (radix_val radix2); apply IZR_Zpower; lia).
  assert (Q : val x / val y = IZR a * bpow radix2 (- m)) by (rewrite A, Y; apply ratio). pose proof (bpow_gt_0 radix2 (m + e)). destruct (fdiv_fin x y F G ltac:(lra)) as (H1 & V); [rewrite Q; exact D2 |]. repeat split; [exact H1 | rewrite V, Q; exact D1 | exact Q].
Qed.
Definition exact_state (e T : Z) (fs : list fl * fl) (rs : list R * R) : Prop :=
  rs = (map val (fst fs), val (snd fs)) /\ units e T (snd fs) /\
  ((T = 0%Z /\ fst fs = []) \/ exists m, (0 <= m <= 53)%Z /\ T = (2 ^ m)%Z /\ Forall (fun x => exists k, (0 <= k <= 2 ^ 53)%Z /\ units (- m) k x) (fst fs)).
Lemma step_exact e T a b m fs rs cd cb cp : exact_state e T fs rs -> (-1000 <= e <= 900)%Z -> units e a cd -> units e b cp -> (0 <= a)%Z -> (0 <= b)%Z -> (0 <= m <= 53)%Z -> (a + b + T = 2 ^ m)%Z -> is_finite cb = true -> val cb <= 0 ->
  exact_state e (2 ^ m) (fcap_step fs (cd, cb, cp)) (cap_step rs (val cd, val cb, val cp)).
Proof.
  intros (-> & UL & W) E A B PA PB M S Fb Hb. destruct fs as [w l]. cbn [fst snd] in *. assert (T0 : (0 <= T)%Z) by (destruct W as [[-> _] | (m0 & ? & -> & _)]; [lia | apply Z.pow_nonneg; lia]).
  assert (P53 : (2 ^ m <= 2 ^ 53)%Z) by (apply Z.pow_le_mono_r; lia). assert (Pm : (0 < 2 ^ m)%Z) by (apply Z.pow_pos_nonneg; lia).
  assert (U1 := add_units e a b cd cp A B PA PB ltac:(lia) E). assert (U2 := add_units e (a + b) T _ l U1 UL ltac:(lia) T0 ltac:(lia) E). rewrite S in U2.
  assert (NV : val cd + val cp + val l = val (fadd (fadd cd cp) l)) by (destruct A as [_ ->], B as [_ ->], UL as [_ ->], U2 as [_ ->]; rewrite <- S, !plus_IZR; ring).
  unfold fcap_step, cap_step. rewrite NV. set (cn := fadd (fadd cd cp) l) in *. assert (Pn : 0 < val cn) by (destruct U2 as [_ ->]; apply Rmult_lt_0_compat; [apply IZR_lt; exact Pm | apply bpow_gt_0]).
  rewrite feq_zero by (try apply U2; lra). destruct (Reqb_spec (val cn) 0) as [Z | _]; [lra |].
  assert (FB : flt fzero cb = false). { rewrite flt_ev by (try apply fin_not_nan; try exact Fb; reflexivity). rewrite !ev_fin by (try exact Fb; reflexivity). change (val fzero) with 0. destruct (Rltb_spec 0 (val cb)); [lra | reflexivity]. }
  rewrite FB. destruct (Rltb_spec 0 (val cb)) as [| _]; [lra |].
  destruct (div_units e a m cd cn A U2 ltac:(lia) M) as (F1 & V1 & Q1). destruct (div_units e T m l cn UL U2 ltac:(lia) M) as (F2 & V2 & Q2).
  assert (K : Forall (fun x => val (fmul x (fdiv l cn)) = val x * (val l / val cn) /\ exists k, (0 <= k <= 2 ^ 53)%Z /\ units (- m) k (fmul x (fdiv l cn))) w).
  { destruct W as [[_ ->] | (m0 & M0 & -> & W)]; [constructor |]. apply Forall_impl with (2 := W). intros x (k & Hk & Fx & Vx).
    assert (Q : val x * val (fdiv l cn) = IZR k * bpow radix2 (- m)). { rewrite Vx, V2. replace (IZR (2 ^ m0)) with (bpow radix2 m0) by (symmetry; change 2%Z with (radix_val radix2); apply IZR_Zpower; lia). rewrite (bpow_opp radix2 m0). pose proof (bpow_gt_0 radix2 m0). field. lra. }
    destruct (dyadic_small k (- m) Hk ltac:(lia)) as (D1 & D2). destruct (fmul_fin x (fdiv l cn) Fx F2) as (F3 & V3); [rewrite Q; exact D2 |]. split; [rewrite V3, Q, D1, Q2, <- V2; symmetry; exact Q |]. exists k. split; [exact Hk |]. split; [exact F3 |]. rewrite V3, Q. exact D1. }
  unfold exact_state. cbn [fst snd]. split; [| split; [exact U2 |]].
  - f_equal. rewrite map_app, !map_map. cbn [map]. rewrite V1, Q1. f_equal. clear -K. induction K as [| x w (H & _) _ IH]; [reflexivity |]. cbn [map]. rewrite IH, H. reflexivity.
  - right. exists m. split; [exact M |]. split; [reflexivity |]. apply Forall_app. split.
    + clear -K. induction K as [| x w (_ & H) _ IH]; constructor; assumption.
    + constructor; [| constructor]. exists a. split; [lia |]. split; [exact F1 | exact V1].
Qed.
(** Capacitances in units of 2^e: one (bit, parasitic) pair of counts per stage; after every stage the running total is a power of two. *)
Fixpoint power_totals (T : Z) (ks : list (Z * Z)) : Prop :=
  match ks with
  | [] => True
  | (a, b) :: r => (0 <= a)%Z /\ (0 <= b)%Z /\ (exists m, (0 <= m <= 53)%Z /\ (a + b + T = 2 ^ m)%Z) /\ power_totals (a + b + T) r
  end.
Lemma fold_exact e ks cs T fs rs : (-1000 <= e <= 900)%Z -> power_totals T ks -> Forall2 (fun k c => units e (fst k) (fst (fst c)) /\ units e (snd k) (snd c) /\ is_finite (snd (fst c)) = true /\ val (snd (fst c)) <= 0) ks cs -> exact_state e T fs rs ->
  exists T', exact_state e T' (fold_left fcap_step cs fs) (fold_left cap_step (map (fun c => (val (fst (fst c)), val (snd (fst c)), val (snd c))) cs) rs).
Proof.
  intros E P F. revert T fs rs P. induction F as [| [a b] [[cd cb] cp] ks cs (A & B & Fb & Hb) F IH]; intros T fs rs P X; [exists T; exact X |]. cbn [fst snd] in *. cbn [power_totals] in P. destruct P as (PA & PB & (m & M & S) & P). cbn [fold_left map fst snd].
  apply (IH (2 ^ m)%Z); [rewrite <- S; exact P |]. apply (step_exact e T a b m); assumption.
Qed.
Lemma zip_val cd cb cp : map (fun c => (val (fst (fst c)), val (snd (fst c)), val (snd c))) (combine (combine cd cb) cp) = combine (combine (map val cd) (map val cb)) (map val cp).
Proof. revert cb cp. induction cd as [| x cd IH]; intros cb cp; [reflexivity |]. destruct cb as [| y cb]; [reflexivity |]. destruct cp as [| z cp]; [reflexivity |]. cbn [combine map fst snd]. rewrite IH. reflexivity. Qed.
Lemma zip_units e ks cd cb cp : Forall2 (fun k x => units e (fst k) x) ks cd -> Forall2 (fun k x => units e (snd k) x) ks cp -> length cb = length cd -> Forall (fun x => is_finite x = true /\ val x <= 0) cb ->
  Forall2 (fun k c => units e (fst k) (fst (fst c)) /\ units e (snd k) (snd c) /\ is_finite (snd (fst c)) = true /\ val (snd (fst c)) <= 0) ks (combine (combine cd cb) cp).
Proof.
  intros A. revert cb cp. induction A as [| k x ks cd X A IH]; intros cb cp B L C; [inversion B; constructor |]. destruct cb as [| y cb]; [discriminate |]. inversion B as [| k' z ks' cp' Z B']; subst. inversion C as [| ? ? [C1 C2] C3]; subst. cbn [combine]. constructor; [cbn; auto |]. apply IH; try assumption. cbn in L. lia.
Qed.
Lemma same_length {A B} (P : A -> B -> Prop) l m : Forall2 P l m -> length l = length m.
Proof. induction 1; cbn; congruence. Qed.
(** Without bridges, when all capacitances are whole multiples of one unit and the running total after every stage is a power of two
    (up to 2^53 units), there is no rounding at all: weights and total are those of the exact computation. *)
Lemma c217_exact (cd cb cp : list fl) e ks : (-1000 <= e <= 900)%Z -> power_totals 0 ks -> Forall2 (fun k x => units e (fst k) x) ks cd -> Forall2 (fun k x => units e (snd k) x) ks cp -> length cb = length cd -> Forall (fun x => is_finite x = true /\ val x <= 0) cb ->
  exists w c, fconvert_cap cd cb cp = Ok (w, c) /\ convert_cap_to_weight (map val cd) (map val cb) (map val cp) = Ok (map val w, val c) /\ is_finite c = true.
Proof.
  intros E P A B L C. assert (L1 := same_length _ _ _ A). assert (L2 := same_length _ _ _ B). assert (X0 : exact_state e 0 ([], fzero) ([], 0)) by (split; [reflexivity |]; split; [split; [reflexivity | symmetry; apply Rmult_0_l] | left; split; reflexivity]).
  destruct (fold_exact e ks (combine (combine cd cb) cp) 0%Z ([], fzero) ([], 0) E P (zip_units e ks cd cb cp A B L C) X0) as (T & X). rewrite zip_val in X.
  unfold fconvert_cap, convert_cap_to_weight. rewrite !map_length. assert (H1 : (length cd =? length cb)%nat = true) by (apply Nat.eqb_eq; lia). assert (H2 : (length cb =? length cp)%nat = true) by (apply Nat.eqb_eq; lia). rewrite H1, H2. cbn [andb negb].
  destruct (fold_left fcap_step _ _) as [w c] eqn:EF. exists w, c. destruct X as (X1 & (X2 & _) & _). split; [reflexivity |]. split; [rewrite X1; reflexivity | exact X2].
Qed.
(** Binary array with a terminating unit: capacitors 1, 2, 4 and a parasitic of 1 at the first node give 1/8, 1/4, 1/2 exactly. *)
Example c217_exact_ex : exists w c, fconvert_cap [fnum 1 0; fnum 2 0; fnum 4 0] [fzero; fzero; fzero] [fnum 1 0; fzero; fzero] = Ok (w, c) /\ map val w = [1 / 8; 1 / 4; 1 / 2] /\ val c = 8.
Proof.
  destruct (c217_exact [fnum 1 0; fnum 2 0; fnum 4 0] [fzero; fzero; fzero] [fnum 1 0; fzero; fzero] 0 [(1, 1); (2, 0); (4, 0)]%Z) as (w & c & E & R & _).
  - lia.
  - cbn [power_totals]. repeat split; try lia; [exists 1%Z | exists 2%Z | exists 3%Z]; split; lia || reflexivity.
  - repeat constructor; cbn [fst]; apply fnum_fin; lia.
  - repeat constructor; cbn [snd]; try (apply fnum_fin; lia); change (val fzero) with 0; cbn; ring.
  - reflexivity.
  - repeat constructor; change (val fzero) with 0; lra.
  - exists w, c. split; [exact E |]. destruct (fnum_fin 1 0) as (_ & V1); [lia.. |]. destruct (fnum_fin 2 0) as (_ & V2); [lia.. |]. destruct (fnum_fin 4 0) as (_ & V4); [lia.. |]. cbn [map] in R. rewrite V1, V2, V4 in R. change (val fzero) with 0 in R. cbn [bpow] in R.
    unfold convert_cap_to_weight in R. cbn [length Nat.eqb andb negb combine fold_left] in R. unfold cap_step in R. repeat match type of R with context [Reqb ?a ?b] => destruct (Reqb_spec a b); [lra |] end. destruct (Rltb_spec 0 0); [lra |]. repeat match type of R with context [Reqb ?a ?b] => destruct (Reqb_spec a b); [lra |] end. cbn [map app] in R. injection R as R1 R2. rewrite <- R1. split; [| lra]. apply (f_equal2 cons); [lra |]. apply (f_equal2 cons); [lra |]. apply (f_equal2 cons); [lra | reflexivity].
Qed.

Lemma val_SF (x : fl) m e : B2SF x = S754_finite false m e -> val x = IZR (Zpos m) * bpow radix2 e.
Proof. intros H. destruct x as [a|a| |a n f K]; try discriminate. cbn [B2SF] in H. injection H as -> -> ->. unfold val, B2R, F2R. cbn [Fnum Fexp cond_Zopp]. reflexivity. Qed.
(** Not true in double precision: that the weights never add up to more than one.  Capacitors 1 and 4: the doubles 0.2 and 0.8 add up
    to slightly more than 1. *)
Lemma c217_total_refuted : exists cd cb cp a b c, Forall cap cd /\ Forall cap cb /\ Forall cap cp /\ fconvert_cap cd cb cp = Ok ([a; b], c) /\ 1 < val a + val b.
Proof.
  set (r := fold_left fcap_step [(fnum 1 0, fzero, fzero); (fnum 4 0, fzero, fzero)] ([], fzero)). destruct (fnum_fin 1 0) as (F1 & V1); [lia.. |]. destruct (fnum_fin 4 0) as (F4 & V4); [lia.. |].
  exists [fnum 1 0; fnum 4 0], [fzero; fzero], [fzero; fzero], (nth 0 (fst r) fzero), (nth 1 (fst r) fzero), (snd r).
  assert (Z : Forall cap [fzero; fzero]) by (repeat constructor; change (val fzero) with 0; lra).
  split; [repeat constructor; try assumption; [rewrite V1 | rewrite V4]; cbn; lra |]. split; [exact Z |]. split; [exact Z |]. split.
  - unfold fconvert_cap. cbn [length Nat.eqb andb negb combine]. fold r. pose proof (fold_length [(fnum 1 0, fzero, fzero); (fnum 4 0, fzero, fzero)] ([], fzero)) as L. fold r in L. destruct r as [[| a [| b [|]]] c]; try discriminate L. reflexivity.
  - rewrite (val_SF (nth 0 (fst r) fzero) 7205759403792794 (-55)) by (vm_compute; reflexivity). rewrite (val_SF (nth 1 (fst r) fzero) 7205759403792794 (-53)) by (vm_compute; reflexivity).
    replace (bpow radix2 (-53)) with (4 * bpow radix2 (-55)) by (change 4 with (bpow radix2 2); rewrite <- bpow_plus; reflexivity). replace 1 with (36028797018963968 * bpow radix2 (-55)) at 1; [pose proof (bpow_gt_0 radix2 (-55)); nra |]. replace 36028797018963968 with (bpow radix2 55) by (cbn; lra). rewrite <- bpow_plus. reflexivity.
Qed.
(** Not true either: that finite capacitances give a usable answer.  Two capacitors of 2^1023: the total overflows, and both weights
    are returned as zero without an error. *)
Lemma c217_overflow_refuted : exists cd cb cp a b c, Forall cap cd /\ Forall cap cb /\ Forall cap cp /\ fconvert_cap cd cb cp = Ok ([a; b], c) /\ is_finite c = false /\ (forall x, In x cd -> 0 < val x) /\ val a = 0 /\ val b = 0.
Proof.
  set (r := fold_left fcap_step [(fnum 1 1023, fzero, fzero); (fnum 1 1023, fzero, fzero)] ([], fzero)). assert (F1 : is_finite (fnum 1 1023) = true) by (vm_compute; reflexivity). assert (P1 : 0 < val (fnum 1 1023)). { rewrite (val_SF _ 4503599627370496 971) by (vm_compute; reflexivity). apply Rmult_lt_0_compat; [lra | apply bpow_gt_0]. }
  exists [fnum 1 1023; fnum 1 1023], [fzero; fzero], [fzero; fzero], (nth 0 (fst r) fzero), (nth 1 (fst r) fzero), (snd r).
  assert (Z : Forall cap [fzero; fzero]) by (repeat constructor; change (val fzero) with 0; lra).
  assert (Q : forall x : fl, B2SF x = S754_zero false -> val x = 0) by (intros x; destruct x; intros H; try discriminate; reflexivity).
  split; [repeat constructor; try assumption; lra |]. split; [exact Z |]. split; [exact Z |]. split.
  - unfold fconvert_cap. cbn [length Nat.eqb andb negb combine]. fold r. pose proof (fold_length [(fnum 1 1023, fzero, fzero); (fnum 1 1023, fzero, fzero)] ([], fzero)) as L. fold r in L. destruct r as [[| a [| b [|]]] c]; try discriminate L. reflexivity.
  - split; [vm_compute; reflexivity |]. split; [intros x [<- | [<- | []]]; exact P1 |]. split; apply Q; vm_compute; reflexivity.
Qed.
(** Arrays of different lengths are refused. *)
Lemma c217_lengths (cd cb cp : list fl) : (length cd <> length cb \/ length cb <> length cp) <-> fconvert_cap cd cb cp = Err ValueError.
Proof. unfold fconvert_cap. destruct (Nat.eqb_spec (length cd) (length cb)); destruct (Nat.eqb_spec (length cb) (length cp)); cbn [andb negb]; split; intros H; try discriminate H; try reflexivity; lia. Qed.
(** A bridge: capacitors 1, 1 with a bridge of 1 after the first bit give the weights 1/3 and 2/3, each rounded to the
    nearest double, and the total 1.5. *)
Example c217_weights_ex : match fconvert_cap [fnum 1 0; fnum 1 0] [fnum 1 0; fzero] [fzero; fzero] with Ok (w, c) => (map B2SF w, B2SF c) | Err _ => ([], S754_nan) end =
  ([S754_finite false 6004799503160661 (-54); S754_finite false 6004799503160661 (-53)], S754_finite false 6755399441055744 (-52)).
Proof. vm_compute. reflexivity. Qed.

(** The 53 bit limit of C128 is sharp.  At 54 bits the ideal weights are still exact, but the trial voltage 1/2 + 2^-54 rounds to 1/2: the input 1/2 gets the last bit set. *)
Lemma c128_limit : exists w code, fsar_ideal_weights fold_sum 54 None = Ok w /\ fsar_convert (fun _ => fzero) (fun _ _ => fzero) [fnum 1 (-1)] w [fzero; fone] fzero fzero = Ok [code] /\
  code = bits 54 (2 ^ 53 + 1) /\ Zfloor (val (fnum 1 (-1)) * 2 ^ 54) = (2 ^ 53)%Z.
Proof.
  exists (get (fsar_ideal_weights fold_sum 54 None)), (bits 54 (2 ^ 53 + 1)). split; [apply got; vm_compute; reflexivity |]. split; [vm_compute; reflexivity |]. split; [reflexivity |].
  destruct (fnum_fin 1 (-1)) as (_ & ->); [lia.. |]. replace (IZR 1 * bpow radix2 (-1) * 2 ^ 54) with (IZR (2 ^ 53)) by (cbn; lra). apply Zfloor_IZR.
Qed.
(** Nor that the size of the unit does not matter: 2^600 with a bridge of 2^600 gives an infinite total (the product overflows), 1 with a
    bridge of 1 gives 1/2. *)
Lemma c217_unit_refuted : (exists w c, fconvert_cap [fnum 1 600] [fnum 1 600] [fzero] = Ok (w, c) /\ is_finite c = false) /\ exists w c, fconvert_cap [fnum 1 0] [fnum 1 0] [fzero] = Ok (w, c) /\ val c = 1 / 2.
Proof.
  split.
  - set (r := fold_left fcap_step [(fnum 1 600, fnum 1 600, fzero)] ([], fzero)). exists (fst r), (snd r). split; [unfold fconvert_cap; cbn [length Nat.eqb andb negb combine]; fold r; destruct r; reflexivity | vm_compute; reflexivity].
  - set (r := fold_left fcap_step [(fnum 1 0, fnum 1 0, fzero)] ([], fzero)). exists (fst r), (snd r). split; [unfold fconvert_cap; cbn [length Nat.eqb andb negb combine]; fold r; destruct r; reflexivity |]. rewrite (val_SF (snd r) 4503599627370496 (-53)) by (vm_compute; reflexivity). replace (bpow radix2 (-53)) with (/ 9007199254740992) by reflexivity. lra.
Qed.
(** The bit capacitor and its parasitic are added first: 1, 2^-53 and a load of 2^-53 give a total of 1, not 1 + 2^-52. *)
Example c217_order_ex : match fconvert_cap [fnum 1 (-53); fnum 1 0] [fzero; fzero] [fzero; fnum 1 (-53)] with Ok (_, c) => B2SF c | Err _ => S754_nan end = S754_finite false 4503599627370496 (-52).
Proof. vm_compute. reflexivity. Qed.
