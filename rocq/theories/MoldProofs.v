(** * Old argument lists: final lemmas c212_ to c215_. *)
From Coq Require Import Lia Lra Psatz Ascii String.
From Verif Require Import Base BaseLemmas Cplx FreqModel UnitsModel SpecModel SpecSpec SpecLemmas TiModel TiSpec CalModel CalSpec CalProofs FitModel HarmModel MatModel CohModel MsinModel MspecModel PlotModel PlotSpec EnvModel EnvSpec EnvProofs MphaseModel MphaseSpec MphaseProofs MoldModel.
Local Open Scope R_scope.
Local Open Scope list_scope.

(** ** plotspec.m *)
(** An option with two names: the new one if given, then the old one, then the default. *)
Definition chosen {A} (new old : option A) (dflt : A) : A := match new with Some v => v | None => match old with Some v => v | None => dflt end end.
Definition avg_coherent (v : avg_arg) : bool := match v with AvgNormal => false | AvgCoherent => true | AvgNum z => negb (z =? 0)%Z end.
(** The new name of every option has priority over the old one, unless it is given the default text. *)
Lemma c212_priority a o : read_options a = Ok o -> g_averageMode a <> Some AvgNormal -> g_window a <> Some MHann ->
  so_coherent o = chosen (option_map avg_coherent (g_averageMode a)) (option_map (fun z => negb (z =? 0)%Z) (g_coAvg a)) false /\
  so_fullscale o = chosen (option_map Some (g_maxSignal a)) (option_map Some (g_maxCode a)) None /\ so_window o = chosen (g_window a) (g_winType a) MHann /\
  so_plot o = chosen (g_disp a) (g_isPlot a) true /\ so_cutoff o = chosen (g_cutoff a) (g_noFlicker a) 0.
Proof.
  unfold read_options. destruct (bad_args a); [discriminate |]. intros E NA NW. injection E as <-. cbn [so_coherent so_fullscale so_window so_plot so_cutoff]. destruct a as [av co ms mc wi wt di ip cu nf me]; cbn in *.
  split; [destruct av as [[] |]; try congruence; destruct co; reflexivity |]. split; [destruct ms, mc; reflexivity |]. split; [destruct wi as [[] |]; try congruence; destruct wt; reflexivity |]. split; [destruct di, ip; reflexivity | destruct cu, nf; reflexivity].
Qed.
(** Full scale, plot switch and cutoff: always. *)
Lemma c212_always a o : read_options a = Ok o ->
  so_fullscale o = chosen (option_map Some (g_maxSignal a)) (option_map Some (g_maxCode a)) None /\ so_plot o = chosen (g_disp a) (g_isPlot a) true /\ so_cutoff o = chosen (g_cutoff a) (g_noFlicker a) 0 /\
  so_nfmethod o = match g_NFMethod a with Some NfMedian => 1 | Some NfMean => 2 | Some NfExclude => 3 | Some (NfNum z) => z | _ => 0 end%Z /\ (0 <= so_nfmethod o <= 3)%Z.
Proof.
  unfold read_options. destruct (bad_args a) eqn:B; [discriminate |]. intros E. injection E as <-. cbn [so_fullscale so_plot so_cutoff so_nfmethod]. unfold bad_args in B. destruct a as [av co ms mc wi wt di ip cu nf me]; cbn [g_averageMode g_coAvg g_maxSignal g_maxCode g_window g_winType g_disp g_isPlot g_cutoff g_noFlicker g_NFMethod] in *. apply orb_false_elim in B. destruct B as (_ & B).
  split; [destruct ms, mc; reflexivity |]. split; [destruct di, ip; reflexivity |]. split; [destruct cu, nf; reflexivity |]. split; [destruct me as [[] |]; reflexivity |]. destruct me as [[] |]; lia.
Qed.
(** The default text under the new name does not overrule the old name. *)
Lemma c212_hann_refuted : exists a o, read_options a = Ok o /\ g_window a = Some MHann /\ g_averageMode a = Some AvgNormal /\ so_window o = MRect /\ so_coherent o = true.
Proof. exists (mkArgs (Some AvgNormal) (Some 1%Z) None None (Some MHann) (Some MRect) None None None None None). eexists. repeat split. Qed.
(** An old script means the same as the new one with the names exchanged. *)
Lemma c212_old_names co mc wt ip nf me : read_options (mkArgs None co None mc None wt None ip None nf me) = read_options (mkArgs (option_map AvgNum co) None mc None wt None ip None nf None me).
Proof.
  unfold read_options. assert (B : bad_args (mkArgs None co None mc None wt None ip None nf me) = bad_args (mkArgs (option_map AvgNum co) None mc None wt None ip None nf None me)). { unfold bad_args. cbn. destruct co; cbn; rewrite ?orb_false_r; reflexivity. } rewrite B. clear B. destruct (bad_args (mkArgs (option_map AvgNum co) None mc None wt None ip None nf None me)); [reflexivity |]. cbn [raise_if]. f_equal. cbn. f_equal; [destruct co; reflexivity | destruct mc; reflexivity | destruct wt as [[] |]; reflexivity].
Qed.
(** Refused: a number that is not above 0, a switch other than 0 and 1, a method beyond 3; nothing else. *)
Lemma c212_rejects a : read_options a = Err RuntimeError <->
  (exists v, v <= 0 /\ (g_maxSignal a = Some v \/ g_maxCode a = Some v \/ g_cutoff a = Some v \/ g_noFlicker a = Some v)) \/
  (exists z, z <> 0%Z /\ z <> 1%Z /\ (g_coAvg a = Some z \/ g_averageMode a = Some (AvgNum z))) \/ (exists z, (z < 0 \/ 3 < z)%Z /\ g_NFMethod a = Some (NfNum z)).
Proof.
  assert (P : forall o, not_pos o = true <-> exists v, v <= 0 /\ o = Some v). { intros [v |]; cbn; [| split; [discriminate | intros (v & _ & X); discriminate]]. destruct (Rleb_spec v 0); split; intros HH; try discriminate; try reflexivity; [exists v; auto |]. destruct HH as (w & W & X). injection X as <-. lra. }
  assert (N : forall z, not_01 z = true <-> z <> 0%Z /\ z <> 1%Z). { intros z. unfold not_01. rewrite negb_true_iff, orb_false_iff, !Z.eqb_neq. tauto. }
  assert (E : read_options a = Err RuntimeError <-> bad_args a = true) by (unfold read_options; destruct (bad_args a); cbn [raise_if]; split; congruence). rewrite E. unfold bad_args. rewrite !orb_true_iff, !P. split.
  - intros [[[[[[H | H] | H] | H] | H] | H] | H].
    + destruct H as (v & V & X). left. exists v. auto.
    + destruct H as (v & V & X). left. exists v. auto.
    + destruct H as (v & V & X). left. exists v. auto.
    + destruct H as (v & V & X). left. exists v. auto.
    + right. left. destruct (g_coAvg a) as [z |]; [| discriminate]. apply N in H. exists z. tauto.
    + right. left. destruct (g_averageMode a) as [[| | z] |]; try discriminate. apply N in H. exists z. tauto.
    + right. right. destruct (g_NFMethod a) as [[| | | | z] |]; try discriminate. exists z. rewrite orb_true_iff, !Z.ltb_lt in H. auto.
  - intros [(v & V & [X | [X | [X | X]]]) | [(z & Z0 & Z1 & [X | X]) | (z & Z0 & X)]].
    + do 6 left. exists v. auto.
    + do 5 left. right. exists v. auto.
    + do 4 left. right. exists v. auto.
    + do 3 left. right. exists v. auto.
    + do 2 left. right. rewrite X. apply N. auto.
    + left. right. rewrite X. apply N. auto.
    + right. rewrite X, orb_true_iff, !Z.ltb_lt. auto.
Qed.
(** winType 'rect' and noFlicker 2 next to window 'hann' left out and cutoff 3. *)
Example c212_priority_ex : exists o, read_options (mkArgs (Some (AvgNum 0)) (Some 1%Z) None (Some 4) None (Some MRect) (Some false) (Some true) (Some 3) (Some 2) (Some NfMean)) = Ok o /\ o = mkSopts false (Some 4) MRect false 3 2.
Proof.
  eexists. split; [| reflexivity]. unfold read_options, bad_args. cbn. destruct (Rleb_spec 4 0); [lra |]. destruct (Rleb_spec 3 0); [lra |]. destruct (Rleb_spec 2 0); [lra |]. reflexivity.
Qed.
Example c212_rejects_ex : read_options (mkArgs None (Some 2%Z) None None None None None None None None None) = Err RuntimeError.
Proof. apply c212_rejects. right. left. exists 2%Z. repeat split; try lia. left. reflexivity. Qed.

(** ** legacy/errHistSine.m *)
Lemma lower_hits c x : lower_char c = x -> In x ["m"; "o"; "d"; "e"]%char -> c = x \/ c = ascii_of_nat (nat_of_ascii x - 32).
Proof. intros E I. destruct I as [<- | [<- | [<- | [<- | []]]]]; destruct c as [[] [] [] [] [] [] [] []]; vm_compute in E; try discriminate E; first [left; reflexivity | right; reflexivity]. Qed.
(** Exactly the sixteen spellings of the word are taken for it. *)
Lemma c213_spelling s : is_mode (Chars s) = true <-> exists a b c d, (a = "m" \/ a = "M")%char /\ (b = "o" \/ b = "O")%char /\ (c = "d" \/ c = "D")%char /\ (d = "e" \/ d = "E")%char /\ s = String a (String b (String c (String d EmptyString))).
Proof.
  cbn. split.
  - intros E. apply String.eqb_eq in E. destruct s as [| a [| b [| c [| d [| x s]]]]]; try discriminate E. cbn [lower_text] in E. injection E as A B C D. exists a, b, c, d. apply lower_hits in A; [| cbn; auto]. apply lower_hits in B; [| cbn; auto]. apply lower_hits in C; [| cbn; auto]. apply lower_hits in D; [| cbn; auto]. repeat split; assumption.
  - intros (a & b & c & d & [-> | ->] & [-> | ->] & [-> | ->] & [-> | ->] & ->); reflexivity.
Qed.
(** A list of names and values. *)
Definition flat (ps : list (marg * marg)) : list marg := flat_map (fun p => [fst p; snd p]) ps.
Definition new_pair (p : marg * marg) : marg * marg := if is_mode (fst p) then (Chars "xaxis", Chars (match snd p with Num r => if Req_EM_T r 0 then "phase" else "value" | _ => "value" end)) else p.
Lemma new_args_plain l r : Forall (fun a => is_mode a = false) l -> new_args (l ++ r) = bind (new_args r) (fun x => Ok (l ++ x)).
Proof.
  induction 1 as [| a l A F IH]; cbn [app new_args]; [destruct (new_args r); reflexivity |]. rewrite A, IH. destruct (new_args r); reflexivity.
Qed.
Lemma new_args_pairs ps r : Forall (fun p => is_mode (snd p) = false) ps -> new_args (flat ps ++ r) = bind (new_args r) (fun x => Ok (flat (map new_pair ps) ++ x)).
Proof.
  induction 1 as [| [n v] ps V F IH]; cbn [flat flat_map app map]; [destruct (new_args r); reflexivity |]. cbn [fst snd] in V. assert (PE : new_pair (n, v) = if is_mode n then (Chars "xaxis", Chars (match v with Num r => if Req_EM_T r 0 then "phase" else "value" | _ => "value" end)) else (n, v)) by reflexivity. rewrite PE. clear PE. cbn [new_args]. destruct (is_mode n) eqn:M; fold (flat ps); fold (flat (map new_pair ps)); cbn [app fst snd].
  - assert (Q : (if zero_arg v then "phase" else "value")%string = match v with Num q => if Req_EM_T q 0 then "phase" else "value" | _ => "value" end%string) by (destruct v as [s | q | j]; cbn; [reflexivity | destruct (Reqb_spec q 0), (Req_EM_T q 0); congruence || reflexivity | reflexivity]). cbn [new_args]; rewrite ?M, IH, Q. destruct (new_args r); reflexivity.
  - cbn [new_args]. rewrite ?M, V, IH. destruct (new_args r); reflexivity.
Qed.
(** Every pair is translated by itself, and numbers in front stay in front. *)
Lemma c213_pairs l ps : Forall (fun a => is_mode a = false) l -> Forall (fun p => is_mode (snd p) = false) ps -> new_args (l ++ flat ps) = Ok (l ++ flat (map new_pair ps)).
Proof. intros L P. rewrite new_args_plain by exact L. rewrite <- (app_nil_r (flat ps)), new_args_pairs by exact P. cbn. rewrite app_nil_r. reflexivity. Qed.
(** A mode without a value is an error. *)
Lemma c213_missing l ps s : Forall (fun a => is_mode a = false) l -> Forall (fun p => is_mode (snd p) = false) ps -> is_mode (Chars s) = true -> new_args (l ++ flat ps ++ [Chars s]) = Err RuntimeError.
Proof. intros L P S. rewrite new_args_plain by exact L. rewrite new_args_pairs by exact P. cbn [new_args]. rewrite S. reflexivity. Qed.
Lemma new_args_inv n : forall l r, (length l <= n)%nat -> new_args l = Ok r -> length r = length l /\ (Forall (fun a => is_mode a = false) r).
Proof.
  induction n as [| n IH]; intros l r L E; destruct l as [| a l]; cbn [length] in *; try lia; [injection E as <-; split; [reflexivity | constructor].. |]. cbn [new_args] in E. destruct (is_mode a) eqn:M.
  - destruct l as [| v l]; [discriminate |]. destruct (new_args l) as [q |] eqn:Q; [| discriminate]. injection E as <-. cbn [length] in *. destruct (IH l q ltac:(lia) Q) as (A & B). split; [cbn; lia |]. constructor; [reflexivity |]. constructor; [destruct (zero_arg v); reflexivity | exact B].
  - destruct (new_args l) as [q |] eqn:Q; [| discriminate]. injection E as <-. destruct (IH l q ltac:(lia) Q) as (A & B). split; [cbn; lia |]. constructor; assumption.
Qed.
(** The new list is as long as the old one, and no mode is left in it. *)
Lemma c213_length l r : new_args l = Ok r -> length r = length l /\ forall a, In a r -> is_mode a = false.
Proof. intros E. destruct (new_args_inv (length l) l r (le_n _) E) as (A & B). split; [exact A | apply Forall_forall; exact B]. Qed.
Example c213_pairs_ex : new_args [Num 50; Chars "Mode"; Num 0; Chars "erange"; Other 1] = Ok [Num 50; Chars "xaxis"; Chars "phase"; Chars "erange"; Other 1] /\ new_args [Chars "MODE"; Num 2] = Ok [Chars "xaxis"; Chars "value"] /\ new_args [Num 50; Chars "mode"] = Err RuntimeError.
Proof. cbn. destruct (Reqb_spec 0 0); [| lra]. destruct (Reqb_spec 2 0); [lra |]. repeat split; reflexivity. Qed.

(** ** legacy/specPlotPhase.m *)
(** Without a cutoff the sampling rate has no part in the figure. *)
Lemma c214_rate sig H ms fs osr w : 0 < fs -> m_plotphase_fft sig H ms fs osr 0 w = m_plotphase_fft sig H ms 1 osr 0 w.
Proof.
  intros F. unfold m_plotphase_fft. assert (B : p_bad ms fs osr 0 = p_bad ms 1 osr 0) by (unfold p_bad; destruct (Rleb_spec fs 0); [lra |]; destruct (Rleb_spec 1 0); [lra |]; reflexivity). rewrite B. assert (C : forall N S, p_cut 0 fs N S = p_cut 0 1 N S) by (intros; unfold p_cut; destruct (Rltb_spec 0 0); [lra | reflexivity]). destruct (p_bad ms 1 osr 0); [reflexivity |]. cbn [raise_if]. cbv zeta. rewrite C. reflexivity.
Qed.
Lemma floor_INR n : Z.to_nat (Zfloor (INR n)) = n.
Proof. rewrite INR_IZR_INZ, Zfloor_IZR. apply Nat2Z.id. Qed.
(** The first number is how many harmonics are marked, the second is the full scale, a third is refused. *)
Lemma c214_numbers sig n fs osr cutoff w : (forall g, m_specPlotPhase sig [INR n] fs osr cutoff w = Ok g -> map fst (px_harmonics g) = seq 2 (n - 1)) /\
  (forall v, 0 < v -> m_specPlotPhase sig [INR n; v] fs osr cutoff w = m_plotphase_fft sig n (Some v) fs osr cutoff w) /\ (forall v, v <= 0 -> m_specPlotPhase sig [INR n; v] fs osr cutoff w = Err RuntimeError) /\
  m_specPlotPhase sig [] fs osr cutoff w = m_specPlotPhase sig [INR 5] fs osr cutoff w /\ forall v x l, m_specPlotPhase sig (INR n :: v :: x :: l) fs osr cutoff w = Err RuntimeError.
Proof.
  split. { intros g E. cbn [m_specPlotPhase] in E. rewrite floor_INR in E. pose proof (c191_reading _ _ _ _ _ _ _ _ E) as RD. cbv zeta in RD. destruct RD as (_ & _ & _ & _ & MF & _). exact MF. }
  split; [intros v V; cbn [m_specPlotPhase]; rewrite floor_INR; reflexivity |]. split. { intros v V. cbn [m_specPlotPhase]. unfold m_plotphase_fft, p_bad. destruct (Rleb_spec v 0); [reflexivity | lra]. } split; [| reflexivity]. cbn [m_specPlotPhase]. rewrite floor_INR. reflexivity.
Qed.
(** The call of the documentation, record length first, fails for every tone in an odd bin: as many harmonics as samples include bin N/2. *)
Lemma c214_documented_refuted M k H A c ph : (0 < k)%nat -> (k + 2 <= M)%nat -> Nat.odd k = true -> (0 < H)%nat -> 0 < A -> let N := (2 * M)%nat in -100 < level_db (2 * A / INR H) ->
  m_specPlotPhase [map (fun n => c + A * cos (2 * PI * INR k * INR n / INR N + ph)) (seq 0 N)] [INR N; INR H] 1 1 0 MRect = Err RuntimeError.
Proof.
  intros K KM OD HP AP N LV. cbn [m_specPlotPhase]. rewrite floor_INR. destruct (c191_tone M k N (INR H) 1 A c ph K KM ltac:(apply lt_0_INR; exact HP) ltac:(lra) AP LV) as (_ & T). apply T. exists M. split; [unfold N; lia |]. fold N. apply Nat.odd_spec in OD. destruct OD as (j & ->). replace (M * (2 * j + 1))%nat with (M + j * N)%nat by (unfold N; lia). rewrite Nat.mod_add by (unfold N; lia). apply Nat.mod_small. unfold N. lia.
Qed.
Lemma tone8_scale : m_full_scale [tone8] = 2.
Proof.
  assert (B : forall x, In x tone8 -> -1 <= x <= 1). { intros x X. unfold tone8 in X. apply in_map_iff in X. destruct X as (n & <- & _). pose proof (COS_bound (2 * PI * INR 1 * INR n / INR (2 * 4) + 0)). lra. }
  assert (T : In 1 tone8) by (unfold tone8; apply in_map_iff; exists 0%nat; split; [replace (2 * PI * INR 1 * INR 0 / INR (2 * 4) + 0) with 0 by (cbn; field); rewrite cos_0; ring | apply in_seq; lia]).
  assert (L : In (-1) tone8) by (unfold tone8; apply in_map_iff; exists 4%nat; split; [replace (2 * PI * INR 1 * INR 4 / INR (2 * 4) + 0) with PI by (cbn; field); rewrite cos_PI; ring | apply in_seq; lia]).
  unfold m_full_scale. cbn [concat]. rewrite app_nil_r. destruct tone8 as [| x l]; [destruct T |]. pose proof (lmax1_in x l) as I1. pose proof (lmin1_in x l) as I2. assert (G1 : 1 <= lmax1 x l) by (destruct T as [-> | T]; [apply lmax1_ge_init | apply lmax1_ge; exact T]). assert (G2 : lmin1 x l <= -1) by (destruct L as [-> | L]; [apply lmin1_le_init | apply lmin1_le; exact L]). apply B in I1, I2. lra.
Qed.
(** With eight samples and three harmonics: documented, a figure with two marks; in fact, an error. *)
Example c214_documented_ex : (exists g, m_plotphase_fft [tone8] 3 None 8 1 0 MRect = Ok g /\ map fst (px_harmonics g) = [2; 3]%nat) /\ m_specPlotPhase [tone8] [INR 8; INR 3] 1 1 0 MRect = Err RuntimeError.
Proof.
  split.
  - destruct c191_tone_ex as (g & E & _). exists g. assert (EN : m_plotphase_fft [tone8] 3 None 1 1 0 MRect = Ok g). { rewrite <- E. unfold m_plotphase_fft, p_scale. rewrite tone8_scale. replace (p_bad None 1 1 0) with (p_bad (Some 2) 1 1 0); [reflexivity |]. unfold p_bad. destruct (Rleb_spec 2 0); [lra | reflexivity]. } rewrite c214_rate by lra. split; [exact EN |]. pose proof (c191_reading _ _ _ _ _ _ _ _ E) as RD. cbv zeta in RD. destruct RD as (_ & _ & _ & _ & MF & _). exact MF.
  - apply (c214_documented_refuted 4 1 3 1 0 0); try lia; try lra; [reflexivity |]. unfold level_db. replace (INR 3) with 3 by (cbn; lra). assert (ln (1 / 10) < ln (2 * 1 / 3)) by (apply ln_increasing; lra). assert (P10 : 0 < ln 10) by (rewrite <- ln_1; apply ln_increasing; lra). replace (ln (1 / 10)) with (- ln 10) in H by (unfold Rdiv; rewrite Rmult_1_l, ln_Rinv by lra; reflexivity). assert (-1 < ln (2 * 1 / 3) / ln 10); [| lra]. apply Rmult_lt_reg_r with (ln 10); [exact P10 |]. unfold Rdiv. rewrite Rmult_assoc, Rinv_l by lra. lra.
Qed.

(** ** dumped/errevspec.m, legacy/tomDecomp.m *)
Lemma column_row (l : list R) : l <> [] -> m_orient (map (fun v => [v]) l) = [l].
Proof.
  intros NE. unfold m_orient. assert (NC : ncols (map (fun v => [v]) l) = 1%nat) by (destruct l; [congruence | reflexivity]). rewrite NC, map_length. destruct l as [| x [| y l]]; [congruence | reflexivity |]. change ((1 =? 1)%nat && (1 <? length (x :: y :: l))%nat) with true. unfold TiModel.transpose. cbn [seq map]. rewrite map_map. f_equal. cbn. f_equal. f_equal. rewrite <- (map_id l) at 2. apply map_ext. reflexivity.
Qed.
Lemma column_scale (l : list R) : m_full_scale (map (fun v => [v]) l) = m_full_scale [l].
Proof. unfold m_full_scale. replace (concat (map (fun v => [v]) l)) with l; [cbn; rewrite app_nil_r; reflexivity |]. induction l as [| x l IH]; [reflexivity |]. cbn. rewrite <- IH. reflexivity. Qed.
(** What is returned are plotspec's numbers for the envelope as one run, full scale its range. *)
Lemma c215_outputs e fs env : 0 < fs -> envelope e = Ok env -> m_full_scale [env] <> 0 -> m_errevspec e fs = bind (m_plotspec [env] fs (Some (m_full_scale [env])) false MHann None 1 5 5 0 None 0) (fun o => Ok (option_map (fun r => mkOld (ms_enob r) (ms_sndr r) (ms_sfdr r) (ms_snr r) (ms_thd r) (ms_sigpwr r) (ms_floor r)) o)).
Proof.
  intros F E NZ. unfold m_errevspec. destruct (Rleb_spec fs 0); [lra |]. cbn [raise_if]. rewrite E. cbv zeta. rewrite column_scale. destruct (Reqb_spec (m_full_scale [env]) 0); [contradiction |]. assert (NE : env <> []) by (intros ->; apply NZ; unfold m_full_scale; cbn; reflexivity). f_equal. unfold m_plotspec. rewrite column_row by exact NE. rewrite orient_single. reflexivity.
Qed.
Lemma run_scaled a fsc w r : a <> 0 -> fsc <> 0 -> m_run (a * fsc) w (map (fun v => a * v) r) = m_run fsc w r.
Proof. intros A F. unfold m_run. rewrite map_map. rewrite (map_ext (fun x => a * x / (a * fsc)) (fun x => x / fsc)) by (intros x; field; auto). reflexivity. Qed.
Lemma silent_scaled a r : a <> 0 -> m_silent (map (fun v => a * v) r) = m_silent r.
Proof. intros A. unfold m_silent. induction r as [| x r IH]; cbn; [reflexivity |]. rewrite IH. f_equal. destruct (Reqb_spec (a * x) 0) as [Z | Z], (Reqb_spec x 0) as [X | X]; try reflexivity; [apply Rmult_integral in Z; destruct Z; contradiction | exfalso; apply Z; rewrite X; ring]. Qed.
(** Gain and sign of the errors change nothing. *)
Lemma c215_gain e fs c : c <> 0 -> m_errevspec (map (fun v => c * v) e) fs = m_errevspec e fs.
Proof.
  intros C. unfold m_errevspec. destruct (Rleb fs 0); [reflexivity |]. cbn [raise_if]. destruct (envelope e) as [env | x] eqn:E.
  - rewrite (c118_gain e c env E). cbv zeta. assert (A : 0 < Rabs c) by (apply Rabs_pos_lt; exact C). rewrite !column_scale. assert (S : m_full_scale [map (fun v => Rabs c * v) env] = Rabs c * m_full_scale [env]). { rewrite <- (full_scale_affine (Rabs c) 0 env A). do 2 f_equal. apply map_ext. intros v. ring. } rewrite S. destruct (Reqb_spec (m_full_scale [env]) 0) as [Z | NZ]; [rewrite Z, Rmult_0_r; destruct (Reqb_spec 0 0); [reflexivity | lra] |]. destruct (Reqb_spec (Rabs c * m_full_scale [env]) 0) as [Z | _]; [apply Rmult_integral in Z; destruct Z; lra |]. f_equal. assert (NE : env <> []) by (intros ->; apply NZ; reflexivity). assert (NE' : map (fun v => Rabs c * v) env <> []) by (destruct env; [congruence | discriminate]).
    unfold m_plotspec. rewrite !column_row by assumption. cbv zeta. rewrite S. change (ncols [map (fun v => Rabs c * v) env]) with (length (map (fun v => Rabs c * v) env)). change (ncols [env]) with (length env). rewrite map_length. assert (SP : forall w nb, m_spectrum false (Rabs c * m_full_scale [env]) w (length env) nb [map (fun v => Rabs c * v) env] = m_spectrum false (m_full_scale [env]) w (length env) nb [env]). { intros w nb. unfold m_spectrum, m_heard. cbn [filter]. rewrite silent_scaled by lra. destruct (negb (m_silent env)); [| reflexivity]. cbn [map]. rewrite run_scaled by (auto || lra). reflexivity. } rewrite SP. reflexivity.
  - assert (X : e = []) by (destruct e; [reflexivity | discriminate E]). subst e. reflexivity.
Qed.
(** Errors that are one steady tone have no envelope spectrum: everything is nan. *)
Lemma c215_steady N k A ph fs : (0 < k)%nat -> (2 * k < N)%nat -> 0 < fs -> m_errevspec (record N (carrier N A k ph)) fs = Ok None.
Proof.
  intros K KN F. unfold m_errevspec. destruct (Rleb_spec fs 0); [lra |]. cbn [raise_if]. destruct (nonempty_envelope (record N (carrier N A k ph))) as (env & E). { intros X. apply (f_equal (@length R)) in X. rewrite EnvProofs.record_length in X. cbn in X. lia. } rewrite E. pose proof (c118_pure_tone N k A ph env K KN E) as ->. cbv zeta. rewrite column_scale. assert (Z : m_full_scale [repeat (Rabs A) N] = 0). { unfold m_full_scale. cbn [concat]. rewrite app_nil_r. destruct N as [| n]; [lia |]. cbn [repeat]. assert (I1 := lmax1_in (Rabs A) (repeat (Rabs A) n)). assert (I2 := lmin1_in (Rabs A) (repeat (Rabs A) n)). change (Rabs A :: repeat (Rabs A) n) with (repeat (Rabs A) (S n)) in *. apply repeat_spec in I1, I2. lra. } rewrite Z. destruct (Reqb_spec 0 0); [reflexivity | lra].
Qed.
Lemma map2_nth_R f (a b : list R) i : (i < length a)%nat -> (i < length b)%nat -> nth i (map2 f a b) 0 = f (nth i a 0) (nth i b 0).
Proof. intros A B. apply map2_nth_any; assumption. Qed.
(** The record is the sum of signal, independent and dependent part; the error is the sum of the last two; the phase is always 0. *)
Lemma c215_parts lin y freq order sg er ind dep phi : m_tomDecomp lin y freq order = Ok (Some (sg, er, ind, dep, phi)) ->
  phi = 0 /\ length sg = length y /\ length er = length y /\ length ind = length y /\ length dep = length y /\ forall t, (t < length y)%nat -> nth t y 0 = nth t sg 0 + nth t ind 0 + nth t dep 0 /\ nth t er 0 = nth t ind 0 + nth t dep 0.
Proof.
  unfold m_tomDecomp. destruct (m_tomdec lin y freq _) as [[p |] |] eqn:T; cbn [bind option_map]; try discriminate. intros E. injection E as <- <- <- <- <-. unfold m_tomdec in T. apply raise_if_ok in T. destruct T as (_ & T). apply bind_ok in T. destruct T as (fr & _ & T). destruct fr as [f | | |]; try discriminate. cbv zeta in T. injection T as <-. cbn [mp_sine mp_err mp_har mp_oth].
  split; [reflexivity |]. assert (L : forall (g : nat -> R), length (map g (seq 0 (length y))) = length y) by (intros g; rewrite map_length, seq_length; reflexivity). split; [apply L |]. split; [apply map2_len; rewrite L; reflexivity |]. split; [apply map2_len; rewrite L; reflexivity |]. split; [rewrite map2_len by (rewrite !L; reflexivity); apply L |]. intros t Ht. rewrite !map2_nth_R by (rewrite ?L; exact Ht). lra.
Qed.
(** Which part is which: the dependent one consists of the harmonics, the independent one is what no harmonic explains. *)
Lemma c215_which lin y freq order p : m_tomdec lin y freq (match order with Some o => o | None => 1%Z end) = Ok (Some p) -> m_tomDecomp lin y freq order = Ok (Some (mp_sine p, mp_err p, mp_oth p, mp_har p, 0)).
Proof. intros E. unfold m_tomDecomp. rewrite E. reflexivity. Qed.
(** A cosine of one period in four samples and a constant 0: nothing is left over. *)
Example c215_steady_ex : m_errevspec (map (fun v => -3 * v) [2; 0; -2; 0]) 1 = Ok None.
Proof.
  rewrite c215_gain by lra. rewrite <- (c215_steady 4 1 2 0 1) by (lia || lra). f_equal. unfold record, carrier. cbn [seq map]. repeat f_equal.
  - replace (2 * PI * INR 1 * INR 0 / INR 4 + 0) with 0 by (cbn; field). rewrite cos_0. ring.
  - replace (2 * PI * INR 1 * INR 1 / INR 4 + 0) with (PI / 2) by (cbn; field). rewrite cos_PI2. ring.
  - replace (2 * PI * INR 1 * INR 2 / INR 4 + 0) with PI by (cbn; field). rewrite cos_PI. ring.
  - replace (2 * PI * INR 1 * INR 3 / INR 4 + 0) with (3 * (PI / 2)) by (cbn; field). rewrite cos_3PI2. ring.
Qed.
(** A solver that answers with the constant 1 alone. *)
Example c215_parts_ex : m_tomDecomp (fun _ _ j => if (j =? 0)%nat then 1 else 0) [3; 0] (Some (1 / 4)) None = Ok (Some ([1; 1], [2; -1], [2; -1], [0; 0], 0)).
Proof.
  unfold m_tomDecomp, m_tomdec. destruct (Rltb_spec (1 / 4) 0); [lra |]. destruct (Rltb_spec (1 / 2) (1 / 4)); [lra |]. cbn [orb Z.ltb Z.compare Pos.compare Pos.compare_cont raise_if]. destruct (Rleb_spec (1 / 4) 0); [lra |]. cbn. change (Pos.to_nat 1) with 1%nat. unfold mv. cbn. do 2 f_equal. repeat match goal with |- (_, _) = (_, _) => f_equal | |- _ :: _ = _ :: _ => f_equal end; try reflexivity; ring.
Qed.
(** A sampling rate that is not positive and a record without samples are errors. *)
Lemma c215_errors e fs : (fs <= 0 -> m_errevspec e fs = Err RuntimeError) /\ m_errevspec [] fs = Err RuntimeError.
Proof. unfold m_errevspec. split; [intros H; destruct (Rleb_spec fs 0); [reflexivity | lra] |]. destruct (Rleb fs 0); reflexivity. Qed.
