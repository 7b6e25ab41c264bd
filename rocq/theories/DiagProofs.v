(** * Fit diagnostics: final lemmas c220_. *)
From Coq Require Import Lia Lra String Psatz.
From Verif Require Import Base BaseLemmas Cplx SpecModel TiModel CalModel FitModel CalExLemmas FitProofs DiagModel.
Local Open Scope list_scope.
Local Open Scope R_scope.

(** The nine entries, in this order, with the values of the fit; no array among them. *)
Lemma c220_entries r : extract_fit_diagnostics (fit_dict r) =
  Some [("frequency", VReal (f_frequency r)); ("amplitude", VReal (f_amplitude r)); ("phase", VReal (f_phase r)); ("dc_offset", VReal (f_dc r)); ("rmse", VExt (f_rmse r));
        ("converged", VFlag (f_converged r)); ("n_iterations", VCount (f_iterations r)); ("initial_frequency", VReal (f_initial r)); ("last_delta_freq", VReal (f_last_delta r))]%string.
Proof. reflexivity. Qed.
Lemma extract_get d : forall keys out, extract keys d = Some out -> map fst out = keys /\ forall k, get k out = if existsb (String.eqb k) keys then get k d else None.
Proof.
  induction keys as [| k0 keys IH]; intros out E; cbn [extract] in E; [injection E as <-; split; reflexivity |].
  destruct (get k0 d) as [v |] eqn:G; [| discriminate]. destruct (extract keys d) as [l |] eqn:X; [| discriminate]. injection E as <-. destruct (IH l eq_refl) as (M & H). split; [cbn [map fst]; rewrite M; reflexivity |].
  intros k. cbn [get existsb]. rewrite (String.eqb_sym k k0). destruct (String.eqb_spec k0 k) as [<- | N]; cbn [orb]; [symmetry; exact G | apply H].
Qed.
Lemma extract_none d : forall keys, extract keys d = None <-> exists k, In k keys /\ get k d = None.
Proof.
  induction keys as [| k0 keys IH]; cbn [extract]; [split; [discriminate | intros (k & [] & _)] |].
  destruct (get k0 d) as [v |] eqn:G; [| split; [intros _; exists k0; split; [left; reflexivity | exact G] | reflexivity]].
  destruct (extract keys d) as [l |] eqn:X.
  - split; [discriminate |]. intros (k & [<- | K] & E); [congruence |]. destruct IH as (_ & IH). discriminate IH. exists k. split; assumption.
  - split; [| reflexivity]. intros _. destruct (proj1 IH eq_refl) as (k & K & E). exists k. split; [right; exact K | exact E].
Qed.
(** Any dictionary: the nine keys are copied and nothing else; the call fails exactly when one of them is missing. *)
Lemma c220_copies d : let nine := ["frequency"; "amplitude"; "phase"; "dc_offset"; "rmse"; "converged"; "n_iterations"; "initial_frequency"; "last_delta_freq"]%string in
  (forall out, extract_fit_diagnostics d = Some out -> map fst out = nine /\ (forall k, In k nine -> get k out = get k d) /\ (forall k, ~ In k nine -> get k out = None)) /\
  (extract_fit_diagnostics d = None <-> exists k, In k nine /\ get k d = None).
Proof.
  cbv zeta. split; [| exact (extract_none d diagnostic_keys)]. intros out E. destruct (extract_get d _ _ E) as (M & H). split; [exact M |].
  split; intros k K; rewrite H; destruct (existsb (String.eqb k) diagnostic_keys) eqn:X; try reflexivity.
  - exfalso. rewrite <- not_true_iff_false in X. apply X. apply existsb_exists. exists k. split; [exact K | apply String.eqb_refl].
  - exfalso. apply existsb_exists in X. destruct X as (k' & I & Q). apply String.eqb_eq in Q. subst k'. exact (K I).
Qed.
Lemma zero_squares n (g : nat -> R) : rsum n (fun t => g t ^ 2) = 0 <-> forall t, (t < n)%nat -> g t = 0.
Proof.
  induction n as [| n IH]; [split; [intros _ t T; lia | reflexivity] |]. cbn [rsum]. assert (P : 0 <= rsum n (fun t => g t ^ 2)) by (clear; induction n; cbn [rsum]; [lra | pose proof (pow2_ge_0 (g n)); lra]).
  pose proof (pow2_ge_0 (g n)). split.
  - intros E t T. destruct (Nat.eq_dec t n) as [-> | N]; [nra |]. apply (proj1 IH); [nra | lia].
  - intros G. rewrite (proj2 IH) by (intros t T; apply G; lia). rewrite (G n) by lia. ring.
Qed.
(** With return_fit the error is that of the reported sine, and the reported rmse is zero exactly when the signal is that sine;
    without it there are no diagnostics and the error is the same. *)
Lemma c220_report lstsq y f mi tol err d : y <> [] -> fit_and_report lstsq y f mi tol true = Ok (err, d) ->
  fit_and_report lstsq y f mi tol false = Ok (err, None) /\
  exists out nu A ph c e, d = Some out /\ get "frequency" out = Some (VReal nu) /\ get "amplitude" out = Some (VReal A) /\ get "phase" out = Some (VReal ph) /\ get "dc_offset" out = Some (VReal c) /\ get "rmse" out = Some (VExt (Fin e)) /\
    (forall t, (t < length y)%nat -> nth t err 0 = nth t y 0 - (c + A * cos (2 * PI * nu * INR t + ph))) /\ 0 <= A /\ - PI < ph <= PI /\
    (e = 0 <-> forall t, (t < length y)%nat -> nth t y 0 = c + A * cos (2 * PI * nu * INR t + ph)).
Proof.
  intros Y. unfold fit_and_report. destruct (fit_core lstsq y f mi tol) as [r | x] eqn:E; cbn [bind]; [| discriminate]. intros H. injection H as <- <-. split; [reflexivity |].
  destruct (c52_parameters _ _ _ _ _ _ E) as (LF & LR & P & A0 & PH & RM). specialize (RM Y). rewrite c220_entries.
  eexists. exists (f_frequency r), (f_amplitude r), (f_phase r), (f_dc r). eexists. split; [reflexivity |]. split; [reflexivity |]. split; [reflexivity |]. split; [reflexivity |]. split; [reflexivity |]. split; [cbn [get String.eqb]; rewrite RM; reflexivity |].
  split. { intros t T. rewrite (map2_nth Rminus y (f_fitted r) t 0 0 0) by lia. destruct (P t T) as (-> & _). reflexivity. }
  split; [exact A0 |]. split; [exact PH |].
  assert (N : 0 < INR (length y)) by (apply lt_0_INR; destruct y; [contradiction | cbn; lia]).
  assert (S0 : 0 <= rsum (length y) (fun t => nth t (f_residuals r) 0 ^ 2)) by (generalize (length y); intros n; induction n; cbn [rsum]; [lra | pose proof (pow2_ge_0 (nth n (f_residuals r) 0)); lra]).
  split.
  - intros Z t T. apply sqrt_eq_0 in Z; [| apply Rle_mult_inv_pos; assumption]. assert (Z' : rsum (length y) (fun t => nth t (f_residuals r) 0 ^ 2) = 0) by (apply (Rmult_eq_reg_r (/ INR (length y))); [unfold Rdiv in Z; lra | apply Rinv_neq_0_compat; lra]).
    pose proof (proj1 (zero_squares _ _) Z' t T) as R0. cbv beta in R0. destruct (P t T) as (F1 & F2). lra.
  - intros G. rewrite (proj2 (zero_squares (length y) (fun t => nth t (f_residuals r) 0))); [unfold Rdiv; rewrite Rmult_0_l; apply sqrt_0 |]. intros t T. destruct (P t T) as (F1 & F2). rewrite F2, F1, (G t T). ring.
Qed.
(** What the flag tells: with refinement allowed it is set exactly when the last step was below the tolerance, and otherwise every allowed
    step was taken. *)
Lemma c220_flag lstsq y f mi tol err out : (0 < mi)%Z -> fit_and_report lstsq y f mi tol true = Ok (err, Some out) -> exists b n dl,
  get "converged" out = Some (VFlag b) /\ get "n_iterations" out = Some (VCount n) /\ get "last_delta_freq" out = Some (VReal dl) /\
  (b = true <-> Rabs dl < tol) /\ (b = false -> Z.of_nat n = mi) /\ (1 <= Z.of_nat n <= mi)%Z /\
  match f with Some x => get "initial_frequency" out = Some (VReal x) | None => True end.
Proof.
  intros M. unfold fit_and_report. destruct (fit_core lstsq y f mi tol) as [r | x] eqn:E; cbn [bind]; [| discriminate]. rewrite c220_entries. intros H. injection H as <- <-.
  destruct (c52_iterations lstsq y f mi tol r ltac:(lia) E) as (I1 & I2 & _ & _ & I5 & I6 & I7). exists (f_converged r), (f_iterations r), (f_last_delta r). split; [reflexivity |]. split; [reflexivity |]. split; [reflexivity |].
  split. { rewrite I5. split; [intros [Z | Z]; [lia | exact Z] | intros Z; right; exact Z]. } split; [exact I6 |]. split. { split; [| exact I1]. destruct (f_iterations r); [| lia]. pose proof (proj1 I2 eq_refl). lia. }
  destruct f; [cbn [get String.eqb]; rewrite <- I7; reflexivity | exact I].
Qed.
(** Without refinement the flag is always set, no step is counted and the frequency is the initial one. *)
Lemma c220_unrefined lstsq y f tol err out : fit_and_report lstsq y f 0 tol true = Ok (err, Some out) ->
  get "converged" out = Some (VFlag true) /\ get "n_iterations" out = Some (VCount 0) /\ get "frequency" out = get "initial_frequency" out.
Proof.
  unfold fit_and_report. destruct (fit_core lstsq y f 0 tol) as [r | x] eqn:E; cbn [bind]; [| discriminate]. rewrite c220_entries. intros H. injection H as <- <-.
  destruct (c52_iterations lstsq y f 0 tol r ltac:(lia) E) as (I1 & I2 & I3 & _ & I5 & _). cbn [get String.eqb Ascii.eqb Bool.eqb].
  rewrite (proj2 I5 (or_introl eq_refl)), (proj2 I2 eq_refl), (I3 (proj2 I2 eq_refl)). repeat split; reflexivity.
Qed.
(** A fit without refinement is reported as converged whatever it is like: here the fitted sine misses every sample by a quarter. *)
Lemma c220_converged_refuted : exists y err out, fit_and_report gs_lstsq y (Some (1 / 4)) 0 1 true = Ok (err, Some out) /\ get "converged" out = Some (VFlag true) /\ get "n_iterations" out = Some (VCount 0) /\ y = [1; 0; 0; 0] /\ err = [1 / 4; - (1 / 4); 1 / 4; - (1 / 4)].
Proof.
  destruct c82_impulse_ex as (r & E & D & A & RS). exists [1; 0; 0; 0]. unfold fit_and_report. rewrite E. cbn [bind]. rewrite c220_entries. eexists. eexists. split; [reflexivity |].
  destruct (c52_iterations gs_lstsq [1; 0; 0; 0] (Some (1 / 4)) 0 1 r ltac:(lia) E) as (I1 & I2 & _ & _ & I5 & _). cbn [get String.eqb Ascii.eqb Bool.eqb].
  split; [rewrite (proj2 I5 (or_introl eq_refl)); reflexivity |]. split; [rewrite (proj2 I2 eq_refl); reflexivity |]. split; [reflexivity |]. rewrite <- RS.
  destruct (c52_parameters _ _ _ _ _ _ E) as (LF & LR & P & _). apply (nth_ext _ _ 0 0); [rewrite map2_length by (symmetry; exact LF); symmetry; exact LR |]. intros t T. rewrite map2_length in T by (symmetry; exact LF).
  rewrite (map2_nth Rminus _ _ t 0 0 0) by (rewrite ?LF; (exact T || reflexivity)). destruct (P t T) as (_ & ->). reflexivity.
Qed.
(** The same fit: the reported offset is a quarter, the amplitude a half. *)
Example c220_report_ex : exists err out, fit_and_report gs_lstsq [1; 0; 0; 0] (Some (1 / 4)) 0 1 true = Ok (err, Some out) /\ get "dc_offset" out = Some (VReal (1 / 4)) /\ get "amplitude" out = Some (VReal (1 / 2)) /\ get "residuals" out = None.
Proof.
  destruct c82_impulse_ex as (r & E & D & A & RS). unfold fit_and_report. rewrite E. cbn [bind]. rewrite c220_entries. eexists. eexists. split; [reflexivity |]. cbn [get String.eqb Ascii.eqb Bool.eqb]. rewrite D, A. repeat split; reflexivity.
Qed.
Example c220_copies_ex : extract_fit_diagnostics [("frequency", VReal 1); ("amplitude", VReal 2)]%string = None.
Proof. reflexivity. Qed.
