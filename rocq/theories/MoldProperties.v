(** * Property theorems of Mold: statements only, proofs in MoldProofs.v.
    Generated by tools/mkprops.py from the final lemmas. *)
From Coq Require Import Lia Lra Psatz Ascii String.
From Verif Require Import Base BaseLemmas Cplx FreqModel UnitsModel SpecModel SpecSpec SpecLemmas TiModel TiSpec CalModel CalSpec CalProofs FitModel HarmModel MatModel CohModel MsinModel MspecModel PlotModel PlotSpec EnvModel EnvSpec EnvProofs MphaseModel MphaseSpec MphaseProofs MoldModel.
Local Open Scope R_scope.
Local Open Scope list_scope.
From Verif Require Import MoldProofs.

(** The new name of every option has priority over the old one, unless it is given the default text. *)
Theorem C212_priority :
  forall a o,
  read_options a = Ok o -> g_averageMode a <> Some AvgNormal -> g_window a <> Some MHann ->
  so_coherent o = chosen (option_map avg_coherent (g_averageMode a)) (option_map (fun z => negb (z =? 0)%Z) (g_coAvg a)) false /\
  so_fullscale o = chosen (option_map Some (g_maxSignal a)) (option_map Some (g_maxCode a)) None /\ so_window o = chosen (g_window a) (g_winType a) MHann /\
  so_plot o = chosen (g_disp a) (g_isPlot a) true /\ so_cutoff o = chosen (g_cutoff a) (g_noFlicker a) 0.
Proof. exact c212_priority. Qed.
Print Assumptions C212_priority.

(** Full scale, plot switch and cutoff: always. *)
Theorem C212_always :
  forall a o,
  read_options a = Ok o ->
  so_fullscale o = chosen (option_map Some (g_maxSignal a)) (option_map Some (g_maxCode a)) None /\ so_plot o = chosen (g_disp a) (g_isPlot a) true /\ so_cutoff o = chosen (g_cutoff a) (g_noFlicker a) 0 /\
  so_nfmethod o = match g_NFMethod a with Some NfMedian => 1 | Some NfMean => 2 | Some NfExclude => 3 | Some (NfNum z) => z | _ => 0 end%Z /\ (0 <= so_nfmethod o <= 3)%Z.
Proof. exact c212_always. Qed.
Print Assumptions C212_always.

(** The default text under the new name does not overrule the old name. *)
Theorem C212_hann_refuted :
  exists a o, read_options a = Ok o /\ g_window a = Some MHann /\ g_averageMode a = Some AvgNormal /\ so_window o = MRect /\ so_coherent o = true.
Proof. exact c212_hann_refuted. Qed.
Print Assumptions C212_hann_refuted.

(** An old script means the same as the new one with the names exchanged. *)
Theorem C212_old_names :
  forall co mc wt ip nf me,
  read_options (mkArgs None co None mc None wt None ip None nf me) = read_options (mkArgs (option_map AvgNum co) None mc None wt None ip None nf None me).
Proof. exact c212_old_names. Qed.
Print Assumptions C212_old_names.

(** Refused: a number that is not above 0, a switch other than 0 and 1, a method beyond 3; nothing else. *)
Theorem C212_rejects :
  forall a,
  read_options a = Err RuntimeError <->
  (exists v, v <= 0 /\ (g_maxSignal a = Some v \/ g_maxCode a = Some v \/ g_cutoff a = Some v \/ g_noFlicker a = Some v)) \/
  (exists z, z <> 0%Z /\ z <> 1%Z /\ (g_coAvg a = Some z \/ g_averageMode a = Some (AvgNum z))) \/ (exists z, (z < 0 \/ 3 < z)%Z /\ g_NFMethod a = Some (NfNum z)).
Proof. exact c212_rejects. Qed.
Print Assumptions C212_rejects.

(** Exactly the sixteen spellings of the word are taken for it. *)
Theorem C213_spelling :
  forall s,
  is_mode (Chars s) = true <-> exists a b c d, (a = "m" \/ a = "M")%char /\ (b = "o" \/ b = "O")%char /\ (c = "d" \/ c = "D")%char /\ (d = "e" \/ d = "E")%char /\ s = String a (String b (String c (String d EmptyString))).
Proof. exact c213_spelling. Qed.
Print Assumptions C213_spelling.

(** Every pair is translated by itself, and numbers in front stay in front. *)
Theorem C213_pairs :
  forall l ps,
  Forall (fun a => is_mode a = false) l -> Forall (fun p => is_mode (snd p) = false) ps -> new_args (l ++ flat ps) = Ok (l ++ flat (map new_pair ps)).
Proof. exact c213_pairs. Qed.
Print Assumptions C213_pairs.

(** A mode without a value is an error. *)
Theorem C213_missing :
  forall l ps s,
  Forall (fun a => is_mode a = false) l -> Forall (fun p => is_mode (snd p) = false) ps -> is_mode (Chars s) = true -> new_args (l ++ flat ps ++ [Chars s]) = Err RuntimeError.
Proof. exact c213_missing. Qed.
Print Assumptions C213_missing.

(** The new list is as long as the old one, and no mode is left in it. *)
Theorem C213_length :
  forall l r,
  new_args l = Ok r -> length r = length l /\ forall a, In a r -> is_mode a = false.
Proof. exact c213_length. Qed.
Print Assumptions C213_length.

(** Without a cutoff the sampling rate has no part in the figure. *)
Theorem C214_rate :
  forall sig H ms fs osr w,
  0 < fs -> m_plotphase_fft sig H ms fs osr 0 w = m_plotphase_fft sig H ms 1 osr 0 w.
Proof. exact c214_rate. Qed.
Print Assumptions C214_rate.

(** The first number is how many harmonics are marked, the second is the full scale, a third is refused. *)
Theorem C214_numbers :
  forall sig n fs osr cutoff w,
  (forall g, m_specPlotPhase sig [INR n] fs osr cutoff w = Ok g -> map fst (px_harmonics g) = seq 2 (n - 1)) /\
  (forall v, 0 < v -> m_specPlotPhase sig [INR n; v] fs osr cutoff w = m_plotphase_fft sig n (Some v) fs osr cutoff w) /\ (forall v, v <= 0 -> m_specPlotPhase sig [INR n; v] fs osr cutoff w = Err RuntimeError) /\
  m_specPlotPhase sig [] fs osr cutoff w = m_specPlotPhase sig [INR 5] fs osr cutoff w /\ forall v x l, m_specPlotPhase sig (INR n :: v :: x :: l) fs osr cutoff w = Err RuntimeError.
Proof. exact c214_numbers. Qed.
Print Assumptions C214_numbers.

(** The call of the documentation, record length first, fails for every tone in an odd bin: as many harmonics as samples include bin N/2. *)
Theorem C214_documented_refuted :
  forall M k H A c ph,
  (0 < k)%nat -> (k + 2 <= M)%nat -> Nat.odd k = true -> (0 < H)%nat -> 0 < A -> let N := (2 * M)%nat in -100 < level_db (2 * A / INR H) ->
  m_specPlotPhase [map (fun n => c + A * cos (2 * PI * INR k * INR n / INR N + ph)) (seq 0 N)] [INR N; INR H] 1 1 0 MRect = Err RuntimeError.
Proof. exact c214_documented_refuted. Qed.
Print Assumptions C214_documented_refuted.

(** What is returned are plotspec's numbers for the envelope as one run, full scale its range. *)
Theorem C215_outputs :
  forall e fs env,
  0 < fs -> envelope e = Ok env -> m_full_scale [env] <> 0 -> m_errevspec e fs = bind (m_plotspec [env] fs (Some (m_full_scale [env])) false MHann None 1 5 5 0 None 0) (fun o => Ok (option_map (fun r => mkOld (ms_enob r) (ms_sndr r) (ms_sfdr r) (ms_snr r) (ms_thd r) (ms_sigpwr r) (ms_floor r)) o)).
Proof. exact c215_outputs. Qed.
Print Assumptions C215_outputs.

(** Gain and sign of the errors change nothing. *)
Theorem C215_gain :
  forall e fs c,
  c <> 0 -> m_errevspec (map (fun v => c * v) e) fs = m_errevspec e fs.
Proof. exact c215_gain. Qed.
Print Assumptions C215_gain.

(** Errors that are one steady tone have no envelope spectrum: everything is nan. *)
Theorem C215_steady :
  forall N k A ph fs,
  (0 < k)%nat -> (2 * k < N)%nat -> 0 < fs -> m_errevspec (record N (carrier N A k ph)) fs = Ok None.
Proof. exact c215_steady. Qed.
Print Assumptions C215_steady.

(** The record is the sum of signal, independent and dependent part; the error is the sum of the last two; the phase is always 0. *)
Theorem C215_parts :
  forall lin y freq order sg er ind dep phi,
  m_tomDecomp lin y freq order = Ok (Some (sg, er, ind, dep, phi)) ->
  phi = 0 /\ length sg = length y /\ length er = length y /\ length ind = length y /\ length dep = length y /\ forall t, (t < length y)%nat -> nth t y 0 = nth t sg 0 + nth t ind 0 + nth t dep 0 /\ nth t er 0 = nth t ind 0 + nth t dep 0.
Proof. exact c215_parts. Qed.
Print Assumptions C215_parts.

(** Which part is which: the dependent one consists of the harmonics, the independent one is what no harmonic explains. *)
Theorem C215_which :
  forall lin y freq order p,
  m_tomdec lin y freq (match order with Some o => o | None => 1%Z end) = Ok (Some p) -> m_tomDecomp lin y freq order = Ok (Some (mp_sine p, mp_err p, mp_oth p, mp_har p, 0)).
Proof. exact c215_which. Qed.
Print Assumptions C215_which.

(** A sampling rate that is not positive and a record without samples are errors. *)
Theorem C215_errors :
  forall e fs,
  (fs <= 0 -> m_errevspec e fs = Err RuntimeError) /\ m_errevspec [] fs = Err RuntimeError.
Proof. exact c215_errors. Qed.
Print Assumptions C215_errors.
