(** * Model of how the MATLAB toolbox reads old argument lists: the option names of plotspec.m, legacy/errHistSine.m,
    legacy/specPlotPhase.m, legacy/specPlot.m, legacy/tomDecomp.m and dumped/errevspec.m.
    The inputParser itself is represented by its result: which options were given, and with which values.  [error] and a rejected
    argument are RuntimeError. *)
From Coq Require Import Ascii String.
From Verif Require Import Base Cplx FreqModel SpecModel TiModel CalModel FitModel HarmModel MatModel CohModel MsinModel MspecModel PlotModel EnvModel MphaseModel.
Local Open Scope R_scope.
Local Open Scope list_scope.

(** ** plotspec.m: options *)
(** l.144-145: the texts and the numbers 0 to 3 or 0, 1 that the parser lets pass. *)
Inductive nf_arg := NfAuto | NfMedian | NfMean | NfExclude | NfNum (z : Z).
Inductive avg_arg := AvgNormal | AvgCoherent | AvgNum (z : Z).
(** What the caller gave; None: not given.  The window functions are given by their samples (MGiven). *)
Record spec_args := mkArgs {
  g_averageMode : option avg_arg; g_coAvg : option Z; g_maxSignal : option R; g_maxCode : option R; g_window : option m_win; g_winType : option m_win;
  g_disp : option bool; g_isPlot : option bool; g_cutoff : option R; g_noFlicker : option R; g_NFMethod : option nf_arg }.
Record spec_opts := mkSopts { so_coherent : bool; so_fullscale : option R; so_window : m_win; so_plot : bool; so_cutoff : R; so_nfmethod : Z }.
Definition not_pos (o : option R) : bool := match o with Some v => Rleb v 0 | None => false end.
Definition not_01 (z : Z) : bool := negb ((z =? 0) || (z =? 1))%Z.
(** l.148-167: values the parser rejects; defaults are not checked. *)
Definition bad_args (a : spec_args) : bool :=
  not_pos (g_maxSignal a) || not_pos (g_maxCode a) || not_pos (g_cutoff a) || not_pos (g_noFlicker a)
  || match g_coAvg a with Some z => not_01 z | None => false end
  || match g_averageMode a with Some (AvgNum z) => not_01 z | _ => false end
  || match g_NFMethod a with Some (NfNum z) => ((z <? 0) || (3 <? z))%Z | _ => false end.
(** l.180-241 *)
Definition read_options (a : spec_args) : result spec_opts :=
  raise_if (bad_args a) RuntimeError (
  let old_avg := match g_coAvg a with Some z => negb (z =? 0)%Z | None => false end in
  let old_win := match g_winType a with Some w => w | None => MHann end in
  Ok (mkSopts
    (match g_averageMode a with                                             (* l.198-213 *)
     | Some AvgCoherent => true
     | Some (AvgNum z) => negb (z =? 0)%Z
     | Some AvgNormal | None => old_avg
     end)
    (match g_maxSignal a with Some v => Some v | None => g_maxCode a end)   (* l.216-220 *)
    (match g_window a with                                                  (* l.223-227 *)
     | Some MHann | None => old_win
     | Some w => w
     end)
    (match g_disp a with                                                    (* l.230-234 *)
     | Some b => b
     | None => match g_isPlot a with Some b => b | None => true end
     end)
    (match g_cutoff a with                                                  (* l.237-241 *)
     | Some v => v
     | None => match g_noFlicker a with Some v => v | None => 0 end
     end)
    (match g_NFMethod a with                                                (* l.181-194 *)
     | Some NfAuto | None => 0
     | Some NfMedian => 1
     | Some NfMean => 2
     | Some NfExclude => 3
     | Some (NfNum z) => z
     end)%Z)).

(** ** legacy/errHistSine.m l.48-74 *)
(** An argument: a char vector, a number, or anything else (a mode that is an array or a string is not represented). *)
Inductive marg := Chars (s : string) | Num (r : R) | Other (n : nat).
(** strcmpi: letters are compared without case. *)
Definition lower_char (c : ascii) : ascii := let n := nat_of_ascii c in if ((65 <=? n) && (n <=? 90))%nat then ascii_of_nat (n + 32) else c.
Fixpoint lower_text (s : string) : string := match s with EmptyString => EmptyString | String c r => String (lower_char c) (lower_text r) end.
Definition is_mode (a : marg) : bool := match a with Chars s => String.eqb (lower_text s) "mode" | _ => false end.
(** l.57: modeVal == 0; the characters of a char vector are not 0. *)
Definition zero_arg (a : marg) : bool := match a with Num r => Reqb r 0 | _ => false end.
Fixpoint new_args (l : list marg) : result (list marg) :=
  match l with
  | [] => Ok []
  | a :: t =>
      if is_mode a then
        match t with
        | [] => Err RuntimeError
        | v :: t' => bind (new_args t') (fun r => Ok (Chars "xaxis" :: Chars (if zero_arg v then "phase" else "value") :: r))
        end
      else bind (new_args t) (fun r => Ok (a :: r))
  end.

(** ** legacy/specPlotPhase.m l.51: the numbers after the record, then named options; plotphase.m l.111-118 reads the numbers as harmonic
    and maxSignal, and a third one is rejected. *)
Definition m_specPlotPhase (sig : list (list R)) (numbers : list R) (fs osr cutoff : R) (w : m_win) : result p_fft :=
  match numbers with
  | [] => m_plotphase_fft sig 5 None fs osr cutoff w
  | [h] => m_plotphase_fft sig (Z.to_nat (Zfloor h)) None fs osr cutoff w
  | [h; m] => m_plotphase_fft sig (Z.to_nat (Zfloor h)) (Some m) fs osr cutoff w
  | _ => Err RuntimeError
  end.

(** ** legacy/specPlot.m l.73: every output of plotspec but the noise density. *)
Record old_spec := mkOld { od_enob : xr; od_sndr : xr; od_sfdr : xr; od_snr : xr; od_thd : xr; od_pwr : xr; od_nf : xr }.
Definition old_outputs (r : mspec) : old_spec := mkOld (ms_enob r) (ms_sndr r) (ms_sfdr r) (ms_snr r) (ms_thd r) (ms_sigpwr r) (ms_floor r).
(** ** dumped/errevspec.m l.8-11: abs(hilbert) of the errors as one column, then specPlot with its defaults; None: everything is nan
    (an envelope without any range is divided by 0).  A record without samples is an error. *)
Definition m_errevspec (err : list R) (fs : R) : result (option old_spec) :=
  raise_if (Rleb fs 0) RuntimeError
  match envelope err with
  | Err _ => Err RuntimeError
  | Ok env =>
      let d := map (fun v => [v]) env in
      if Reqb (m_full_scale d) 0 then Ok None
      else bind (m_plotspec d fs None false MHann None 1 5 5 0 None 0) (fun o => Ok (option_map old_outputs o))
  end.

(** ** legacy/tomDecomp.m l.28-42 for a vector: signal, error, independent part, dependent part, phase.  [order] None: the default 1. *)
Definition m_tomDecomp (lin : lstsq_fun) (y : list R) (freq : option R) (order : option Z) : result (option (list R * list R * list R * list R * R)) :=
  bind (m_tomdec lin y freq (match order with Some o => o | None => 1%Z end)) (fun o =>
  Ok (option_map (fun p => (mp_sine p, mp_err p, mp_oth p, mp_har p, 0)) o)).
