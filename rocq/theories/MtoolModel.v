(** * Model of the MATLAB scripts toolset_aout, toolset_dout, toolset_aout_panel and toolset_dout_panel (matlab/src/dumped).
    The scripts run analysis functions one after another and save a picture of each; the panels collect the pictures.  What a function
    draws is an argument: its picture, or the error it ends in (the functions are modelled in the other modules).  The folder is a
    function from file names to pictures; that it exists and can be written is assumed. *)
From Coq Require Import Ascii String.
From Verif Require Import Base.
Local Open Scope list_scope.
Local Open Scope string_scope.

(** toolset_aout.m l.41-134, toolset_aout_panel.m l.39-47 *)
Definition aout_suffixes : list string :=
  ["1_tomdec"; "2_plotspec"; "3_plotphase"; "4_errsin_code"; "5_errsin_phase"; "6_errpdf"; "7_errAutoCorrelation"; "8_errSpectrum"; "9_errEnvelopeSpectrum"].
(** toolset_dout.m l.39-50, toolset_dout_panel.m l.36-41 *)
Definition dout_suffixes : list string :=
  ["1_spectrum_nominal"; "2_spectrum_calibrated"; "3_bitActivity"; "4_overflowChk"; "5_weightScaling"; "6_ENoB_sweep"].
(** toolset_aout_panel.m l.58-60, toolset_dout_panel.m l.52-54 *)
Definition aout_labels : list string :=
  ["(1) tomdec"; "(2) plotspec"; "(3) plotphase"; "(4) errsin (code)"; "(5) errsin (phase)"; "(6) errpdf"; "(7) errAutoCorrelation"; "(8) errSpectrum"; "(9) errEnvelopeSpectrum"].
Definition dout_labels : list string :=
  ["(1) Spectrum (Nominal)"; "(2) Spectrum (Calibrated)"; "(3) Bit Activity"; "(4) Overflow Check"; "(5) Weight Scaling"; "(6) ENoB Sweep"].

(** sprintf('%s_%s.png', prefix, suffix) *)
Definition plot_name (prefix suffix : string) : string := prefix ++ "_" ++ suffix ++ ".png".
(** upper *)
Definition upper_char (c : ascii) : ascii := let n := nat_of_ascii c in if ((97 <=? n) && (n <=? 122))%nat then ascii_of_nat (n - 32) else c.
Fixpoint upper_text (s : string) : string := match s with EmptyString => EmptyString | String c r => String (upper_char c) (upper_text r) end.
(** toolset_aout_panel.m l.83 *)
Definition panel_name (prefix : string) : string := "PANEL_" ++ upper_text prefix ++ ".png".

Section Pictures.
Context {A : Type}.
Definition folder : Type := string -> option A.
Definition save (name : string) (p : A) (d : folder) : folder := fun n => if String.eqb n name then Some p else d n.

(** toolset_aout.m l.41-137, toolset_dout.m l.53-63: the pictures in turn; an error ends the script, and what is saved stays.
    The names are returned. *)
Fixpoint run_tools (prefix : string) (tools : list (string * result A)) (d : folder) : result (list string) * folder :=
  match tools with
  | [] => (Ok [], d)
  | (suffix, Err e) :: _ => (Err e, d)
  | (suffix, Ok p) :: t =>
      let name := plot_name prefix suffix in
      let '(r, d') := run_tools prefix t (save name p d) in
      (bind r (fun l => Ok (name :: l)), d')
  end.
(** toolset_aout.m l.31-36, toolset_dout.m l.33-36: frequency, fit or calibration first ([ready]). *)
Definition toolset (suffixes : list string) (prefix : string) (ready : result unit) (figs : list (result A)) (d : folder) : result (list string) * folder :=
  match ready with
  | Err e => (Err e, d)
  | Ok _ => run_tools prefix (combine suffixes figs) d
  end.
Definition toolset_aout := toolset aout_suffixes.
Definition toolset_dout := toolset dout_suffixes.

(** toolset_aout_panel.m l.35-95, toolset_dout_panel.m l.32-92.  A tile: its label and the picture, None where the file is missing.
    [visible] is an index into two values; out of range the error is caught and reported.  [compose] makes the panel of its tiles. *)
Record panel := mkPanel { pa_success : bool; pa_path : string; pa_errors : nat; pa_tiles : list (string * option A) }.
Definition make_panel (suffixes labels : list string) (compose : list (string * option A) -> A) (prefix : string) (visible : Z) (files : list string) (d : folder) : result (panel * folder) :=
  let names := match files with [] => map (plot_name prefix) suffixes | _ => files end in
  raise_if (negb (List.length names =? List.length suffixes)%nat) RuntimeError (
  if negb ((visible =? 0) || (visible =? 1))%Z then Ok (mkPanel false "" 1 [], d)
  else
    let tiles := combine labels (map d names) in
    Ok (mkPanel true (panel_name prefix) 0 tiles, save (panel_name prefix) (compose tiles) d)).
Definition aout_panel := make_panel aout_suffixes aout_labels.
Definition dout_panel := make_panel dout_suffixes dout_labels.
End Pictures.
Arguments folder A : clear implicits.
Arguments panel A : clear implicits.
