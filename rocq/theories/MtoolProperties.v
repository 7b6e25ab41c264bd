(** * Property theorems of Mtool: statements only, proofs in MtoolProofs.v.
    Generated by tools/mkprops.py from the final lemmas. *)
From Coq Require Import Lia Ascii String FinFun.
From Verif Require Import Base BaseLemmas MtoolModel.
Local Open Scope list_scope.
From Verif Require Import MtoolProofs.

(** The fifteen pictures have fifteen names, and another prefix gives other names. *)
Theorem C216_names :
  forall p q s,
  NoDup (map (plot_name p) (aout_suffixes ++ dout_suffixes)) /\ (plot_name p s = plot_name q s -> p = q).
Proof. exact c216_names. Qed.
Print Assumptions C216_names.

(** If nothing fails, every picture is saved under its name, the names are returned in order, and no other file is touched. *)
Theorem C216_all :
  forall (A : Type) p (figs : list A) (d : folder A),
  (List.length figs = 9%nat -> exists d', toolset_aout p (Ok tt) (map Ok figs) d = (Ok (map (plot_name p) aout_suffixes), d') /\ saved p aout_suffixes figs d d') /\
  (List.length figs = 6%nat -> exists d', toolset_dout p (Ok tt) (map Ok figs) d = (Ok (map (plot_name p) dout_suffixes), d') /\ saved p dout_suffixes figs d d').
Proof. exact c216_all. Qed.
Print Assumptions C216_all.

(** If a function fails, its error is the script's; the pictures before it are saved, none after it. *)
Theorem C216_stop :
  forall (A : Type) p (figs : list A) e rest (d : folder A),
  ((List.length figs < 9)%nat -> exists d', toolset_aout p (Ok tt) (map Ok figs ++ Err e :: rest) d = (Err e, d') /\ saved p aout_suffixes figs d d') /\
  ((List.length figs < 6)%nat -> exists d', toolset_dout p (Ok tt) (map Ok figs ++ Err e :: rest) d = (Err e, d') /\ saved p dout_suffixes figs d d') /\
  (forall l, toolset_aout p (Err e) l d = (Err e, d) /\ toolset_dout p (Err e) l d = (Err e, d)).
Proof. exact c216_stop. Qed.
Print Assumptions C216_stop.

(** The panel made after a complete run shows every picture under its label and is saved under the upper-case prefix. *)
Theorem C216_panel :
  forall (A : Type) p (figs : list A) (d : folder A) v compose,
  (v = 0 \/ v = 1)%Z ->
  (List.length figs = 9%nat -> exists d', snd (toolset_aout p (Ok tt) (map Ok figs) d) = d' /\ let tiles := combine aout_labels (map Some figs) in
     aout_panel compose p v [] d' = Ok (mkPanel true (panel_name p) 0 tiles, save (panel_name p) (compose tiles) d')) /\
  (List.length figs = 6%nat -> exists d', snd (toolset_dout p (Ok tt) (map Ok figs) d) = d' /\ let tiles := combine dout_labels (map Some figs) in
     dout_panel compose p v [] d' = Ok (mkPanel true (panel_name p) 0 tiles, save (panel_name p) (compose tiles) d')).
Proof. exact c216_panel. Qed.
Print Assumptions C216_panel.

(** A panel of given files wants as many as there are tiles; a visibility other than 0 and 1 leaves no panel and one error message. *)
Theorem C216_refused :
  forall (A : Type) (compose : list (string * option A) -> A) p v files (d : folder A),
  (files <> [] -> List.length files <> 9%nat -> aout_panel compose p v files d = Err RuntimeError) /\ (files <> [] -> List.length files <> 6%nat -> dout_panel compose p v files d = Err RuntimeError) /\
  (v <> 0%Z -> v <> 1%Z -> aout_panel compose p v [] d = Ok (mkPanel false "" 1 [], d) /\ dout_panel compose p v [] d = Ok (mkPanel false "" 1 [], d)) /\
  (List.length files = 9%nat -> v = 0%Z -> aout_panel compose p v files d = Ok (mkPanel true (panel_name p) 0 (combine aout_labels (map d files)), save (panel_name p) (compose (combine aout_labels (map d files))) d)).
Proof. exact c216_refused. Qed.
Print Assumptions C216_refused.

(** After a run that failed, the panel reports success and shows pictures of an earlier run as if they were this one's. *)
Theorem C216_stale_refuted :
  exists (old new : list (result nat)) d1 d2 P d3, toolset_dout "dout" (Ok tt) old (fun _ => None) = (Ok (map (plot_name "dout") dout_suffixes), d1) /\
  toolset_dout "dout" (Ok tt) new d1 = (Err RuntimeError, d2) /\ dout_panel (fun _ => 0%nat) "dout" 0 [] d2 = Ok (P, d3) /\ pa_success P = true /\ map snd (pa_tiles P) = map Some [11; 12; 3; 4; 5; 6]%nat.
Proof. exact c216_stale_refuted. Qed.
Print Assumptions C216_stale_refuted.

(** The names of the pictures, written out. *)
Theorem C216_files :
  forall p,
  map (plot_name p) aout_suffixes = [p ++ "_1_tomdec.png"; p ++ "_2_plotspec.png"; p ++ "_3_plotphase.png"; p ++ "_4_errsin_code.png"; p ++ "_5_errsin_phase.png"; p ++ "_6_errpdf.png"; p ++ "_7_errAutoCorrelation.png"; p ++ "_8_errSpectrum.png"; p ++ "_9_errEnvelopeSpectrum.png"]%string /\
  map (plot_name p) dout_suffixes = [p ++ "_1_spectrum_nominal.png"; p ++ "_2_spectrum_calibrated.png"; p ++ "_3_bitActivity.png"; p ++ "_4_overflowChk.png"; p ++ "_5_weightScaling.png"; p ++ "_6_ENoB_sweep.png"]%string.
Proof. exact c216_files. Qed.
Print Assumptions C216_files.

(** The panel's name: the prefix letter by letter in capitals, every other character as it was. *)
Theorem C216_capitals :
  forall a b c,
  panel_name (a ++ b) = ("PANEL_" ++ upper_text a ++ upper_text b ++ ".png")%string /\
  upper_text "abcdefghijklmnopqrstuvwxyz" = "ABCDEFGHIJKLMNOPQRSTUVWXYZ"%string /\
  ((nat_of_ascii c < 97)%nat \/ (122 < nat_of_ascii c)%nat -> upper_text (String c "") = String c "").
Proof. exact c216_capitals. Qed.
Print Assumptions C216_capitals.
