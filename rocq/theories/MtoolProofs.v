(** * The MATLAB toolset scripts: final lemmas c216_. *)
From Coq Require Import Lia Ascii String FinFun.
From Verif Require Import Base BaseLemmas MtoolModel.
Local Open Scope list_scope.

Lemma app_cancel_l (p a b : string) : (p ++ a = p ++ b)%string -> a = b.
Proof. induction p as [| c p IH]; cbn; intros E; [exact E |]. injection E as E. exact (IH E). Qed.
Lemma string_app_length (a b : string) : String.length (a ++ b) = (String.length a + String.length b)%nat.
Proof. induction a as [| c a IH]; cbn; [reflexivity | rewrite IH; reflexivity]. Qed.
Lemma app_cancel_r (a b p : string) : (a ++ p = b ++ p)%string -> a = b.
Proof.
  revert b. induction a as [| c a IH]; intros [| e b] E; cbn in E; [reflexivity | | | injection E as -> E; f_equal; exact (IH b E)]; apply (f_equal String.length) in E; cbn in E; rewrite string_app_length in E; lia.
Qed.
Lemma names_differ p s t : plot_name p s = plot_name p t -> s = t.
Proof. unfold plot_name. intros E. apply app_cancel_l in E. cbn in E. injection E as E. exact (app_cancel_r _ _ _ E). Qed.
(** The fifteen pictures have fifteen names, and another prefix gives other names. *)
Lemma c216_names p q s : NoDup (map (plot_name p) (aout_suffixes ++ dout_suffixes)) /\ (plot_name p s = plot_name q s -> p = q).
Proof.
  split; [| unfold plot_name; apply app_cancel_r]. apply Injective_map_NoDup; [intros s' t; apply names_differ |]. repeat constructor; cbn; intuition discriminate.
Qed.

Definition good {A} (x : A) : result A := Ok x.
Lemma save_same {A} n (x : A) (d : folder A) : save n x d n = Some x.
Proof. unfold save. rewrite String.eqb_refl. reflexivity. Qed.
Lemma save_other {A} n m (x : A) (d : folder A) : m <> n -> save n x d m = d m.
Proof. intros N. unfold save. destruct (String.eqb_spec m n); [contradiction | reflexivity]. Qed.
(** What the tools save when the first [n] of them succeed and then one fails, or all succeed. *)
Definition saved {A} (p : string) (ss : list string) (figs : list A) (d d' : folder A) : Prop :=
  (forall i x, nth_error figs i = Some x -> forall s, nth_error ss i = Some s -> d' (plot_name p s) = Some x) /\
  (forall m, (forall i s, (i < List.length figs)%nat -> nth_error ss i = Some s -> m <> plot_name p s) -> d' m = d m).
Lemma run_all {A} p : forall ss (figs : list A) (d : folder A), NoDup ss -> List.length ss = List.length figs -> exists d', run_tools p (combine ss (map good figs)) d = (Ok (map (plot_name p) ss), d') /\ saved p ss figs d d'.
Proof.
  induction ss as [| s ss IH]; intros [| x figs] d ND L; try discriminate L.
  - exists d. split; [reflexivity |]. split; [intros [| i] x E; discriminate E | reflexivity].
  - inversion ND as [| s' ss' NI ND']. subst. cbn [combine map run_tools good]. destruct (IH figs (save (plot_name p s) x d) ND' ltac:(cbn in L; lia)) as (d' & E & S1 & S2). exists d'. unfold good in *. rewrite E. split; [reflexivity |]. split.
    + intros [| i] y Y t T; cbn in Y, T; [| exact (S1 i y Y t T)]. injection Y as <-. injection T as <-. rewrite S2; [apply save_same |]. intros i t _ T E'. apply names_differ in E'. subst t. apply NI. exact (nth_error_In _ _ T).
    + intros m M. rewrite S2; [apply save_other; apply (M 0%nat); [cbn; lia | reflexivity] |]. intros i t I T. apply (M (S i) t); [cbn; lia | exact T].
Qed.
Lemma run_stop {A} p e rest : forall ss (figs : list A) (d : folder A), NoDup ss -> (List.length figs < List.length ss)%nat -> exists d', run_tools p (combine ss (map good figs ++ Err e :: rest)) d = (Err e, d') /\ saved p ss figs d d'.
Proof.
  induction ss as [| s ss IH]; intros figs d ND L; [cbn in L; lia |]. inversion ND as [| s' ss' NI ND']. subst. destruct figs as [| x figs].
  - exists d. split; [reflexivity |]. split; [intros [| i] x E; discriminate E | reflexivity].
  - cbn [combine map app run_tools good]. destruct (IH figs (save (plot_name p s) x d) ND' ltac:(cbn in L; lia)) as (d' & E & S1 & S2). exists d'. unfold good in *. rewrite E. split; [reflexivity |]. split.
    + intros [| i] y Y t T; cbn in Y, T; [| exact (S1 i y Y t T)]. injection Y as <-. injection T as <-. rewrite S2; [apply save_same |]. intros i t _ T E'. apply names_differ in E'. subst t. apply NI. exact (nth_error_In _ _ T).
    + intros m M. rewrite S2; [apply save_other; apply (M 0%nat); [cbn; lia | reflexivity] |]. intros i t I T. apply (M (S i) t); [cbn; lia | exact T].
Qed.
Lemma aout_nodup : NoDup aout_suffixes. Proof. repeat constructor; cbn; intuition discriminate. Qed.
Lemma dout_nodup : NoDup dout_suffixes. Proof. repeat constructor; cbn; intuition discriminate. Qed.
(** If nothing fails, every picture is saved under its name, the names are returned in order, and no other file is touched. *)
Lemma c216_all (A : Type) p (figs : list A) (d : folder A) : (List.length figs = 9%nat -> exists d', toolset_aout p (Ok tt) (map Ok figs) d = (Ok (map (plot_name p) aout_suffixes), d') /\ saved p aout_suffixes figs d d') /\
  (List.length figs = 6%nat -> exists d', toolset_dout p (Ok tt) (map Ok figs) d = (Ok (map (plot_name p) dout_suffixes), d') /\ saved p dout_suffixes figs d d').
Proof. split; intros L; [apply (run_all p aout_suffixes figs d aout_nodup) | apply (run_all p dout_suffixes figs d dout_nodup)]; rewrite L; reflexivity. Qed.
(** If a function fails, its error is the script's; the pictures before it are saved, none after it. *)
Lemma c216_stop (A : Type) p (figs : list A) e rest (d : folder A) : ((List.length figs < 9)%nat -> exists d', toolset_aout p (Ok tt) (map Ok figs ++ Err e :: rest) d = (Err e, d') /\ saved p aout_suffixes figs d d') /\
  ((List.length figs < 6)%nat -> exists d', toolset_dout p (Ok tt) (map Ok figs ++ Err e :: rest) d = (Err e, d') /\ saved p dout_suffixes figs d d') /\
  (forall l, toolset_aout p (Err e) l d = (Err e, d) /\ toolset_dout p (Err e) l d = (Err e, d)).
Proof. split; [intros L; apply (run_stop p e rest aout_suffixes figs d aout_nodup L) |]. split; [intros L; apply (run_stop p e rest dout_suffixes figs d dout_nodup L) | intros l; split; reflexivity]. Qed.
Lemma tiles_of {A} p ss (figs : list A) (d d' : folder A) : saved p ss figs d d' -> List.length figs = List.length ss -> map d' (map (plot_name p) ss) = map Some figs.
Proof.
  intros (S1 & _) L. rewrite map_map. revert figs L S1. induction ss as [| s ss IH]; intros [| x figs] L S1; try discriminate L; [reflexivity |]. cbn [map]. f_equal; [apply (S1 0%nat); reflexivity |]. apply IH; [cbn in L; lia |]. intros i y Y t T. apply (S1 (S i)); assumption.
Qed.
(** The panel made after a complete run shows every picture under its label and is saved under the upper-case prefix. *)
Lemma c216_panel (A : Type) p (figs : list A) (d : folder A) v compose : (v = 0 \/ v = 1)%Z ->
  (List.length figs = 9%nat -> exists d', snd (toolset_aout p (Ok tt) (map Ok figs) d) = d' /\ let tiles := combine aout_labels (map Some figs) in
     aout_panel compose p v [] d' = Ok (mkPanel true (panel_name p) 0 tiles, save (panel_name p) (compose tiles) d')) /\
  (List.length figs = 6%nat -> exists d', snd (toolset_dout p (Ok tt) (map Ok figs) d) = d' /\ let tiles := combine dout_labels (map Some figs) in
     dout_panel compose p v [] d' = Ok (mkPanel true (panel_name p) 0 tiles, save (panel_name p) (compose tiles) d')).
Proof.
  intros V. split; intros L.
  - destruct (proj1 (c216_all A p figs d) L) as (d' & E & S). exists d'. rewrite E. split; [reflexivity |]. unfold aout_panel, make_panel. rewrite map_length, Nat.eqb_refl. cbn [negb raise_if]. rewrite (tiles_of p aout_suffixes figs d d' S L). destruct V as [-> | ->]; reflexivity.
  - destruct (proj2 (c216_all A p figs d) L) as (d' & E & S). exists d'. rewrite E. split; [reflexivity |]. unfold dout_panel, make_panel. rewrite map_length, Nat.eqb_refl. cbn [negb raise_if]. rewrite (tiles_of p dout_suffixes figs d d' S L). destruct V as [-> | ->]; reflexivity.
Qed.
(** A panel of given files wants as many as there are tiles; a visibility other than 0 and 1 leaves no panel and one error message. *)
Lemma c216_refused (A : Type) (compose : list (string * option A) -> A) p v files (d : folder A) : (files <> [] -> List.length files <> 9%nat -> aout_panel compose p v files d = Err RuntimeError) /\ (files <> [] -> List.length files <> 6%nat -> dout_panel compose p v files d = Err RuntimeError) /\
  (v <> 0%Z -> v <> 1%Z -> aout_panel compose p v [] d = Ok (mkPanel false "" 1 [], d) /\ dout_panel compose p v [] d = Ok (mkPanel false "" 1 [], d)) /\
  (List.length files = 9%nat -> v = 0%Z -> aout_panel compose p v files d = Ok (mkPanel true (panel_name p) 0 (combine aout_labels (map d files)), save (panel_name p) (compose (combine aout_labels (map d files))) d)).
Proof.
  unfold aout_panel, dout_panel, make_panel. split. { intros NE L. destruct files; [contradiction |]. destruct (Nat.eqb_spec (List.length (s :: files)) (List.length aout_suffixes)); [contradiction | reflexivity]. }
  split. { intros NE L. destruct files; [contradiction |]. destruct (Nat.eqb_spec (List.length (s :: files)) (List.length dout_suffixes)); [contradiction | reflexivity]. }
  split. { intros V0 V1. rewrite !map_length, !Nat.eqb_refl. cbn [negb raise_if]. destruct (Z.eqb_spec v 0); [contradiction |]. destruct (Z.eqb_spec v 1); [contradiction |]. split; reflexivity. }
  intros L ->. destruct files; [discriminate |]. rewrite L. reflexivity.
Qed.
(** After a run that failed, the panel reports success and shows pictures of an earlier run as if they were this one's. *)
Lemma c216_stale_refuted : exists (old new : list (result nat)) d1 d2 P d3, toolset_dout "dout" (Ok tt) old (fun _ => None) = (Ok (map (plot_name "dout") dout_suffixes), d1) /\
  toolset_dout "dout" (Ok tt) new d1 = (Err RuntimeError, d2) /\ dout_panel (fun _ => 0%nat) "dout" 0 [] d2 = Ok (P, d3) /\ pa_success P = true /\ map snd (pa_tiles P) = map Some [11; 12; 3; 4; 5; 6]%nat.
Proof.
  exists (map Ok [1; 2; 3; 4; 5; 6]%nat), [Ok 11; Ok 12; Err RuntimeError]%nat. eexists. eexists. eexists. eexists. repeat split; reflexivity.
Qed.
(** On an empty folder the tiles from the failing function on are marked as missing. *)
Example c216_stop_ex : exists d1 P d2, toolset_dout "dout" (Ok tt) [Ok 11; Ok 12; Err RuntimeError]%nat (fun _ => None) = (Err RuntimeError, d1) /\ dout_panel (fun _ => 0%nat) "dout" 0 [] d1 = Ok (P, d2) /\
  pa_tiles P = [("(1) Spectrum (Nominal)", Some 11%nat); ("(2) Spectrum (Calibrated)", Some 12%nat); ("(3) Bit Activity", None); ("(4) Overflow Check", None); ("(5) Weight Scaling", None); ("(6) ENoB Sweep", None)]%string /\ pa_path P = "PANEL_DOUT.png"%string.
Proof. eexists. eexists. eexists. repeat split; reflexivity. Qed.
Example c216_panel_ex : exists d, toolset_aout "aout" (Ok tt) (map Ok [1; 2; 3; 4; 5; 6; 7; 8; 9]%nat) (fun _ => None) = (Ok (map (plot_name "aout") aout_suffixes), d) /\ d "aout_7_errAutoCorrelation.png"%string = Some 7%nat /\ d "aout_9_errSpectrum.png"%string = None.
Proof. eexists. repeat split; reflexivity. Qed.
(** The names of the pictures, written out. *)
Lemma c216_files p : map (plot_name p) aout_suffixes = [p ++ "_1_tomdec.png"; p ++ "_2_plotspec.png"; p ++ "_3_plotphase.png"; p ++ "_4_errsin_code.png"; p ++ "_5_errsin_phase.png"; p ++ "_6_errpdf.png"; p ++ "_7_errAutoCorrelation.png"; p ++ "_8_errSpectrum.png"; p ++ "_9_errEnvelopeSpectrum.png"]%string /\
  map (plot_name p) dout_suffixes = [p ++ "_1_spectrum_nominal.png"; p ++ "_2_spectrum_calibrated.png"; p ++ "_3_bitActivity.png"; p ++ "_4_overflowChk.png"; p ++ "_5_weightScaling.png"; p ++ "_6_ENoB_sweep.png"]%string.
Proof. split; reflexivity. Qed.
(** The panel's name: the prefix letter by letter in capitals, every other character as it was. *)
Lemma c216_capitals a b c : panel_name (a ++ b) = ("PANEL_" ++ upper_text a ++ upper_text b ++ ".png")%string /\
  upper_text "abcdefghijklmnopqrstuvwxyz" = "ABCDEFGHIJKLMNOPQRSTUVWXYZ"%string /\
  ((nat_of_ascii c < 97)%nat \/ (122 < nat_of_ascii c)%nat -> upper_text (String c "") = String c "").
Proof.
  split; [unfold panel_name; f_equal; induction a as [| x a IH]; cbn [append upper_text]; [reflexivity | rewrite IH; reflexivity] |].
  split; [reflexivity |]. intros H. cbn [upper_text]. unfold upper_char. cbv zeta. destruct (Nat.leb_spec 97 (nat_of_ascii c)); destruct (Nat.leb_spec (nat_of_ascii c) 122); try lia; reflexivity.
Qed.
Example c216_capitals_ex : panel_name "run_7z" = "PANEL_RUN_7Z.png"%string.
Proof. reflexivity. Qed.
