(** * Model of adctoolbox/spectrum/plot_spectrum.py and plot_spectrum_virtuoso.py.
    What is drawn is a value: the positions of the curves, markers and texts, the axis limits and
    the text rows.  Left out: colours, fonts, line styles, grids and ticks, axis labels.
    matplotlib's data-to-axes transform is the argument [xaxes].  Bin numbers other than the
    harmonic bins are non-negative. *)
From Coq Require Import String.
From Verif Require Import Base UnitsModel SpecModel.
Local Open Scope list_scope.
Local Open Scope R_scope.

(** ** plot_spectrum.py 14-29 _noise_floor_axis_min *)
Definition axis_min (level : xr) (step margin floor : R) (fallback : option xr) : R :=
  let from l := Rmax (step * IZR (Zfloor (l / step)) - margin * step) floor in (* l.27-29 *)
  match level with
  | Fin l => from l
  | _ => match fallback with Some (Fin l) => from l | _ => -100 end      (* l.22-25 *)
  end.
(** The defaults of l.16-18. *)
Definition noise_floor_axis_min (level : xr) (fallback : option xr) : R := axis_min level 20 1 (-200) fallback.

(** ** plot_spectrum.py 32-38 _should_label_harmonic *)
Definition should_label_harmonic (power level : xr) (margin : R) : bool :=
  match power, level with
  | Fin p, Fin l => Rleb (l - margin) p
  | Fin _, _ => true
  | _, _ => false
  end.

(** ** plot_spectrum.py 41-95 _refresh_max_spur_annotation: hidden, or the label's height and alignment *)
Inductive valign : Set := VBottom | VTop | VCenter.
Inductive halign : Set := HLeft | HRight | HCenter.
Inductive annotation := Hidden | Shown (y : R) (va : valign) (ha : halign).
Definition spur_margin (span : R) : R := Rmin (Rmax (0.04 * span) 1) 6.  (* l.58 *)
Definition refresh_spur (y0 y1 : R) (spur : xr) (x_axes : xr) (above below : R) : annotation :=
  let y_min := Rmin y0 y1 in let y_max := Rmax y0 y1 in
  match spur with
  | Fin s =>
      if Rleb y_max y_min then Hidden else                               (* l.52 *)
      let m := spur_margin (y_max - y_min) in
      if Rleb s (y_min + m) || Rltb y_max s then Hidden else             (* l.60 *)
      match x_axes with
      | Fin x =>
          if Rltb x 0 || Rltb 1 x then Hidden else                       (* l.69 *)
          let top := y_max - m in let bottom := y_min + m in
          let '(y, va) := if Rltb top (s + above) then (s - below, VTop) else (s + above, VBottom) in
          let '(y, va) := if Rltb y bottom then (Rmin (Rmax s bottom) top, VCenter) else (y, va) in
          Shown y va (if Rltb 0.95 x then HRight else if Rltb x 0.05 then HLeft else HCenter)
      | _ => Hidden
      end
  | _ => Hidden
  end.

(** ** Text.  [Num d v] is the text of v with d decimals (kept as the integer v * 10^d, rounded to
    even as by format()); [Word x] is "inf", "-inf" or "nan"; [NA] is "N/A". *)
Inductive prefix : Set := Giga | Mega | Kilo | Unit.
Inductive num := Num (decimals : nat) (digits : Z) | Word (x : xr) | NA.
Definition fixed (d : nat) (x : R) : num := Num d (round_he (x * 10 ^ d)).
Definition fmt2 (x : xr) : num := match x with Fin v => fixed 2 v | _ => Word x end.
Definition fmt2_or_na (x : xr) : num := match x with Fin v => fixed 2 v | _ => NA end.
(** plot_spectrum.py 240-244 and plot_spectrum_virtuoso.py 156-160. *)
Definition format_freq (f : R) : num * prefix :=
  if Rleb (10 ^ 9) f then (fixed 1 (f / 10 ^ 9), Giga)
  else if Rleb (10 ^ 6) f then (fixed 1 (f / 10 ^ 6), Mega)
  else if Rleb (10 ^ 3) f then (fixed 1 (f / 10 ^ 3), Kilo)
  else (fixed 1 f, Unit).
(** plot_spectrum.py 249-253: the input frequency. *)
Definition format_fin (f : R) : num * prefix :=
  if Rleb (10 ^ 9) f then (fixed 1 (f / 10 ^ 9), Giga)
  else if Rleb (10 ^ 6) f then (fixed 1 (f / 10 ^ 6), Mega)
  else if Rleb (10 ^ 3) f then (fixed 1 (f / 10 ^ 3), Kilo)
  else if Rleb 1 f then (fixed 1 (f / 10 ^ 3), Unit)
  else (fixed 3 f, Unit).
(** The rows of the text block. *)
Inductive row :=
| RFreq (fin fs : num * prefix) | RMetric (name : string) (v : num)
| ROsr (v : num) | RGain (v : num) | RCollided (orders : list nat).
Inductive title := TCoherentAvg (M : nat) | TCoherent | TPowerAvg (M : nat) | TPower | TNone.

(** ** What the plotters get (the result of compute_spectrum) *)
Record plot_input := {
  pi_N : nat; pi_M : nat; pi_fs : R; pi_osr : R;
  pi_db : list R; pi_freq : list R; pi_fund : nat; pi_start : nat; pi_end : nat; pi_spur : nat;
  pi_coherent : bool; pi_harm_bins : list Z; pi_collided : list nat; pi_harm_dbc : list xr;
  pi_enob : xr; pi_sndr : xr; pi_sfdr : xr; pi_thd : xr; pi_snr : xr; pi_sig : R; pi_floor : xr; pi_nsd : xr }.
(** compute_spectrum.py 81-82, 184-223 without a cutoff, as called by analyze_spectrum. *)
Definition spectrum_db (P : list R) : list R := map (fun p => 10 * (ln (p + / 10 ^ 20) / ln 10)) P.
Definition plot_input_of (sp : spectrum) (N M : nat) (fs osr : R) (coherent : bool) : plot_input :=
  {| pi_N := N; pi_M := M; pi_fs := fs; pi_osr := osr;
     pi_db := spectrum_db (sp_power sp); pi_freq := map (fun k => INR k * (fs / INR N)) (seq 0 (List.length (sp_power sp)));
     pi_fund := sp_fund sp; pi_start := sp_start sp; pi_end := sp_end sp; pi_spur := sp_spur_bin sp;
     pi_coherent := coherent; pi_harm_bins := sp_harm_bins sp; pi_collided := sp_collided sp; pi_harm_dbc := sp_harm_dbc sp;
     pi_enob := sp_enob sp; pi_sndr := sp_sndr sp; pi_sfdr := sp_sfdr sp; pi_thd := sp_thd sp; pi_snr := sp_snr sp;
     pi_sig := sp_sig_dbfs sp; pi_floor := sp_floor sp; pi_nsd := sp_nsd sp |}.

(** ** The drawing.  [fg_marks] is None when show_label is False. *)
Record marks := {
  mk_span : list (R * R); mk_fund : R * R; mk_harm : list (nat * (R * R)); mk_spur : R * R; mk_spur_label : annotation;
  mk_osr_line : option R; mk_noise_line : option (R * R * R); mk_block_x : R; mk_rows : list row; mk_sig_x : R; mk_sig_ha : halign }.
Record figure := {
  fg_curve : list (R * R); fg_xlim : R * R; fg_ylim : R * R; fg_marks : option marks; fg_title : title }.

(** a[i] of numpy: negative indices count from the end. *)
Definition zget (l : list R) (i : Z) : result R :=
  let n := Z.of_nat (List.length l) in
  if (0 <=? i)%Z && (i <? n)%Z then Ok (nth (Z.to_nat i) l 0)
  else if (- n <=? i)%Z && (i <? 0)%Z then Ok (nth (Z.to_nat (i + n)) l 0)
  else Err IndexError.
Definition nget (l : list R) (i : nat) : result R := zget l (Z.of_nat i).
(** sorted() *)
Fixpoint insN (x : nat) (l : list nat) : list nat :=
  match l with [] => [x] | y :: t => if (x <=? y)%nat then x :: l else y :: insN x t end.
Definition sortN (l : list nat) : list nat := fold_right insN [] l.
Definition mem (n : nat) (l : list nat) : bool := existsb (Nat.eqb n) l.

(** plot_spectrum.py 141 / plot_spectrum_virtuoso.py 80. *)
Definition line_level (p : plot_input) : xr :=
  xaxpy (- (10 * (ln (INR (pi_N p) / (2 * pi_osr p)) / ln 10))) 1 (pi_floor p).
(** plot_spectrum.py 144-168: the harmonics, with order, frequency and level. *)
Fixpoint harmonics_from (p : plot_input) (i n : nat) : result (list (nat * (R * R))) :=
  match n with
  | O => Ok []
  | S n' =>
      if mem (i + 2) (pi_collided p) then harmonics_from p (S i) n' else
      match nth_error (pi_harm_bins p) i with
      | None => Err IndexError
      | Some b =>
          bind (zget (pi_db p) b) (fun v =>
          bind (harmonics_from p (S i) n') (fun rest =>
          Ok (((i + 2)%nat, (IZR b * pi_fs p / INR (pi_N p), v)) :: rest)))
      end
  end.
Definition harmonics (p : plot_input) : result (list (nat * (R * R))) :=
  match pi_harm_bins p with [] => Ok [] | _ => harmonics_from p 0 (List.length (pi_harm_dbc p)) end.
(** plot_spectrum.py 193-201. *)
Definition drawn_harmonics (p : plot_input) (up_to : Z) (hs : list (nat * (R * R))) : list (nat * (R * R)) :=
  if (0 <? up_to)%Z then
    filter (fun h => (Z.of_nat (fst h) <=? up_to)%Z && should_label_harmonic (Fin (snd (snd h))) (line_level p) 20) hs
  else [].
(** plot_spectrum.py 255-287 / plot_spectrum_virtuoso.py 169-213: the rows. *)
Definition gain_and_collisions (p : plot_input) : list row :=
  (if pi_coherent p && (1 <? pi_M p)%nat then [RGain (fixed 2 (10 * (ln (INR (pi_M p)) / ln 10)))] else []) ++
  match pi_collided p with [] => [] | l => [RCollided (sortN l)] end.
Definition metric_rows (p : plot_input) (fin : num * prefix) : list row :=
  [ RFreq fin (format_freq (pi_fs p)); RMetric "ENoB" (fmt2 (pi_enob p)); RMetric "SNDR" (fmt2 (pi_sndr p));
    RMetric "SFDR" (fmt2 (pi_sfdr p)); RMetric "THD" (fmt2 (pi_thd p)); RMetric "SNR" (fmt2_or_na (pi_snr p));
    RMetric "Noise Floor" (fmt2_or_na (pi_floor p)); RMetric "NSD" (fmt2_or_na (pi_nsd p)) ] ++
  (if xfinite (line_level p) && Rltb 1 (pi_osr p) then [ROsr (fixed 2 (pi_osr p))] else []) ++
  gain_and_collisions p.
(** The height of row i in axes coordinates (plot_spectrum.py 236-237, 292). *)
Definition row_y (i : nat) : R := 0.94 - 0.06 * INR i.
(** plot_spectrum.py 235 / plot_spectrum_virtuoso.py 152. *)
Definition block_x (p : plot_input) : R :=
  if Rltb 1 (pi_osr p) || Rleb 0.2 (INR (pi_fund p) / INR (pi_N p)) then 0.02 else 0.60.
(** The dashed noise line: from, to, level (plot_spectrum.py 271-277). *)
Definition noise_line (p : plot_input) : option (R * R * R) :=
  match line_level p with
  | Fin l => Some (if Rltb 1 (pi_osr p) then (pi_fs p / INR (pi_N p), pi_fs p / 2 / pi_osr p, l) else (0, pi_fs p / 2, l))
  | _ => None
  end.
(** plot_spectrum.py 331-341. *)
Definition plot_title (p : plot_input) : title :=
  if pi_coherent p then (if (1 <? pi_M p)%nat then TCoherentAvg (pi_M p) else TCoherent)
  else (if (1 <? pi_M p)%nat then TPowerAvg (pi_M p) else TPower).

(** ** plot_spectrum.py 119-341.  [pi_N], [pi_osr] positive; an empty spectrum has a nan limit,
    which matplotlib refuses with ValueError. *)
Definition plot_spectrum (xaxes : R -> R -> xr) (p : plot_input) (show_title show_label : bool) (up_to : Z) : result figure :=
  bind (nget (pi_db p) (pi_spur p)) (fun spur_db =>
  bind (inband_count (Z.of_nat (pi_N p)) (pi_osr p)) (fun nb =>
  let N := INR (pi_N p) in let fs := pi_fs p in let osr := pi_osr p in
  let level := line_level p in
  bind (harmonics p) (fun hs =>
  bind (if show_label then bind (nget (pi_freq p) (pi_fund p)) (fun x => bind (nget (pi_db p) (pi_fund p)) (fun y => Ok (x, y))) else Ok (0, 0)) (fun fund =>
  match firstn (Z.to_nat nb) (pi_db p) with
  | [] => Err ValueError
  | inband =>
      let minx := match level with
                  | Fin _ => Rmin (Rmax (median inband - 20) (-200)) (-40)
                  | _ => noise_floor_axis_min level (Some (xsub_l (pi_sig p) (pi_sndr p)))
                  end in
      let spur_x := INR (pi_spur p) / N * fs in
      let ratio := INR (pi_fund p) / N in
      Ok {| fg_curve := combine (pi_freq p) (pi_db p); fg_xlim := (fs / N, fs / 2); fg_ylim := (minx, 0);
            fg_marks := if show_label then Some
              {| mk_span := combine (slice (pi_start p) (pi_end p) (pi_freq p)) (slice (pi_start p) (pi_end p) (pi_db p));
                 mk_fund := fund; mk_harm := drawn_harmonics p up_to hs; mk_spur := (spur_x, spur_db);
                 mk_spur_label := refresh_spur minx 0 (Fin spur_db) (xaxes spur_x spur_db) 10 8;
                 mk_osr_line := Some (fs / 2 / osr); mk_noise_line := noise_line p; mk_block_x := block_x p;
                 mk_rows := metric_rows p (format_fin (ratio * fs));
                 mk_sig_x := if Rltb 1 osr then fst fund else (ratio + (if Rltb 0.4 ratio then - 0.01 else 0.01)) * fs;
                 mk_sig_ha := if Rltb 1 osr then HLeft else if Rltb 0.4 ratio then HRight else HLeft |} else None;
            fg_title := if show_title then plot_title p else TNone |}
  end)))).

(** ** plot_spectrum_virtuoso.py 65-226: harmonics (l.130-142), with the order checked first *)
Fixpoint virtuoso_harmonics (p : plot_input) (up_to : Z) (i n : nat) : result (list (nat * (R * R))) :=
  match n with
  | O => Ok []
  | S n' =>
      if (up_to <? Z.of_nat (i + 2))%Z || mem (i + 2) (pi_collided p) then virtuoso_harmonics p up_to (S i) n' else
      match nth_error (pi_harm_bins p) i with
      | None => Err IndexError
      | Some b =>
          bind (zget (pi_db p) b) (fun v =>
          bind (virtuoso_harmonics p up_to (S i) n') (fun rest =>
          Ok (if should_label_harmonic (Fin v) (line_level p) 20
              then ((i + 2)%nat, (IZR b * pi_fs p / INR (pi_N p), v)) :: rest else rest)))
      end
  end.
(** The stems run from [baseline] (l.96-103). *)
Definition plot_virtuoso (xaxes : R -> R -> xr) (p : plot_input) (show_title show_label : bool) (up_to : Z) (baseline_db : option R) : result (R * figure) :=
  bind (nget (pi_db p) (pi_spur p)) (fun spur_db =>
  let N := INR (pi_N p) in let fs := pi_fs p in let osr := pi_osr p in
  let floor := noise_floor_axis_min (line_level p) (Some (xsub_l (pi_sig p) (pi_sndr p))) in
  let minx := match baseline_db with None => floor | Some b => Rmin floor b end in
  let base := match baseline_db with None => floor | Some b => b end in
  let fig m := Ok (base, {| fg_curve := combine (pi_freq p) (pi_db p); fg_xlim := (fs / N, fs / 2); fg_ylim := (minx, 0);
                            fg_marks := m; fg_title := if show_title then TPower else TNone |}) in
  if negb show_label then fig None else
  bind (nget (pi_freq p) (pi_fund p)) (fun fx =>
  bind (nget (pi_db p) (pi_fund p)) (fun fy =>
  bind (match pi_harm_bins p with [] => Ok [] | _ => if (0 <? up_to)%Z then virtuoso_harmonics p up_to 0 (List.length (pi_harm_dbc p)) else Ok [] end) (fun hs =>
  let spur_x := INR (pi_spur p) / N * fs in
  fig (Some {| mk_span := []; mk_fund := (fx, fy); mk_harm := hs; mk_spur := (spur_x, spur_db);
               mk_spur_label := refresh_spur minx 0 (Fin spur_db) (xaxes spur_x spur_db) 10 8;
               mk_osr_line := if xfinite (line_level p) && Rltb 1 osr then Some (fs / 2 / osr) else None;
               mk_noise_line := noise_line p; mk_block_x := block_x p;
               mk_rows := metric_rows p (format_freq (INR (pi_fund p) / N * fs));
               mk_sig_x := fx; mk_sig_ha := HLeft |}))))).

(** ** analyze_spectrum.py 30-102 and 105-152 with coherent_averaging=False: compute, then plot.
    The printed warning and the added metric names are left out. *)
Definition analyze_spectrum (kaiser38 cheb100 : nat -> list R) (xaxes : R -> R -> xr) (data : list (list R)) (fs : R) (sc : scale) (wt : win)
    (side : option nat) (osr : R) (max_harmonic nf_method : Z) (assumed : option R) (create_plot show_title show_label : bool) (up_to : Z)
    : result (spectrum * option figure) :=
  bind (compute_spectrum kaiser38 cheb100 data fs sc wt side osr max_harmonic nf_method assumed 0) (fun sp =>
  if create_plot then
    bind (prepare_fft_input data sc) (fun rows =>
    bind (plot_spectrum xaxes (plot_input_of sp (ncols rows) (List.length rows) fs osr false) show_title show_label up_to) (fun fig => Ok (sp, Some fig)))
  else Ok (sp, None)).
Definition analyze_virtuoso (kaiser38 cheb100 : nat -> list R) (xaxes : R -> R -> xr) (data : list (list R)) (fs : R) (sc : scale) (wt : win)
    (side : option nat) (osr : R) (max_harmonic nf_method : Z) (assumed : option R) (create_plot show_title show_label : bool) (up_to : Z)
    : result (spectrum * option (R * figure)) :=
  bind (compute_spectrum kaiser38 cheb100 data fs sc wt side osr max_harmonic nf_method assumed 0) (fun sp =>
  if create_plot then
    bind (prepare_fft_input data sc) (fun rows =>
    bind (plot_virtuoso xaxes (plot_input_of sp (ncols rows) (List.length rows) fs osr false) show_title show_label up_to None) (fun fig => Ok (sp, Some fig)))
  else Ok (sp, None)).
