(** * Model of adctoolbox/aout/plot_dnl_inl.py, plot_decomposition_time.py, plot_decomposition_polar.py
    and of the wrappers analyze_inl_from_ramp.py, analyze_inl_from_sine.py, analyze_decomposition_time.py
    and analyze_decomposition_polar.py.
    A figure is what is handed to matplotlib: the plotted values, the axis limits and the texts that show
    numbers.  Colours, fonts, legends and the splitting of an axis into two are not represented.
    Arithmetic is exact. *)
From Verif Require Import Base SpecModel RampModel SineHistModel TiModel CalModel FitModel HarmModel PlotModel.
Local Open Scope R_scope.

(** Every entry a number? *)
Fixpoint all_fin (l : list xr) : option (list R) :=
  match l with
  | [] => Some []
  | Fin v :: t => match all_fin t with Some w => Some (v :: w) | None => None end
  | _ :: _ => None
  end.

(* ---------- plot_dnl_inl.py ---------- *)
Record panel := mkPanel { pn_x : list R; pn_y : list R; pn_xlim : R * R; pn_ylim : R * R }.
(** l.108-161 _plot_single_curve.  ax.plot refuses unequal lengths (l.135), np.min an empty array (l.156)
    and set_ylim limits that are nan or infinite (l.161), each with ValueError. *)
Definition single_curve (code : list Z) (data : list xr) (num_bits : option nat) : result panel :=
  raise_if (negb (length code =? length data)%nat) ValueError (
  raise_if (length data =? 0)%nat ValueError (
  match all_fin data with
  | None => Err ValueError
  | Some v =>
      let x := match num_bits with Some b => map (fun c => IZR c / 2 ^ b) code | None => map IZR code end in
      let xlim := match num_bits with Some _ => (0, 1) | None => (IZR (zmin_list code), IZR (zmax_list code)) end in
      let lo := rmin_list v in let hi := rmax_list v in
      let ylim := if Rleb (Rmax (Rabs lo) (Rabs hi)) 1 then (-1, 1) else (lo * (12 / 10), hi * (12 / 10)) in
      Ok (mkPanel x v xlim ylim)
  end)).
(** l.137-139: the two reference lines. *)
Definition reference_lines : list R := [1; -1].
(** l.100-104 DNL/INL = [min, max] with two decimals. *)
Definition range_text (v : list R) : num * num := (fixed 2 (rmin_list v), fixed 2 (rmax_list v)).
Record dnl_inl_figure := mkDI { di_dnl : panel; di_inl : panel; di_titles : option ((num * num) * (num * num)) }.
(** l.12-106 *)
Definition plot_dnl_inl (code : list Z) (dnl inl : list xr) (num_bits : option nat) (show_title : bool) (inl_code : option (list Z)) : result dnl_inl_figure :=
  bind (single_curve code dnl num_bits) (fun a =>
  bind (single_curve (match inl_code with Some c => c | None => code end) inl num_bits) (fun b =>
  Ok (mkDI a b (if show_title then Some (range_text (pn_y a), range_text (pn_y b)) else None)))).
(** analyze_inl_from_ramp.py l.79-104; [codes_input] is the comparison of l.79. *)
Definition analyze_inl_from_ramp (codes_input : bool) (codes : list xr) (num_bits : option Z) (code_min : Z) (code_max : option Z)
    (ep : endpoint_mode) (exclude_endpoints create_plot show_title : bool) : result (ramp_result * option dnl_inl_figure) :=
  raise_if (negb codes_input) ValueError (
  bind (compute_inl_from_ramp codes num_bits code_min code_max ep exclude_endpoints) (fun r =>
  if create_plot then
    bind (plot_dnl_inl (r_code r) (map Fin (r_dnl r)) (map Fin (r_inl r)) (option_map Z.to_nat num_bits) show_title (Some (r_trans r))) (fun g => Ok (r, Some g))
  else Ok (r, None))).
(** analyze_inl_from_sine.py l.51-76 *)
Definition analyze_inl_from_sine (is_float : bool) (data : list R) (num_bits : option nat) (full_scale : option R) (clip_percent : R)
    (create_plot show_title : bool) : result (sine_result * option dnl_inl_figure) :=
  bind (compute_inl_from_sine is_float data num_bits full_scale clip_percent) (fun r =>
  if create_plot then
    bind (plot_dnl_inl (s_codes r) (s_dnl r) (s_inl r) num_bits show_title None) (fun g => Ok (r, Some g))
  else Ok (r, None)).

(* ---------- plot_decomposition_time.py ---------- *)
(** l.134-137 and l.161-164: limits with a margin of a tenth of the range, 0.1 for a constant. *)
Definition margin_limits (v : list R) : R * R :=
  let lo := rmin_list v in let hi := rmax_list v in
  let m := if Reqb (hi - lo) 0 then 1 / 10 else (hi - lo) * (1 / 10) in (lo - m, hi + m).
(** l.101-106: number of samples shown (n_cycles >= 0). *)
Definition samples_shown (n : nat) (freq n_cycles : R) : nat :=
  if Rltb 0 freq then Nat.min (Z.to_nat (Ztrunc (n_cycles * IZR (Ztrunc (1 / freq))))) n else Nat.min 50 n.
(** l.108-115: first sample and end of the window. *)
Definition time_window (n m d : nat) : nat * nat :=
  let s := (m - d / 3)%nat in
  let e := Nat.min n (s + d) in
  if ((e =? n) && (e - s <? d))%nat then ((e - d)%nat, e) else (s, e).
Record time_figure := mkTF {
  tf_index : list nat; tf_signal : list R; tf_fitted : list R; tf_harmonic : list R; tf_other : list R;
  tf_xlim : nat * nat; tf_top : R * R; tf_bottom : R * R }.
(** l.55-170 for a one-dimensional signal of the length of the fitted one (broadcasting a single sample is
    not represented).  np.argmax (l.98) and np.min (l.134) refuse an empty array. *)
Definition plot_decomposition_time (fundamental harmonic noise : list R) (freq : R) (signal : list R) (n_cycles : R) : result time_figure :=
  raise_if (negb (length signal =? length fundamental)%nat) ValueError (
  raise_if (length signal =? 0)%nat ValueError (
  let m := argmax (map Rabs (map2 Rminus signal fundamental)) in
  let d := samples_shown (length signal) freq n_cycles in
  let '(s, e) := time_window (length signal) m d in
  raise_if (e - s =? 0)%nat ValueError (
  Ok (mkTF (seq (s + 1) (e - s)) (slice s e signal) (slice s e fundamental) (slice s e harmonic) (slice s e noise)
           ((s + 1)%nat, e) (margin_limits (slice s e signal)) (margin_limits (slice s e harmonic ++ slice s e noise)))))).
(** analyze_decomposition_time.py l.51-70 *)
Definition analyze_decomposition_time (lstsq : lstsq_fun) (signal : list R) (harmonic : Z) (n_cycles : R) (create_plot : bool) (frequency : option R) (max_iter : Z) (tol : R) : result (harm_result * option time_figure) :=
  bind (decompose_harmonic_error lstsq [signal] harmonic frequency max_iter tol) (fun r =>
  if create_plot then
    bind (plot_decomposition_time (h_fundamental r) (h_harmonic r) (h_noise r) (h_freq r) signal n_cycles) (fun g => Ok (r, Some g))
  else Ok (r, None)).

(* ---------- plot_decomposition_polar.py ---------- *)
Record polar_figure := mkPF {
  pf_points : list (R * R);          (* angle and radius of every marked harmonic, in order *)
  pf_noise_radius : xr; pf_noise_text : num;
  pf_ticks : list (R * Z);           (* radius and label *)
  pf_max_radius : R }.
(** np.arange(0, max_radius + 1, 10) and the labels str(int(base + value)), l.140-147 *)
Definition radial_ticks (base max_radius : R) : list (R * Z) :=
  map (fun i => (10 * INR i, Ztrunc (base + 10 * INR i))) (seq 0 (Z.to_nat (Zceil ((max_radius + 1) / 10)))).
(** l.94 min(a, noise): Python keeps a when the comparison with nan fails. *)
Definition min_noise (a : R) (noise : xr) : option R :=
  match noise with Fin v => Some (if Rltb v a then v else a) | NInf => None | _ => Some a end.
(** l.53-158, harmonic >= 0.  np.max refuses an empty array (l.92, ValueError), l.120 an order beyond the
    array (IndexError), np.arange an infinite or undefined end (l.141, ValueError). *)
Definition plot_decomposition_polar (phases : list R) (magnitudes_db : list xr) (noise_db : xr) (harmonic : nat) : result polar_figure :=
  let ph := firstn harmonic phases in let db := firstn harmonic magnitudes_db in
  raise_if (length db =? 0)%nat ValueError (
  raise_if ((length db <? harmonic) || (length ph <? harmonic))%nat IndexError (
  match all_fin db with
  | None => Err ValueError
  | Some v =>
      match min_noise (rmin_list v) noise_db with
      | None => Err ValueError
      | Some low =>
          let max_r := IZR (Zceil (rmax_list v / 10)) * 10 in
          let min_r := IZR (Zfloor ((low - 10) / 10)) * 10 in
          Ok (mkPF (combine ph (map (fun x => x - min_r) v))
                   (match noise_db with Fin x => Fin (x - min_r) | _ => noise_db end) (fmt2 noise_db)
                   (radial_ticks min_r (max_r - min_r)) (max_r - min_r))
      end
  end)).
(** analyze_decomposition_polar.py l.48-66 *)
Definition analyze_decomposition_polar (lstsq : lstsq_fun) (signal : list R) (harmonic : Z) (create_plot : bool) (frequency : option R) (max_iter : Z) (tol : R) : result (harm_result * option polar_figure) :=
  bind (decompose_harmonic_error lstsq [signal] harmonic frequency max_iter tol) (fun r =>
  if create_plot then
    bind (plot_decomposition_polar (h_phases r) (h_magnitudes_db r) (h_noise_db r) (Z.to_nat harmonic)) (fun g => Ok (r, Some g))
  else Ok (r, None)).
