(** * Model of adctoolbox/aout/rearrange_error_by_value.py, rearrange_error_by_phase.py,
    _fit_error_phase.py and _infer_signal_range.py.
    Samples, ranges and clip settings are finite reals (so the isfinite checks pass), the bin count is
    an integer, and value_range is a pair; the fit diagnostics copied into the result are not modelled. *)
From Verif Require Import Base CalModel FitModel.
Local Open Scope R_scope.

(** numpy.bincount on non-negative indices: number of entries, and sum of the weights, per bin. *)
Definition bin_count (idx : list nat) (b : nat) : nat := length (filter (fun i => (i =? b)%nat) idx).
Definition bin_sum (idx : list nat) (w : list R) (b : nat) : R := lsum (map2 (fun i x => if (i =? b)%nat then x else 0) idx w).
(** by value l.93-97, by phase l.155-157: np.where(count > 0, sum / count, nan) and the rms. *)
Definition bin_mean (idx : list nat) (err : list R) (b : nat) : xr :=
  if (0 <? bin_count idx b)%nat then Fin (bin_sum idx err b / INR (bin_count idx b)) else NaN.
Definition bin_rms (idx : list nat) (err : list R) (b : nat) : xr :=
  if (0 <? bin_count idx b)%nat then Fin (sqrt (bin_sum idx (map (fun e => e ^ 2) err) b / INR (bin_count idx b))) else NaN.
(** np.clip of an integer to [0, n-1] *)
Definition clip_bin (n k : Z) : nat := Z.to_nat (Z.min (Z.max k 0) (n - 1)).

(** _infer_signal_range.py l.12-36; the caller has checked a given range, so the assertion holds.
    The signal is not empty. *)
Definition infer_signal_range (signal : list R) (given : option (R * R)) : R * R :=
  match given with
  | Some r => r
  | None =>
      let x := hd 0 signal in
      let s_min := lmin1 x signal in let s_max := lmax1 x signal in
      let abs_max := Rmax (Rabs s_min) (Rabs s_max) in
      if Rltb 2 abs_max then (s_min, s_max)
      else if Rltb (1 / 10) (lmean signal) then (0, 1)
      else if Rleb abs_max (6 / 10) then (- (1 / 2), 1 / 2)
      else (- 1, 1)
  end.

Record by_value := mkBV {
  v_mean : list xr; v_rms : list xr; v_centers : list R; v_counts : list nat;
  v_bins : list nat; v_error : list R; v_fitted : list R; v_freq : R }.
(** rearrange_error_by_value.py l.57-62 *)
Definition value_bin (n : Z) (v_min v_max x : R) : nat :=
  let scale := if Reqb (v_max - v_min) 0 then 0 else IZR (n - 1) / (v_max - v_min) in
  clip_bin n (round_he ((x - v_min) * scale)).
(** l.62 np.linspace(v_min, v_max, n_bins) *)
Definition value_center (n : Z) (v_min v_max : R) (k : nat) : R := if (n =? 1)%Z then v_min else v_min + INR k * ((v_max - v_min) / IZR (n - 1)).
(** l.77-85 the mask *)
Definition value_valid (n : Z) (clip : R) (k : nat) : bool :=
  if Rltb 0 clip then let margin := Zfloor (IZR n * clip) in ((margin <=? Z.of_nat k) && (Z.of_nat k <=? n - 1 - margin))%Z else true.
(** rearrange_error_by_value.py l.8-116 *)
Definition rearrange_error_by_value (lstsq : lstsq_fun) (signal : list R) (norm_freq : option R) (n_bins : option Z) (clip : R) (value_range : option (R * R)) (max_iter : Z) (tol : R) : result by_value :=
  raise_if (length signal =? 0)%nat ValueError (
  let n := match n_bins with Some k => k | None => 100%Z end in
  raise_if (n <=? 0)%Z ValueError (
  raise_if (Rltb clip 0) ValueError (
  raise_if (match value_range with Some (a, b) => Rleb b a | None => false end) ValueError (
  let '(v_min, v_max) := infer_signal_range signal value_range in
  raise_if (Rleb v_max v_min) ValueError (
  let bins := map (value_bin n v_min v_max) signal in
  bind (fit_core lstsq signal norm_freq max_iter tol) (fun fit =>
  let error := map2 Rminus signal (f_fitted fit) in
  raise_if (Rltb 0 clip && (n <=? Zfloor (IZR n * clip) * 2)%Z) ValueError (
  raise_if (negb (existsb (value_valid n clip) bins)) ValueError (
  let pairs := filter (fun p => value_valid n clip (fst p)) (combine bins error) in
  let idx := map fst pairs in let err := map snd pairs in
  let all := seq 0 (Z.to_nat n) in
  Ok (mkBV (map (bin_mean idx err) all) (map (bin_rms idx err) all) (map (value_center n v_min v_max) all) (map (bin_count idx) all)
           bins error (f_fitted fit) (match norm_freq with Some f => f | None => f_frequency fit end)))))))))).

(* ---------- by phase ---------- *)
(** np.mod(x, 2 pi) *)
Definition wrap2pi (x : R) : R := x - 2 * PI * IZR (Zfloor (x / (2 * PI))).
(** _fit_error_phase.py l.45-55: the design matrix. *)
Definition phase_design (base : bool) (phi : list R) : mat :=
  of_cols (length phi) ([fun t => cos (nth t phi 0) ^ 2; fun t => sin (nth t phi 0) ^ 2] ++ if base then [fun _ => 1] else []).
(** _fit_error_phase.py l.68-72: coefficient of determination of predictions [p] for [y]. *)
Definition r_squared (y p : list R) : R :=
  let ss_res := lsum (map2 (fun a b => (a - b) ^ 2) y p) in
  let ss_tot := lsum (map (fun a => (a - lmean y) ^ 2) y) in
  if Rltb (1 / 10 ^ 20) ss_tot then 1 - ss_res / ss_tot else 0.
(** _fit_error_phase.py l.12-80: clamped coefficients [am2; pm2; base] and r_squared.
    (numpy's lstsq failing to converge is not modelled.) *)
Definition fit_error_phase (lstsq : lstsq_fun) (y phi : list R) (base : bool) : (R * R * R) * R :=
  if (length y <? 2)%nat then ((0, 0, 0), 0)
  else let X := phase_design base phi in
       let co := lstsq X (fun i => nth i y 0) in
       ((Rmax 0 (co 0%nat), Rmax 0 (co 1%nat), if base then Rmax 0 (co 2%nat) else 0),
        r_squared y (map (mv X co) (seq 0 (length y)))).
(** rearrange_error_by_phase.py l.115-130 *)
Definition am_pm_split (A B : R) : R * R * R :=
  if Rltb 0 A then (Rmax 0 (2 * A), 0, Rmax 0 (B - A))
  else if Rltb A 0 then (0, Rmax 0 (-2 * A), Rmax 0 (B + A))
  else (0, 0, Rmax 0 B).
(** l.110-111 *)
Definition cos2_design (phi : list R) : mat := of_cols (length phi) [fun t => cos (2 * nth t phi 0); fun _ => 1].
(** l.108-135: variances (am, pm, base) *)
Definition phase_variances (lstsq : lstsq_fun) (error_sq phi : list R) (base : bool) : R * R * R :=
  if base then let co := lstsq (cos2_design phi) (fun i => nth i error_sq 0) in am_pm_split (co 0%nat) (co 1%nat)
  else let '(am, pm, _) := fst (fit_error_phase lstsq error_sq phi false) in (am, pm, 0).
(** l.145-147 *)
Definition phase_bin (n : Z) (phi : R) : nat := clip_bin n (Zfloor (phi / (2 * PI / IZR n))).
(** l.160 *)
Definition phase_center (n : Z) (k : nat) : R := INR k * (2 * PI / IZR n) + 2 * PI / IZR n / 2.
(** l.162-186 *)
Definition r_squared_binned (n : Z) (idx : list nat) (error : list R) (v : R * R * R) : R :=
  let '(am, pm, base) := v in
  let used := filter (fun b => (0 <? bin_count idx b)%nat) (seq 0 (Z.to_nat n)) in
  if (2 <? length used)%nat then
    let actual := map (fun b => match bin_rms idx error b with Fin r => r ^ 2 | _ => 0 end) used in
    let pred := map (fun b => am * cos (phase_center n b) ^ 2 + pm * sin (phase_center n b) ^ 2 + base) used in
    let ss_res := lsum (map2 (fun a b => (a - b) ^ 2) actual pred) in
    let ss_tot := lsum (map (fun a => (a - lmean actual) ^ 2) actual) in
    let m := lmean actual in
    if Rltb (1 / 10 ^ 20) ss_tot && Rltb (1 / 100 * m ^ 2 * INR (length actual)) ss_tot then 1 - ss_res / ss_tot
    else let rel := if Rltb (1 / 10 ^ 20) m then sqrt (ss_res / INR (length actual)) / m else 1 in Rmax 0 (1 - rel ^ 2)
  else 0.
Record by_phase := mkBP {
  p_am_v : R; p_am_relative : R; p_pm_v : R; p_pm_rad : R; p_base_v : R; p_total_v : xr; p_r2_raw : R; p_r2_binned : R;
  p_bin_rms : list xr; p_bin_mean : list xr; p_centers : list R; p_counts : list nat;
  p_amplitude : R; p_dc : R; p_freq : R; p_error : list R; p_phase : list R; p_bins : list nat; p_variances : R * R * R }.
(** rearrange_error_by_phase.py l.15-226 (n_bins = 0 divides by zero; a negative n_bins is refused by np.bincount). *)
Definition rearrange_error_by_phase (lstsq : lstsq_fun) (signal : list R) (norm_freq : option R) (n : Z) (base : bool) (max_iter : Z) (tol : R) : result by_phase :=
  bind (fit_core lstsq signal norm_freq max_iter tol) (fun fit =>
  let phase := map (fun t => 2 * PI * f_frequency fit * INR t + f_phase fit) (seq 0 (length signal)) in
  let error := map2 Rminus signal (f_fitted fit) in
  let wrapped := map wrap2pi phase in
  let error_sq := map (fun e => e ^ 2) error in
  let raw := fit_error_phase lstsq error_sq wrapped base in
  let v := phase_variances lstsq error_sq wrapped base in
  let '(am, pm, b0) := v in
  let amp := f_amplitude fit in
  raise_if (n =? 0)%Z ZeroDivisionError (raise_if (n <? 0)%Z ValueError (
  let idx := map (phase_bin n) wrapped in
  let all := seq 0 (Z.to_nat n) in
  Ok (mkBP (sqrt am) (if Rltb (1 / 10 ^ 10) amp then sqrt am / amp else 0) (sqrt pm) (if Rltb (1 / 10 ^ 10) amp then sqrt pm / amp else 0) (sqrt b0)
           (match error_sq with [] => NaN | _ => Fin (sqrt (lmean error_sq)) end) (snd raw) (r_squared_binned n idx error v)
           (map (bin_rms idx error) all) (map (bin_mean idx error) all) (map (phase_center n) all) (map (bin_count idx) all)
           amp (f_dc fit) (match norm_freq with Some f => f | None => f_frequency fit end) error phase idx v)))).
