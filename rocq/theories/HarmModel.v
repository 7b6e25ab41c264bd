(** * Model of adctoolbox/aout/decompose_harmonic_error.py and _fit_sine_harmonics.py.
    The input is a non-empty rectangular array given by its rows (one run per row). *)
From Verif Require Import Base Cplx UnitsModel TiModel CalModel FitModel AcfModel.
Local Open Scope R_scope.

(** decompose_harmonic_error.py l.85-87: an array with one column holds one run. *)
Definition harm_rows (rows : list (list R)) : list (list R) := if (length (hd [] rows) =? 1)%nat then [map (fun r => hd 0 r) rows] else rows.
(** l.90 np.mean(signal, axis=0) *)
Definition harm_average (rows : list (list R)) : list R :=
  map (fun t => lmean (map (fun r => nth t r 0) rows)) (seq 0 (length (hd [] rows))).
(** _fit_sine_harmonics.py l.80-101: columns 1, cos 1, sin 1, cos 2, sin 2, ... *)
Definition harm_basis (n : nat) (freq : R) (H : nat) : mat :=
  mkMat n (2 * H + 1) (fun t j =>
    if (j =? 0)%nat then 1
    else let ph := INR ((j + 1) / 2) * (2 * PI * freq * INR t) in if Nat.odd j then cos ph else sin ph).
(** l.165 (x + pi) % (2 pi) - pi *)
Definition wrap_phase (x : R) : R := let y := x + PI in y - 2 * PI * IZR (Zfloor (y / (2 * PI))) - PI.
(** x / y with numpy's treatment of a zero divisor, then 20 log10(. + shift). *)
Definition db_ratio (x y shift : R) : xr :=
  if Reqb y 0 then (if Reqb x 0 then NaN else if Rltb 0 x then PInf else NaN) else mag_to_db (x / y + shift).

Record harm_result := mkHarm {
  h_magnitudes : list R; h_phases : list R; h_magnitudes_db : list xr; h_residual_rms : R; h_noise_db : xr; h_freq : R;
  h_noise : list R; h_reconstructed : list R; h_fundamental : list R; h_harmonic : list R }.
(** decompose_harmonic_error.py l.84-181.  An empty order list makes np.column_stack raise ValueError, an
    empty record np.max. *)
Definition decompose_harmonic_error (lstsq : lstsq_fun) (rows : list (list R)) (n_harmonics : Z) (frequency : option R) (max_iter : Z) (tol : R) : result harm_result :=
  let avg := harm_average (harm_rows rows) in
  let dc := lmean avg in
  let zm := map (fun x => x - dc) avg in
  bind (fit_core lstsq zm frequency max_iter tol) (fun fit =>
  let freq := f_frequency fit in
  raise_if (n_harmonics <=? 0)%Z ValueError (
  let H := Z.to_nat n_harmonics in
  let n := length zm in
  raise_if (n =? 0)%nat ValueError (
  let basis := harm_basis n freq H in
  let W := lstsq basis (fun i => nth i zm 0) in
  let recon := map (mv basis W) (seq 0 n) in
  let fund := map (fun t => m_at basis t 0 * W 0%nat + m_at basis t 1 * W 1%nat + m_at basis t 2 * W 2%nat) (seq 0 n) in
  let harm := map2 Rminus recon fund in
  let noise := map2 Rminus zm recon in
  let residual_rms := sqrt (lmean (map (fun x => x ^ 2) noise)) * 2 * sqrt 2 in
  let range := lmax1 (hd 0 avg) avg - lmin1 (hd 0 avg) avg in
  let coef := fun h => (W (2 * h + 1)%nat, W (2 * h + 2)%nat) in
  let magnitudes := map (fun h => Cmod (coef h) * 2) (seq 0 H) in
  let phases := map (fun h => wrap_phase (Carg (coef h) - Carg (coef 0%nat) * INR (h + 1))) (seq 0 H) in
  Ok (mkHarm magnitudes phases (map (fun m => db_ratio m range (1 / 10 ^ 20)) magnitudes) residual_rms (db_ratio residual_rms range 0) freq
             noise (map (fun x => x + dc) recon) (map (fun x => x + dc) fund) harm)))).
