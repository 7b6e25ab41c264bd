(** * Model of what adctoolbox/siggen/nonidealities.py takes from scipy: apply_jitter on a given signal and apply_drift; and of
    utils/vpp_for_target_dbfs.py.
    scipy's CubicSpline, butter and filtfilt are modelled as documented (scipy.interpolate, scipy.signal), called with their defaults.
    Arithmetic is exact, the random draws are arguments (N of them) and so is the solver of linear systems; butter's coefficients are
    those of the bilinear transform in closed form.  Signals are one-dimensional. *)
From Verif Require Import Base UnitsModel CalModel SiggenModel.
Local Open Scope R_scope.

(** ** apply_jitter with an input signal (nonidealities.py l.94-100) *)
(** CubicSpline(t, y) for knots a distance h apart.  The slopes solve a tridiagonal system whose first and last rows say that the third
    derivative does not jump at the second and the last but one knot; with three knots it is the parabola, with two the line. *)
Definition sp_slope (h : R) (y : vec) (i : nat) : R := (y (S i) - y i) / h.
Definition sp_matrix (n : nat) (h : R) : mat :=
  mkMat n n (fun i j =>
    if (n =? 3)%nat then
      (if (i =? 1)%nat then (if (j =? 1)%nat then 2 * (h + h) else h)
       else if (i =? 0)%nat then (if (j =? 2)%nat then 0 else 1) else (if (j =? 0)%nat then 0 else 1))
    else if (i =? 0)%nat then (if (j =? 0)%nat then h else if (j =? 1)%nat then 2 * h else 0)
    else if (i =? n - 1)%nat then (if (j =? n - 1)%nat then h else if (j =? n - 2)%nat then 2 * h else 0)
    else if (j =? i)%nat then 2 * (h + h) else if (S j =? i)%nat then h else if (j =? S i)%nat then h else 0).
Definition sp_right (n : nat) (h : R) (y : vec) : vec := fun i =>
  let m := sp_slope h y in
  if (n =? 3)%nat then
    (if (i =? 1)%nat then 3 * (h * m 1%nat + h * m 0%nat) else if (i =? 0)%nat then 2 * m 0%nat else 2 * m 1%nat)
  else if (i =? 0)%nat then ((h + 2 * (2 * h)) * h * m 0%nat + h ^ 2 * m 1%nat) / (2 * h)
  else if (i =? n - 1)%nat then (h ^ 2 * m (n - 3)%nat + (2 * (2 * h) + h) * h * m (n - 2)%nat) / (2 * h)
  else 3 * (h * m (i - 1)%nat + h * m i).
Definition sp_slopes (lin : lstsq_fun) (n : nat) (h : R) (y : vec) : vec :=
  if (n =? 2)%nat then fun _ => sp_slope h y 0 else lin (sp_matrix n h) (sp_right n h y).
(** The cubic of interval i at the distance u from its left end. *)
Definition sp_piece (h : R) (y s : vec) (i : nat) (u : R) : R :=
  let m := sp_slope h y i in
  let t := (s i + s (S i) - 2 * m) / h in
  t / h * u ^ 3 + ((m - s i) / h - t) * u ^ 2 + s i * u + y i.
(** The interval of time v: the first one before the record, the last one after it. *)
Definition sp_interval (n : nat) (h v : R) : nat := Nat.min (Z.to_nat (Zfloor (v / h))) (n - 2).
Definition sp_at (lin : lstsq_fun) (n : nat) (h : R) (y : vec) (v : R) : R :=
  let i := sp_interval n h v in sp_piece h y (sp_slopes lin n h y) i (v - INR i * h).
(** l.87-100; CubicSpline raises for fewer than two points, for t and signal of different length and for t that does not increase. *)
Definition apply_jitter (lin : lstsq_fun) (g : gen) (s : option (list R)) (jitter_rms : R) (draws : list R) : result (list R) :=
  match s with
  | None => Ok (jitter_clean g jitter_rms draws)
  | Some x =>
      raise_if ((g_N g <? 2)%nat || negb (length x =? g_N g)%nat || Rleb (g_Fs g) 0) ValueError (
      Ok (map2 (fun i d => sp_at lin (g_N g) (/ g_Fs g) (fun k => nth k x 0) (INR i / g_Fs g + d * jitter_rms)) (seq 0 (g_N g)) draws))
  end.

(** ** apply_drift (nonidealities.py l.311-318) *)
(** scipy.signal.butter(2, w) for 0 < w < 1, w in units of half the sampling rate. *)
Definition butter2 (w : R) : list R * list R :=
  let k := tan (PI * w / 2) in
  let d := 1 + sqrt 2 * k + k ^ 2 in
  ([k ^ 2 / d; 2 * (k ^ 2 / d); k ^ 2 / d], [1; 2 * (k ^ 2 - 1) / d; (1 - sqrt 2 * k + k ^ 2) / d]).
(** scipy.signal.lfilter(b, a, x, zi) for three coefficients each with a[0] = 1. *)
Fixpoint lfilter2 (b0 b1 b2 a1 a2 z0 z1 : R) (x : list R) : list R :=
  match x with
  | [] => []
  | v :: t => let y := b0 * v + z0 in y :: lfilter2 b0 b1 b2 a1 a2 (b1 * v - a1 * y + z1) (b2 * v - a2 * y) t
  end.
(** scipy.signal.lfilter_zi. *)
Definition lfilter_zi2 (b0 b1 b2 a1 a2 : R) : R * R :=
  let z0 := ((b1 - a1 * b0) + (b2 - a2 * b0)) / (1 + a1 + a2) in
  (z0, (1 + a1) * z0 - (b1 - a1 * b0)).
(** scipy.signal.filtfilt: odd extension by 9 samples at either end, forwards, backwards. *)
Definition odd_ext (e : nat) (x : list R) : list R :=
  let n := length x in
  map (fun i => 2 * nth 0 x 0 - nth (e - i) x 0) (seq 0 e) ++ x ++ map (fun i => 2 * nth (n - 1) x 0 - nth (n - 2 - i) x 0) (seq 0 e).
Definition filtfilt (c : list R * list R) (x : list R) : result (list R) :=
  let e := 9%nat in
  let co l i := nth i l 0 in
  let b := fst c in let a := snd c in
  raise_if (length x <=? e)%nat ValueError (
  let zi := lfilter_zi2 (co b 0%nat) (co b 1%nat) (co b 2%nat) (co a 1%nat) (co a 2%nat) in
  let pass l := lfilter2 (co b 0%nat) (co b 1%nat) (co b 2%nat) (co a 1%nat) (co a 2%nat) (fst zi * hd 0 l) (snd zi * hd 0 l) l in
  Ok (firstn (length x) (skipn e (rev (pass (rev (pass (odd_ext e x)))))))).
(** np.cumsum. *)
Fixpoint cumsum_from (acc : R) (x : list R) : list R := match x with [] => [] | v :: t => (acc + v) :: cumsum_from (acc + v) t end.
(** l.311-318; adding arrays of different length is an error unless one has a single element, which the signal may. *)
Definition apply_drift (g : gen) (s : option (list R)) (drift_scale : R) (draws : list R) : result (list R) :=
  let x := resolve_signal g s in
  let walk := cumsum_from 0 (map (fun d => d * drift_scale) draws) in
  bind (filtfilt (butter2 0.001) walk) (fun drift =>
  if (length x =? length drift)%nat then Ok (map2 Rplus x drift)
  else if (length x =? 1)%nat then Ok (map (fun d => nth 0 x 0 + d) drift)
  else Err ValueError).

(** ** utils/vpp_for_target_dbfs.py l.10-33 *)
Definition vpp_for_target_dbfs (vpp_current measured target : R) : R := vpp_current * db_to_mag (target - measured).
