(** * Model of the scripts of matlab/data_generation that write sine waves with one imperfection, and of matlab/src/dumped/errsin_hp.m.
    Random draws are arguments (one list per call of randn or rand, indexed from 0); the parameters the scripts fix
    (common_gen_sinewave.m l.15-24 and the lists at their tops) are arguments; a script whose lists have one entry is one data set.
    Arithmetic is exact.  Not modelled: spectra, figures and files, except the names that tell data sets apart. *)
From Verif Require Import Base Cplx TiModel CalModel SiggenModel RearModel MatModel MsinModel MerrModel.
Local Open Scope R_scope.

(** common_gen_sinewave.m l.21: ideal_phase. *)
Definition w_phase (fin fs : R) (k : nat) : R := 2 * PI * fin * INR k * 1 / fs.
(** gen_sinewave_noise.m l.12 (and the first line of the loop in the scripts below): A * sin(ideal_phase) + DC + randn * Noise_rms. *)
Definition w_noise (N : nat) (A DC fin fs rms : R) (d : list R) : list R :=
  map (fun k => A * sin (w_phase fin fs k) + DC + nth k d 0 * rms) (seq 0 N).
(** gen_sinewave_jitter.m l.9-12, gen_sinewave_nyquist_zones.m l.23-25, gen_jitter_sweep_data.m l.42-46. *)
Definition w_jitter (N : nat) (A DC fin fs Tj rms : R) (d1 d2 : list R) : list R :=
  map (fun k => A * sin (w_phase fin fs k + nth k d1 0 * (2 * PI * fin * Tj)) + DC + nth k d2 0 * rms) (seq 0 N).
(** gen_sinewave_am_noise.m l.10-17. *)
Definition w_am_noise (N : nat) (A DC fin fs strength rms : R) (d1 d2 : list R) : list R :=
  map (fun k => A * sin (w_phase fin fs k) * (1 + nth k d1 0 * strength) + DC + nth k d2 0 * rms) (seq 0 N).
(** gen_sinewave_am_pm_noise.m l.37-38: absolute amplitude noise. *)
Definition w_am_abs (N : nat) (A DC fin fs rms : R) (d : list R) : list R :=
  map (fun k => (A + nth k d 0 * rms) * sin (w_phase fin fs k) + DC) (seq 0 N).
(** gen_sinewave_am_pm_noise.m l.21, 26-27: phase noise of target / A radians. *)
Definition w_pm_abs (N : nat) (A DC fin fs rms : R) (d : list R) : list R :=
  map (fun k => A * sin (w_phase fin fs k + nth k d 0 * (rms / A)) + DC) (seq 0 N).
(** gen_sinewave_am_tone.m l.8-17. *)
Definition w_am_tone (N : nat) (A DC fin fs depth fam rms : R) (d : list R) : list R :=
  map (fun k => A * sin (w_phase fin fs k) * (1 + depth * sin (2 * PI * fam * (INR k / fs))) + DC + nth k d 0 * rms) (seq 0 N).
(** gen_sinewave_clipping.m l.12. *)
Definition w_clip (th x : R) : R := Rmin (Rmax x th) (1 - th).
(** gen_sinewave_drift.m l.13. *)
Definition w_drift (N : nat) (amp : R) (k : nat) : R := (1 - exp (- INR k / INR N * 10)) * amp.
(** gen_sinewave_glitch.m l.10-14. *)
Definition w_glitch (N : nat) (A DC fin fs prob rms : R) (d u : list R) : list R :=
  map (fun k => A * sin (w_phase fin fs k) + DC + nth k d 0 * rms + (if Rltb (nth k u 0) prob then 1 else 0) * 0.1) (seq 0 N).
(** gen_sinewave_nonlin_hd.m l.14-25 (also gen_sinewave_multirun.m l.8-15), one sample of the distorted sine. *)
Definition w_hd (A db2 db3 x : R) : R :=
  let hd2 := Rpower 10 (db2 / 20) in let hd3 := Rpower 10 (db3 / 20) in
  let coef2 := hd2 / (A / 2) in let coef3 := hd3 / (A ^ 2 / 4) in
  x + coef2 * x ^ 2 + coef3 * x ^ 3.
Definition w_nonlin_hd (N : nat) (A fin fs db2 db3 rms : R) (d : list R) : list R :=
  map (fun k => w_hd A db2 db3 (A * sin (w_phase fin fs k)) + 0.5 + nth k d 0 * rms) (seq 0 N).
(** gen_sinewave_nonlin_static.m l.40-44, with the noise of l.47. *)
Definition w_static (k1 k2 k3 k4 k5 x : R) : R := k1 * x + k2 * x ^ 2 + k3 * x ^ 3 + k4 * x ^ 4 + k5 * x ^ 5.
Definition w_nonlin_static (N : nat) (A fin fs k1 k2 k3 k4 k5 : R) (d : list R) : list R :=
  map (fun k => w_static k1 k2 k3 k4 k5 (A * sin (w_phase fin fs k)) + 0.5 + nth k d 0 * (1 / 10 ^ 4)) (seq 0 N).
(** gen_sinewave_nonlin_dynamic.m l.36-53: the settling loop. *)
Fixpoint w_settle (T tau k v_prev : R) (x : list R) : list R :=
  match x with
  | [] => []
  | v :: t => let out := v + (v_prev - v) * exp (- T / (tau * (1 + k * v ^ 2))) in out :: w_settle T tau k out t
  end.
(** gen_sinewave_nonlin_dynamic.m l.19-55: the frequency in the name of the file and the data.  ideal_phase is still that of
    common_gen_sinewave, of frequency [fin]. *)
Definition w_nonlin_dynamic (N : nat) (A DC fin fs target tau coeff rms : R) (d : list R) : R * list R :=
  let J0 := m_round (target / fs * INR N) in
  let J := if (J0 mod 2 =? 0)%Z then (J0 + 1)%Z else J0 in
  let vout := w_settle (1 / fs * 0.2) tau coeff 0 (map (fun k => A * sin (w_phase fin fs k)) (seq 0 N)) in
  (IZR J * fs / INR N, map (fun k => nth k vout 0 + DC + nth k d 0 * rms) (seq 0 N)).
(** gen_sinewave_nyquist_zones.m l.16-17, 27: the coherent frequency and the zone in the name of the file. *)
Definition w_zone (N : nat) (fs target : R) : result (option Z) :=
  bind (m_findbin N fs target (Z.of_nat N)) (fun o =>
  Ok (match o with Some J => let fin := IZR J / INR N * fs in Some (Zceil (fin / (fs / 2))) | None => None end)).

(** ** dumped/errsin_hp.m *)
(** l.78-79: the phase in degrees. *)
Definition hp_deg (phi fin : R) (t : nat) : R := m_mod ((2 * PI * fin * INR t + phi) * 180 / PI) 360.
(** l.84 *)
Definition hp_rad (phi fin : R) (t : nat) : R := m_mod (2 * PI * fin * INR t + phi) (2 * PI).
(** l.89-95: the raw regression of err^2. *)
Definition hp_coeffs (mldivide : lstsq_fun) (phi fin : R) (err : list R) : vec :=
  mldivide (of_cols (length err) [fun t => cos (hp_rad phi fin t) ^ 2; fun t => sin (hp_rad phi fin t) ^ 2]) (fun t => nth t err 0 ^ 2).
(** l.98-101 *)
Definition hp_noise (mag : R) (co : vec) : R * R := (sqrt (Rmax 0 (co 0%nat)), sqrt (Rmax 0 (co 1%nat)) / mag).
(** l.104-105: the bin of a phase, counted from zero; the phase is not negative. *)
Definition hp_bin (bin : Z) (deg : R) : nat := Z.to_nat (Z.min (Zfloor (deg / 360 * IZR bin)) (bin - 1)).
(** l.81 *)
Definition hp_xx (bin : Z) (k : nat) : R := INR k / IZR bin * 360.
(** l.108-114 (and l.66-71): sums over the bin divided by max(1, number). *)
Definition hp_per (idx : list nat) (v : list R) (b : nat) : R := bin_sum idx v b / Rmax 1 (INR (bin_count idx b)).
Definition hp_dev (idx : list nat) (err : list R) (b : nat) : R :=
  hp_per idx (map2 (fun i e => (e - hp_per idx err i) ^ 2) idx err) b.
(** l.117-141: the goodness of fit over the bins with data. *)
Definition hp_r2 (bin : Z) (co : vec) (idx : list nat) (err : list R) : R :=
  let valid := filter (fun b => (0 <? bin_count idx b)%nat) (seq 0 (Z.to_nat bin)) in
  let model k := co 0%nat * cos (hp_xx bin k / 180 * PI) ^ 2 + co 1%nat * sin (hp_xx bin k / 180 * PI) ^ 2 in
  let y := map (hp_dev idx err) valid in
  match valid with
  | [] => 0
  | _ => let ss_res := lsum (map2 (fun k v => (v - model k) ^ 2) valid y) in
         let ss_tot := lsum (map (fun v => (v - lmean y) ^ 2) y) in
         if Rltb ss_tot (1 / 10 ^ 20) then 1 else 1 - ss_res / ss_tot
  end.
(** The outputs; the amplitude and phase noise and R2 of value mode are NaN. *)
Record hp_out := mkHp { hp_mean : list R; hp_rms : list R; hp_x : list R; hp_noi : option (R * R); hp_err : list R; hp_errxx : list R; hp_R2 : option R }.
(** l.76-147 *)
Definition hp_by_phase (mldivide : lstsq_fun) (bin : Z) (erange : option (R * R)) (mag phi fin : R) (err : list R) : hp_out :=
  let deg := map (hp_deg phi fin) (seq 0 (length err)) in
  let co := hp_coeffs mldivide phi fin err in
  let idx := map (hp_bin bin) deg in
  let all := seq 0 (Z.to_nat bin) in
  let '(xs, es) := m_erange erange deg err in
  mkHp (map (hp_per idx err) all) (map (fun b => sqrt (hp_dev idx err b)) all) (map (hp_xx bin) all) (Some (hp_noise mag co)) es xs (Some (hp_r2 bin co idx err)).
(** l.58-72; the signal is not constant. *)
Definition hp_value_bin (bin : Z) (lo hi x : R) : nat :=
  let wid := (hi - lo) / IZR bin in Z.to_nat (Z.min (Z.max (Zfloor ((x - lo) / wid) + 1) 1) bin - 1).
Definition hp_by_value (bin : Z) (sig err : list R) : hp_out :=
  let lo := lmin1 (hd 0 sig) sig in let hi := lmax1 (hd 0 sig) sig in
  let wid := (hi - lo) / IZR bin in
  let idx := map (hp_value_bin bin lo hi) sig in
  let all := seq 0 (Z.to_nat bin) in
  mkHp (map (hp_per idx err) all) (map (fun b => sqrt (hp_dev idx err b)) all) (map (fun k => lo + INR (k + 1) * wid - wid / 2) all) None err sig None.
(** l.33-151: 'bin' a positive whole number, 'fin' None when not given.  Without a fit (constant signal) nothing can be indexed. *)
Definition errsin_hp (linsolve : lstsq_fun) (sig : list R) (bin : Z) (fin : option R) (value : bool) (erange : option (R * R)) : result hp_out :=
  raise_if ((bin <=? 0)%Z || match fin with Some f => Rleb f 0 || Rleb 1 f | None => false end) RuntimeError
  (bind (m_sinfit linsolve (map (fun x => [x]) sig) (match fin with Some f => f | None => 0 end) (1 / 10 ^ 12) (1 / 2) false 100) (fun o =>
   match o with
   | None => Err RuntimeError
   | Some r =>
       let f := match fin with Some f => f | None => mf_freq r end in
       let err := map2 Rminus (mf_fitout r) sig in                                        (* l.55 *)
       Ok (if value then hp_by_value bin sig err else hp_by_phase linsolve bin erange (mf_mag r) (mf_phi r) f err)
   end)).
