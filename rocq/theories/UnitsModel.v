(** * Model of adctoolbox/fundamentals/{units,snr_nsd,metrics}.py
    All functions are modelled on scalar arguments; the array versions apply the same
    expression elementwise.  Values are exact reals; [xr] results carry the inf/nan that
    numpy's log10 and sqrt produce outside their domain. *)
From Verif Require Import Base.
Local Open Scope R_scope.

(** Python [10 ** x] and [2 ** x] for a float exponent. *)
Definition pow10 (x : R) : R := Rpower 10 x.
(** np.log10 of a finite float. *)
Definition xlog10 (x : R) : xr :=
  if Rltb 0 x then Fin (ln x / ln 10) else if Reqb x 0 then NInf else NaN.
(** np.sqrt of a finite float. *)
Definition xsqrt (x : R) : xr := if Rltb x 0 then NaN else Fin (sqrt x).
(** [a + k * x] for finite a and finite k <> 0. *)
Definition xaxpy (a k : R) (x : xr) : xr :=
  match x with
  | Fin r => Fin (a + k * r)
  | PInf => if Rltb 0 k then PInf else NInf
  | NInf => if Rltb 0 k then NInf else PInf
  | NaN => NaN
  end.

(** units.py 7-9, 11-13, 15-17, 19-21 *)
Definition db_to_mag (db : R) : R := pow10 (db / 20).
Definition mag_to_db (mag : R) : xr := xaxpy 0 20 (xlog10 mag).
Definition db_to_power (db : R) : R := pow10 (db / 10).
Definition power_to_db (power : R) : xr := xaxpy 0 10 (xlog10 power).

(** units.py 23-25, 27-29; 2**n_bits for an int exponent of either sign. *)
Definition lsb_to_volts (lsb vref : R) (n_bits : Z) : R := lsb * (vref / powerRZ 2 n_bits).
Definition volts_to_lsb (volts vref : R) (n_bits : Z) : result R :=
  let d := vref / powerRZ 2 n_bits in
  if Reqb d 0 then Err ZeroDivisionError else Ok (volts / d).

(** units.py 31-33, 35-37 *)
Definition bin_to_freq (bin_idx fs : R) (n_fft : Z) : result R :=
  if (n_fft =? 0)%Z then Err ZeroDivisionError else Ok (bin_idx * fs / IZR n_fft).
Definition freq_to_bin (freq fs : R) (n_fft : Z) : result Z :=
  if Reqb fs 0 then Err ZeroDivisionError else Ok (round_he (freq * IZR n_fft / fs)).

(** units.py 39-41, 43-45 *)
Definition snr_to_enob (snr_db : R) : R := (snr_db - 1.76) / 6.02.
Definition enob_to_snr (enob : R) : R := enob * 6.02 + 1.76.

(** units.py 75-76 *)
Definition units_snr_to_nsd (snr_db fs signal_pwr_dbfs osr : R) : result xr :=
  if Reqb osr 0 then Err ZeroDivisionError else
  let bw := fs / (2 * osr) in
  Ok (xaxpy (signal_pwr_dbfs - snr_db) (-10) (xlog10 bw)).
(** units.py 106-108 *)
Definition units_nsd_to_snr (nsd fs signal_pwr_dbfs osr : R) : result xr :=
  if Reqb osr 0 then Err ZeroDivisionError else
  let bw := fs / (2 * osr) in
  let noise_total_db := xaxpy nsd 10 (xlog10 bw) in
  Ok (xaxpy signal_pwr_dbfs (-1) noise_total_db).

(** numpy division of a strictly positive float by any float, then log10: x/0 = inf. *)
Definition xlog10_quot (num den : R) : xr := if Reqb den 0 then PInf else xlog10 (num / den).

(** snr_nsd.py 156-172 *)
Definition snr_to_nsd (snr_db fs osr psignal_dbfs : R) : result xr :=
  let p_signal := pow10 (psignal_dbfs / 10) in                    (* l.156 *)
  let p_noise := p_signal / pow10 (snr_db / 10) in                (* l.161 *)
  if Reqb osr 0 then Err ZeroDivisionError else
  let bw := fs / (2 * osr) in                                     (* l.165 *)
  Ok (xaxpy 0 10 (xlog10_quot p_noise bw)).                       (* l.169-172 *)
(** snr_nsd.py 235-250 *)
Definition nsd_to_snr (nsd fs osr psignal_dbfs : R) : result xr :=
  let nsd_linear := pow10 (nsd / 10) in
  if Reqb osr 0 then Err ZeroDivisionError else
  let bw := fs / (2 * osr) in
  let p_noise := nsd_linear * bw in
  let p_signal := pow10 (psignal_dbfs / 10) in
  Ok (xaxpy 0 10 (xlog10_quot p_signal p_noise)).

(** snr_nsd.py 62-84: amplitudes_to_snr with return_power=True; the default returns the
    first component.  np.log10(inf) = inf. *)
Definition amplitudes_to_snr (sig noise osr : R) : xr * R * R :=
  let sig_rms := sig / sqrt 2 in                                  (* l.62 *)
  let sig_power := sig_rms ^ 2 in
  let noise_power := noise ^ 2 in
  let log_ratio := if Reqb noise 0 then PInf                      (* l.76 *)
                   else xlog10 (sig_rms / noise) in
  let snr_db := xaxpy 0 20 log_ratio in                           (* l.79 *)
  let snr_db := if Rltb 1 osr
                then xaxpy (10 * (ln osr / ln 10)) 1 snr_db       (* l.82-84 *)
                else snr_db in
  (snr_db, sig_power, noise_power).

(** units.py 110-113, 115-118, 120-126, 128-136 *)
Definition dbm_to_vrms (dbm z_load : R) : xr := xsqrt (db_to_power dbm / 1000 * z_load).
Definition vrms_to_dbm (vrms z_load : R) : result xr :=
  if Reqb z_load 0 then Err ZeroDivisionError
  else Ok (power_to_db (vrms ^ 2 / z_load * 1000)).
Definition dbm_to_mw (dbm : R) : R := db_to_power dbm.
Definition mw_to_dbm (mw : R) : xr := power_to_db mw.
Definition sine_amplitude_to_power (amplitude z_load : R) : result R :=
  if Reqb z_load 0 then Err ZeroDivisionError else Ok ((amplitude / sqrt 2) ^ 2 / z_load).

(** metrics.py 15-32, 34-51, 55-84, 86-102 (for inputs on which every division and
    logarithm is defined; the domain conditions appear in the theorems). *)
Definition walden_fom (power fs enob : R) : R := power / (Rpower 2 enob * fs).
Definition schreier_fom (power sndr_db bw : R) : xr := xaxpy sndr_db 10 (xlog10 (bw / power)).
Definition thermal_noise_limit (cap_pf v_fs : R) : xr :=
  let p_noise := 1.38e-23 * 300 / (cap_pf * 1e-12) in
  let p_sig := v_fs ^ 2 / 8 in
  xaxpy 0 10 (xlog10 (p_sig / p_noise)).
Definition jitter_limit (freq jitter : R) : xr := xaxpy 0 (-20) (xlog10 (2 * PI * freq * jitter)).
