(** * Model of adctoolbox/siggen/nonidealities.py (class ADC_Signal_Generator).
    Arithmetic is exact; the random draws are arguments.  The appliers taking a whole-array numpy
    operation with a length-N noise vector are modelled for signals of length N.  apply_jitter on
    a given signal and apply_drift (scipy CubicSpline, butter, filtfilt) are in ChainModel. *)
From Verif Require Import Base.
Local Open Scope R_scope.

(** l.33-40 the constructor's fields. *)
Record gen := mkGen { g_N : nat; g_Fs : R; g_Fin : R; g_A : R; g_DC : R }.
(** l.44, l.54 the sine at time t. *)
Definition clean_at (g : gen) (t : R) : R := g_A g * sin (2 * PI * g_Fin g * t) + g_DC g.
(** l.42-44, 52-54 get_clean_signal. *)
Definition clean_signal (g : gen) : list R := map (fun i => clean_at g (INR i / g_Fs g)) (seq 0 (g_N g)).
(** l.46-50 _resolve_signal. *)
Definition resolve_signal (g : gen) (s : option (list R)) : list R :=
  match s with None => clean_signal g | Some x => x end.

(** l.56-60 apply_thermal_noise. *)
Definition apply_thermal_noise (g : gen) (s : option (list R)) (noise_rms : R) (draws : list R) : list R :=
  map2 (fun x d => x + d * noise_rms) (resolve_signal g s) draws.
(** l.87-93 apply_jitter without an input signal. *)
Definition jitter_clean (g : gen) (jitter_rms : R) (draws : list R) : list R :=
  map2 (fun i d => clean_at g (INR i / g_Fs g + d * jitter_rms)) (seq 0 (g_N g)) draws.

(** np.clip (maximum, then minimum). *)
Definition rclip (lo hi x : R) : R := Rmin (Rmax x lo) hi.
(** l.62-77 one sample of apply_quantization_noise (lsb <> 0). *)
Definition quantise (n_bits : nat) (v_min v_max x : R) : R :=
  let lsb := (v_max - v_min) / 2 ^ n_bits in
  let code := rclip 0 (2 ^ n_bits - 1) (IZR (Zfloor ((x - v_min) / lsb))) in
  code * lsb + v_min.
(** l.62-77; v_min = v_max makes every value nan or inf and is left out of the model. *)
Definition apply_quantization_noise (g : gen) (s : option (list R)) (n_bits : nat) (v_min v_max : R) : list R :=
  map (quantise n_bits v_min v_max) (resolve_signal g s).

(** l.102-120 apply_static_nonlinearity (the [k <> 0] tests only skip adding zeros). *)
Definition nonlin (dc k2 k3 k4 k5 x : R) : R :=
  let a := x - dc in
  let d0 := 0 in
  let d2 := if Reqb k2 0 then d0 else d0 + k2 * a ^ 2 in
  let d3 := if Reqb k3 0 then d2 else d2 + k3 * a ^ 3 in
  let d4 := if Reqb k4 0 then d3 else d3 + k4 * a ^ 4 in
  let d5 := if Reqb k5 0 then d4 else d4 + k5 * a ^ 5 in
  a + d5 + dc.
Definition apply_static_nonlinearity (g : gen) (s : option (list R)) (k2 k3 k4 k5 : R) : list R :=
  map (nonlin (g_DC g) k2 k3 k4 k5) (resolve_signal g s).
(** l.124-129 db_to_k. *)
Definition db_to_k (A : R) (db : option R) (order : nat) : R :=
  match db with
  | None => 0
  | Some v => 2 ^ (order - 1) * Rpower 10 (v / 20) / A ^ (order - 1)
  end.
(** l.122-136 apply_static_nonlinearity_hd (A <> 0). *)
Definition apply_static_nonlinearity_hd (g : gen) (s : option (list R)) (hd2 hd3 hd4 hd5 : option R) : list R :=
  apply_static_nonlinearity g s (db_to_k (g_A g) hd2 2) (db_to_k (g_A g) hd3 3) (db_to_k (g_A g) hd4 4) (db_to_k (g_A g) hd5 5).

(** np.floor(x * 2**b) / 2**b. *)
Definition floor_bits (b : nat) (x : R) : R := IZR (Zfloor (x * 2 ^ b)) / 2 ^ b.
(** np.roll(x, 1). *)
Definition roll1 (l : list R) : list R := match l with [] => [] | _ => last l 0 :: removelast l end.
(** l.138-149 apply_memory_effect. *)
Definition apply_memory_effect (g : gen) (s : option (list R)) (strength : R) : list R :=
  let x := resolve_signal g s in
  let msb := map (floor_bits 4) x in
  let lsb := map2 (fun v m => floor_bits 12 (v - m)) x msb in
  map2 (fun a b => a + b) (map2 (fun a b => a + b) msb lsb) (map (fun v => strength * v) (roll1 msb)).

(** l.151-170 apply_incomplete_sampling: the loop over the first N samples. *)
Fixpoint settle (T tau k v_prev : R) (x : list R) : list R :=
  match x with
  | [] => []
  | v :: t => let tau_d := tau * (1 + k * v ^ 2) in
              let out := v + (v_prev - v) * exp (- T / tau_d) in
              out :: settle T tau k out t
  end.
Definition apply_incomplete_sampling (g : gen) (s : option (list R)) (T_track : option R) (tau_nom coeff_k : R) : result (list R) :=
  let x := resolve_signal g s in
  let T := match T_track with Some t => t | None => 1 / g_Fs g * 0.2 end in
  if (length x <? g_N g)%nat then Err IndexError                             (* l.163 *)
  else Ok (map (fun v => v + g_DC g) (settle T tau_nom coeff_k 0 (map (fun v => v - g_DC g) (firstn (g_N g) x)))).

(** The mode string of the pipeline models. *)
Inductive ra_mode : Set := CoarsePath | ResiduePath | OtherMode.
(** l.171-198 apply_ra_gain_error. *)
Definition apply_ra_gain_error (g : gen) (s : option (list R)) (gain : R) (msb_bits lsb_bits : nat) (mode : ra_mode) : result (list R) :=
  let ac := map (fun v => v - g_DC g) (resolve_signal g s) in
  let msb := map (floor_bits msb_bits) ac in
  let lsb := map2 (fun v m => floor_bits lsb_bits (v - m)) ac msb in
  match mode with
  | CoarsePath => Ok (map2 (fun m l => m * gain + l + g_DC g) msb lsb)
  | ResiduePath => Ok (map2 (fun m l => m + l * gain + g_DC g) msb lsb)
  | OtherMode => Err ValueError
  end.
(** l.200-245 apply_ra_gain_error_dynamic: the loop over the first N samples. *)
Fixpoint ra_loop (gain c3 : R) (mb lb : nat) (coarse : bool) (state : R) (ac : list R) : list R :=
  match ac with
  | [] => []
  | v :: t =>
      let m := floor_bits mb v in
      let l := floor_bits lb (v - m) in
      let gd := gain + c3 * state ^ 2 in
      if coarse then let out := m * gd + l in out :: ra_loop gain c3 mb lb coarse out t
      else let p := l * gd in (m + p) :: ra_loop gain c3 mb lb coarse p t
  end.
Definition apply_ra_gain_error_dynamic (g : gen) (s : option (list R)) (gain c3 : R) (mb lb : nat) (mode : ra_mode) : result (list R) :=
  match mode with
  | OtherMode => Err ValueError                                              (* l.217-218 *)
  | _ => let x := resolve_signal g s in
         if (length x <? g_N g)%nat then Err IndexError
         else Ok (map (fun v => v + g_DC g)
                   (ra_loop gain c3 mb lb (match mode with CoarsePath => true | _ => false end) 0
                      (map (fun v => v - g_DC g) (firstn (g_N g) x))))
  end.

(** scipy.signal.lfilter with zero initial state (direct form, a[0] <> 0):
    a0 y[n] = sum_k b_k x[n-k] - sum_(k>=1) a_k y[n-k].  [xh], [yh] hold past samples, newest first. *)
Fixpoint lfilter_from (b a xh yh x : list R) : list R :=
  match x with
  | [] => []
  | v :: t =>
      let xh' := v :: xh in
      let y := (dot b xh' - dot (tl a) yh) / hd 0 a in
      y :: lfilter_from b a xh' (y :: yh) t
  end.
Definition lfilter (b a x : list R) : result (list R) :=
  if Reqb (hd 0 a) 0 then Err ValueError else Ok (lfilter_from b a [] [] x).

(** l.247-269 apply_reference_error. *)
Definition apply_reference_error (g : gen) (s : option (list R)) (settling_tau droop_strength : R) : list R :=
  let ac := map (fun v => v - g_DC g) (resolve_signal g s) in
  let kick := map (fun v => droop_strength * Rabs v) ac in
  let decay := exp (- 1 / settling_tau) in
  let droop := lfilter_from [1] [1; - decay] [] [] kick in
  map2 (fun v d => v * (1 - d) + g_DC g) ac droop.
(** l.271-287 apply_am_noise and l.289-295 apply_am_tone: multiply by an envelope. *)
Definition apply_am_noise (g : gen) (s : option (list R)) (strength : R) (draws : list R) : list R :=
  map2 (fun x d => (x - g_DC g) * (1 + strength * d) + g_DC g) (resolve_signal g s) draws.
Definition apply_am_tone (g : gen) (s : option (list R)) (freq depth : R) : list R :=
  map2 (fun x i => (x - g_DC g) * (1 + depth * sin (2 * PI * freq * (INR i / g_Fs g))) + g_DC g) (resolve_signal g s) (seq 0 (g_N g)).

(** np.sort. *)
Fixpoint rinsert (x : R) (l : list R) : list R :=
  match l with [] => [x] | y :: t => if Rleb x y then x :: y :: t else y :: rinsert x t end.
Definition rsort (l : list R) : list R := fold_right rinsert [] l.
(** np.percentile (linear interpolation between order statistics) of a non-empty array. *)
Definition percentile (l : list R) (q : R) : result R :=
  if (Rltb q 0 || Rltb 100 q)%bool then Err ValueError
  else let s := rsort l in
       let h := (INR (length l) - 1) * (q / 100) in
       let i := Z.to_nat (Zfloor h) in
       let a := nth i s 0 in let b := nth (i + 1) s a in
       Ok (a + (h - IZR (Zfloor h)) * (b - a)).
(** l.297-309 apply_clipping; percentiles of an empty array raise. *)
Definition apply_clipping (g : gen) (s : option (list R)) (p : R) : result (list R) :=
  let x := resolve_signal g s in
  match x with
  | [] => Err IndexError
  | _ => bind (percentile x p) (fun lo => bind (percentile x (100 - p)) (fun hi => Ok (map (rclip lo hi) x)))
  end.
(** l.320-325 apply_glitch; [draws] are the uniform draws. *)
Definition apply_glitch (g : gen) (s : option (list R)) (prob amp : R) (draws : list R) : list R :=
  map2 (fun x d => x + (if Rltb d prob then 1 else 0) * amp) (resolve_signal g s) draws.

(** l.327-399 the noise transfer function argument: None, a sequence, or a (num, den) tuple. *)
Inductive ntf_arg : Type := NtfNone | NtfFir (num : list R) | NtfIir (num den : list R).
(** l.380-386 the coefficient table. *)
Definition ntf_table (order : Z) : option (list R) :=
  if (order =? 1)%Z then Some [1; -1]
  else if (order =? 2)%Z then Some [1; -2; 1]
  else if (order =? 3)%Z then Some [1; -3; 3; -1]
  else if (order =? 4)%Z then Some [1; -4; 6; -4; 1]
  else if (order =? 5)%Z then Some [1; -5; 10; -10; 5; -1]
  else None.
Definition apply_noise_shaping (g : gen) (s : option (list R)) (n_bits : nat) (v_min v_max : R) (order : Z) (ntf : ntf_arg) : result (list R) :=
  bind (match ntf with
        | NtfNone => match ntf_table order with Some num => Ok (num, [1]) | None => Err ValueError end   (* l.369 *)
        | NtfFir num => Ok (num, [1])
        | NtfIir num den => Ok (num, den)
        end) (fun nd =>
  let x := resolve_signal g s in
  let q := apply_quantization_noise g (Some x) n_bits v_min v_max in
  let e := map2 (fun a b => a - b) q x in
  bind (lfilter (fst nd) (snd nd) e) (fun sh =>
  Ok (map2 (fun a b => a + b) x sh))).
