(** * Model of adctoolbox/timeinterleave (deinterleave.py, calibrate_foreground.py,
    fractional_delay.py, extract_mismatch_sine.py, predict_spurs.py).
    Signals are lists (1-D arrays), so the [ndim] checks are not represented.  A 2-D array
    with M rows is a list of M rows. *)
From Verif Require Import Base Cplx FreqModel.
Local Open Scope R_scope.

(** numpy: x.reshape(r, c) of a 1-D array (C order). *)
Definition reshape (r c : nat) (x : list R) : list (list R) :=
  map (fun i => map (fun j => nth (i * c + j) x 0) (seq 0 c)) (seq 0 r).
(** numpy: a.T of an array with c columns. *)
Definition transpose (c : nat) (rows : list (list R)) : list (list R) :=
  map (fun j => map (fun row => nth j row 0) rows) (seq 0 c).

(** deinterleave.py 23-31. *)
Definition deinterleave (x : list R) (M : Z) : result (list (list R)) :=
  raise_if (M <=? 0)%Z ValueError                                        (* l.26 *)
  (let N := Z.of_nat (length x) in
   raise_if (negb (N mod M =? 0)%Z) ValueError                           (* l.29 *)
   (Ok (transpose (Z.to_nat M) (reshape (Z.to_nat (N / M)) (Z.to_nat M) x)))).

(** deinterleave.py 47-50.  A ragged list of rows cannot be a 2-D array, and an empty list
    is 1-D: both raise ValueError.  (A (0, K)-shaped array is not represented.) *)
Definition interleave (ch : list (list R)) : result (list R) :=
  match ch with
  | [] => Err ValueError
  | r0 :: _ =>
      let K := length r0 in
      if forallb (fun r => (length r =? K)%nat) ch
      then Ok (concat (transpose K ch)) else Err ValueError
  end.

(** ** fractional_delay.py *)

(** np.fft.rfft(x)[k]: the DFT coefficient of the real signal. *)
Definition rfft (x : list R) (k : nat) : C := rdft (length x) (fun n => nth n x 0) k.
(** np.fft.irfft(X, n=N)[n] for N >= 1: the imaginary part of X[0] and, for even N, of
    X[N/2] is ignored. *)
Definition irfft (N : nat) (X : nat -> C) (n : nat) : R :=
  (Re (X O)
   + rsum ((N - 1) / 2) (fun i => 2 * Re (Cmult (X (S i)) (cis (2 * PI * INR (S i) * INR n / INR N))))
   + (if Nat.even N then Re (X (N / 2)%nat) * cos (PI * INR n) else 0)) / INR N.

(** fractional_delay.py 44-54; np.fft.rfft of an empty array raises ValueError. *)
Definition fractional_delay_fft (x : list R) (delay_sec fs : R) : result (list R) :=
  let N := length x in
  raise_if (N =? 0)%nat ValueError
  (let X := fun k =>
     let f := INR k * fs / INR N in                                      (* l.49 rfftfreq *)
     Cmult (rfft x k) (cis (- (2 * PI * f * delay_sec))) in              (* l.50 *)
   let X' := fun k => if Nat.even N && (k =? N / 2)%nat                  (* l.51-53 *)
                      then RtoC (Re (X k)) else X k in
   Ok (map (irfft N X') (seq 0 N))).

(** fractional_delay.py 114-123.  The slice pairs y[D:] = x[:-D] and y[:D] = x[-D:] are empty
    when |D| >= len(x), leaving all zeros. *)
Definition integer_shift_zero_pad (x : list R) (D : Z) : list R :=
  if (D =? 0)%Z then x
  else if (0 <? D)%Z
  then repeat 0 (Nat.min (Z.to_nat D) (length x)) ++ firstn (length x - Z.to_nat D) x
  else let d := Z.to_nat (- D) in
       skipn d x ++ repeat 0 (Nat.min d (length x)).

(** fractional_delay.py 106-110: h[i] = prod over j <> i of (p - j) / (i - j). *)
Definition lagrange_tap (n : nat) (p : R) (i : nat) : R :=
  fold_left (fun h j => if (j =? i)%nat then h else h * ((p - INR j) / (INR i - INR j))) (seq 0 n) 1.
Definition lagrange_taps (n : nat) (p : R) : list R := map (lagrange_tap n p) (seq 0 n).

(** Entry i of np.convolve(a, v, mode="full") (zero outside the arrays). *)
Definition conv_full (a v : list R) (i : nat) : R :=
  rsum (S i) (fun k => nth k a 0 * nth (i - k) v 0).
(** np.convolve(a, v, mode="same"): ValueError when either is empty, otherwise
    max(len a, len v) entries of the full convolution starting at (min - 1) / 2. *)
Definition conv_same (a v : list R) : result (list R) :=
  let lo := Nat.min (length a) (length v) in
  let hi := Nat.max (length a) (length v) in
  raise_if (lo =? 0)%nat ValueError
  (Ok (map (fun i => conv_full a v ((lo - 1) / 2 + i)) (seq 0 hi))).

(** fractional_delay.py 90-111. *)
Definition fractional_delay_farrow (x : list R) (delay_sec fs : R) (n_taps : Z) : result (list R) :=
  raise_if ((n_taps mod 2 =? 0) || (n_taps <? 1))%Z ValueError
  (let D := delay_sec * fs in
   let D_int := round_he D in
   let d_frac := D - IZR D_int in
   let y := integer_shift_zero_pad x D_int in
   let P := (n_taps / 2)%Z in
   conv_same y (lagrange_taps (Z.to_nat n_taps) (IZR P + d_frac))).

(** ** calibrate_foreground.py *)
Inductive skew_method : Set := SkewFft | SkewFarrow | SkewOther.

(** calibrate_foreground.py 87-98, one channel.  Assigning a result of another length to the
    row channels[m] raises ValueError. *)
Definition correct_skew (method : skew_method) (n_taps : Z) (fs_ch skew : R) (ch : list R) : result (list R) :=
  if Rltb (Rabs skew) (/ 10 ^ 18) then Ok ch
  else bind (match method with
             | SkewFft => fractional_delay_fft ch skew fs_ch
             | SkewFarrow => fractional_delay_farrow ch skew fs_ch n_taps
             | SkewOther => Err ValueError
             end)
            (fun r => if (length r =? length ch)%nat then Ok r else Err ValueError).

(** the loop over m in range(M) (l.86): the first exception stops it. *)
Fixpoint correct_all (method : skew_method) (n_taps : Z) (fs_ch : R) (skew : list R) (chs : list (list R))
    : result (list (list R)) :=
  match skew, chs with
  | s :: skew', ch :: chs' =>
      bind (correct_skew method n_taps fs_ch s ch)
           (fun r => bind (correct_all method n_taps fs_ch skew' chs') (fun rs => Ok (r :: rs)))
  | _, _ => Ok []
  end.

(** calibrate_foreground.py 65-100.  Division by a zero gain (numpy inf/nan) is outside the
    model: Coq's x / 0 is 0. *)
Definition calibrate_foreground (x : list R) (M : Z) (offset gain skew : list R) (fs : R)
    (method : skew_method) (n_taps : Z) : result (list R) :=
  bind (deinterleave x M) (fun channels =>
  raise_if (negb ((Z.of_nat (length offset) =? M) && (Z.of_nat (length gain) =? M)
                  && (Z.of_nat (length skew) =? M))%Z) ValueError        (* l.71 *)
  (let ch1 := map2 (fun og row => map (fun v => (v - fst og) / snd og) row)
                   (combine offset gain) channels in                     (* l.79 *)
   let fs_ch := fs / IZR M in                                            (* l.85 *)
   bind (correct_all method n_taps fs_ch skew ch1) interleave)).

(** ** extract_mismatch_sine.py *)

(** np.angle(z) = arctan2(imag, real). *)
Definition Carg (z : C) : R :=
  if Rltb 0 (Re z) then atan (Im z / Re z)
  else if Rltb (Re z) 0 then (if Rleb 0 (Im z) then atan (Im z / Re z) + PI else atan (Im z / Re z) - PI)
  else if Rltb 0 (Im z) then PI / 2 else if Rltb (Im z) 0 then - (PI / 2) else 0.

(** np.mod(a, 2 pi) - pi as used by np.unwrap. *)
Definition wrap_pi (d : R) : R :=
  let a := d + PI in a - 2 * PI * IZR (Zfloor (a / (2 * PI))) - PI.
(** numpy's correction for one difference dd: 0 when |dd| < pi, else ddmod - dd, where a
    ddmod of -pi with dd > 0 is replaced by pi. *)
Definition unwrap_correction (dd : R) : R :=
  if Rltb (Rabs dd) PI then 0
  else (let w := wrap_pi dd in if Reqb w (- PI) && Rltb 0 dd then PI else w) - dd.
(** np.unwrap: p[i] + cumulative sum of corrections; [acc] is the running sum and [prev]
    the previous raw phase. *)
Fixpoint unwrap_from (prev acc : R) (p : list R) : list R :=
  match p with
  | [] => []
  | x :: t => let acc' := acc + unwrap_correction (x - prev) in (x + acc') :: unwrap_from x acc' t
  end.
Definition unwrap (p : list R) : list R :=
  match p with [] => [] | x :: t => x :: unwrap_from x 0 t end.

(** extract_mismatch_sine.py 80-81: the phasor of channel m (K samples, mean off). *)
Definition channel_phasor (y : list R) (off fin fs : R) (M m : nat) : C :=
  let K := length y in
  Cscale (2 / INR K)
    (csum K (fun k => Cmult (RtoC (nth k y 0 - off))
                            (cis (- (2 * PI * fin * (INR (k * M + m) * (1 / fs))))))).

Record mismatch : Type := mkMismatch
  { mm_A : R; mm_gain : list R; mm_offset : list R; mm_skew : list R; mm_phases : list R }.

(** extract_mismatch_sine.py 56-103 with fin given (the fin=None estimate is not modelled);
    meaningful for len(x) >= M, fs <> 0 and fin <> 0 (otherwise the code divides by zero and
    returns nan/inf). *)
Definition extract_mismatch_sine (x : list R) (M : Z) (fs fin : R) : result mismatch :=
  bind (deinterleave x M) (fun channels =>
   let m_ := Z.to_nat M in
   let offsets := map lmean channels in                                  (* l.78 *)
   let phasors := map (fun m => channel_phasor (nth m channels []) (nth m offsets 0) fin fs m_ m) (seq 0 m_) in
   let amps := map Cmod phasors in                                       (* l.83 *)
   let phases := map Carg phasors in                                     (* l.84 *)
   let A_mean := lmean amps in
   let gain := if Rltb 0 A_mean then map (fun a => a / A_mean) amps
               else repeat 1 m_ in                                       (* l.87 *)
   let pu := unwrap phases in                                            (* l.93 *)
   let mu := lmean pu in
   let skew := map (fun p => (p - mu) / (2 * PI * fin)) pu in            (* l.94 *)
   Ok (mkMismatch A_mean gain offsets skew phases)).

(** ** predict_spurs.py *)
Inductive spur_kind : Set := KOffset | KGainSkew.
Record spur : Type := mkSpur { sp_freq : R; sp_kind : spur_kind; sp_k : nat; sp_amp : R }.

Fixpoint ins_spur (x : spur) (l : list spur) : list spur :=
  match l with
  | [] => [x]
  | y :: t => if Rltb (sp_freq y) (sp_freq x) then y :: ins_spur x t else x :: l
  end.
(** spurs.sort(key=freq_hz), l.107 (stable). *)
Definition sort_spurs (l : list spur) : list spur := fold_right ins_spur [] l.

(** predict_spurs.py 95-97. *)
Definition alpha (gain skew : list R) (fin : R) (m : nat) : C :=
  Cscale (nth m gain 0) (cis (2 * PI * fin * nth m skew 0)).
Definition alpha_ac (gain skew : list R) (fin : R) (m : nat) : C :=
  let M := length gain in
  Cminus (alpha gain skew fin m) (Cscale (1 / INR M) (csum M (alpha gain skew fin))).

(** predict_spurs.py 57-108 (fin given; the dbfs/dbc fields are not modelled).  The logarithm
    of fundamental_amp / full_scale at l.72 does not affect the fields kept here. *)
Definition predict_spurs (gain offset skew : list R) (A_in fs fin : R) : result (list spur) :=
  let M := length gain in
  raise_if (negb ((length offset =? M) && (length skew =? M))%nat) ValueError
  (let off := map (fun k => mkSpur (fold_frequency (INR k * fs / INR M) fs) KOffset k
                               (Cmod (rdft M (fun m => nth m offset 0) k) / INR M))
                  (seq 1 (M - 1)) in                                     (* l.84-92 *)
   let gs := map (fun k => mkSpur (fold_frequency (fin + INR k * fs / INR M) fs) KGainSkew k
                               (A_in * Cmod (dft M (alpha_ac gain skew fin) k) / INR M))
                 (seq 1 (M - 1)) in                                      (* l.97-105 *)
   Ok (sort_spurs (off ++ gs))).
