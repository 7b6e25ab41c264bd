(** * Model of coherent averaging: adctoolbox/spectrum/_align_spectrum_phase.py,
    _coherent_average (_spectrum_averaging.py), the coherent branch of compute_spectrum.py and
    the two unused helpers of _harmonics.py.
    A spectrum is a function from bins to complex numbers (only bins below n_fft are used).
    Arithmetic is exact, so floor(harmonic_freq / n_fft * 2) is the integer quotient. *)
From Verif Require Import Base Cplx FreqModel UnitsModel TiModel SpecModel.
Local Open Scope R_scope.

(** a[i] = v on a copy. *)
Definition upd {A} (a : nat -> A) (i : nat) (v : A) : nat -> A :=
  fun j => if (j =? i)%nat then v else a j.
(** numpy's complex ** real for a non-negative exponent: the principal power. *)
Definition Ceqb0 (z : C) : bool := Reqb (Re z) 0 && Reqb (Im z) 0.
Definition cpower (z : C) (x : R) : C :=
  if Reqb x 0 then C1
  else if Ceqb0 z then C0
  else Cscale (Rpower (Cmod z) x) (cis (x * Carg z)).

(** _align_spectrum_phase.py 47-48. *)
Definition align_phasor (z : C) : C := Cconj (Cscale (/ (Cmod z + / 10 ^ 20)) z).

(** _align_spectrum_phase.py 51-57: fft_aligned, processed and harmonic_phasor. *)
Record align_state := mkAlign { al_fft : nat -> C; al_done : nat -> bool; al_phasor : C }.
(** _align_spectrum_phase.py 59-83, one pass of the loop.  Line 78's test 0 <= bin_pos < n_fft
    is the comparison with n; bin_pos is never negative. *)
Definition harmonic_step (k n : nat) (phasor : C) (s : align_state) (order : nat) : align_state :=
  let hf := (k * order)%nat in
  let zone := (2 * hf / n)%nat in
  let s' :=
    if Nat.even zone then
      let b := (hf - hf / n * n)%nat in
      if al_done s b then s
      else mkAlign (upd (al_fft s) b (Cmult (al_fft s b) (al_phasor s))) (upd (al_done s) b true)
             (al_phasor s)
    else
      let b := (n + hf / n * n - hf)%nat in
      if (b <? n)%nat && negb (al_done s b)
      then mkAlign (upd (al_fft s) b (Cmult (al_fft s b) (Cconj (al_phasor s))))
             (upd (al_done s) b true) (al_phasor s)
      else s in
  mkAlign (al_fft s') (al_done s') (Cmult (al_phasor s) phasor).
(** _align_spectrum_phase.py 42-95. *)
Definition align_spectrum (fft : nat -> C) (k : nat) (bin_r : R) (n : nat) : nat -> C :=
  if (k <=? 0)%nat then fft                                               (* l.43-44 *)
  else
    let phasor := align_phasor (fft k) in
    let s := fold_left (harmonic_step k n phasor) (seq 1 n)
               (mkAlign fft (fun _ => false) phasor) in
    let a := fun b => if al_done s b then al_fft s b                      (* l.86-90 *)
                      else Cmult (al_fft s b)
                             (cpower phasor (if Rltb 0 bin_r then INR b / bin_r else 0)) in
    upd a 0 C0.                                                           (* l.93 *)

(** _spectrum_averaging.py 76-100: what one run adds to the sum; None for a skipped run. *)
Definition run_power (N : nat) (r : list R) : list R :=
  map (fun b => Cmod (rfft r b) ^ 2) (seq 0 (N / 2 + 1)).
Definition run_silent (r : list R) : bool :=
  match map Rabs r with [] => true | x :: l => Rltb (lmax1 x l) (/ 10 ^ 10) end.
Definition aligned_run (N n_inband : nat) (r : list R) : option (nat -> C) :=
  if run_silent r then None else
  let P := run_power N r in
  let k := fundamental_bin P n_inband in
  if (k <=? 0)%nat then None
  else Some (align_spectrum (rfft r) k (fundamental_frac P n_inband) N).
Fixpoint valid_runs (N n_inband : nat) (rows : list (list R)) : list (nat -> C) :=
  match rows with
  | [] => []
  | r :: t => match aligned_run N n_inband r with
              | Some a => a :: valid_runs N n_inband t
              | None => valid_runs N n_inband t
              end
  end.
(** _spectrum_averaging.py 99, 103, 106. *)
Definition coherent_mean (N : nat) (runs : list (nat -> C)) (b : nat) : C :=
  Cscale (/ (INR N * INR (Nat.max 1 (length runs))))
         (fold_left (fun acc a => Cplus acc (a b)) runs C0).
(** _spectrum_averaging.py 109-117. *)
Definition coherent_power_bin (N : nat) (runs : list (nat -> C)) (b : nat) : R :=
  let p := Cmod (coherent_mean N runs b) ^ 2 in
  let p := if (b =? 0)%nat then p / 2 else p in
  if (Nat.even N && (b =? N / 2))%nat then p / 2 else p.
Definition coherent_complex_bin (N : nat) (runs : list (nat -> C)) (b : nat) : C :=
  let z := coherent_mean N runs b in
  let z := if (b =? 0)%nat then Cscale (/ sqrt 2) z else z in
  if (Nat.even N && (b =? N / 2))%nat then Cscale (/ sqrt 2) z else z.
Definition coherent_average (N n_inband : nat) (rows : list (list R)) : list R * list C :=
  let runs := valid_runs N n_inband rows in
  (map (coherent_power_bin N runs) (seq 0 (N / 2 + 1)),
   map (coherent_complex_bin N runs) (seq 0 (N / 2 + 1))).

(** compute_spectrum.py 96-97: the complex spectrum below the cutoff is zeroed (fs > 0). *)
Definition cut_complex (z : list C) (cutoff fs : R) (N : nat) : list C :=
  if Rltb 0 cutoff then
    let cb := Z.to_nat (Z.min (Zceil (cutoff / fs * INR N)) (Z.of_nat (length z))) in
    map (fun i => if (i <? cb)%nat then C0 else nth i z C0) (seq 0 (length z))
  else z.
(** compute_spectrum.py 66-181 with coherent_averaging=True: the metrics and complex_spectrum. *)
Definition compute_spectrum_coherent (kaiser38 cheb100 : nat -> list R) (data : list (list R))
    (fs : R) (sc : scale) (wt : win) (side : option nat) (osr : R) (max_harmonic nf_method : Z)
    (assumed : option R) (cutoff : R) : result (spectrum * list C) :=
  bind (prepare_fft_input data sc) (fun rows =>
  let M := length rows in let N := ncols rows in
  bind (inband_count (Z.of_nat N) osr) (fun nb =>
  let w := create_window kaiser38 cheb100 wt N in
  let corr := power_correction w in
  let avg := coherent_average N (Z.to_nat nb) (windowed rows w) in
  let z := map (Cscale (sqrt corr)) (snd avg) in
  bind (apply_cutoff (map (fun p => p * corr) (fst avg)) cutoff fs N) (fun P =>
  bind (analyse_power P M N (Z.to_nat nb) fs osr wt w side max_harmonic nf_method assumed)
    (fun sp => Ok (sp, cut_complex z cutoff fs N))))).

(** analyze_spectrum_polar.py 49-58: the arguments it hands to compute_spectrum (the default
    side_bin, noise-floor method and assumed signal of compute_spectrum). *)
Definition analyze_spectrum_polar (kaiser38 cheb100 : nat -> list R) (data : list (list R))
    (sc : scale) (harmonic : Z) (osr cutoff fs : R) (wt : win) : result (spectrum * list C) :=
  compute_spectrum_coherent kaiser38 cheb100 data fs sc wt None osr (Z.max 3 harmonic) 0 None cutoff.

(** _harmonics.py 258-276 (not called by the library): degrees of HD2 and HD3.  Bins come from
    _locate_harmonic_bins and are non-negative. *)
Definition degrees (x : R) : R := x * (180 / PI).
Definition phase_at (z : list C) (hs : list Z) (i : nat) : R :=
  match nth_error hs i with
  | Some b => if (b <? Z.of_nat (length z))%Z then degrees (Carg (nth (Z.to_nat b) z C0)) else 0
  | None => 0
  end.
Definition harmonic_phases (z : list C) (hs : list Z) : R * R := (phase_at z hs 0, phase_at z hs 1).
(** _harmonics.py 160-176 (not called by the library): one bin per harmonic.  A bin past the end
    of the spectrum raises IndexError. *)
Fixpoint plotspec_loop (P : list R) (f sb : nat) (hs : list Z) (order : nat)
    (thd : R) (hp : list R) (col : list nat) : result (R * list R * list nat) :=
  match hs with
  | [] => Ok (thd, rev hp, rev col)
  | h :: t =>
      if fund_collision f sb h then plotspec_loop P f sb t (S order) thd (/ 10 ^ 15 :: hp) (order :: col)
      else if dc_collision sb h then plotspec_loop P f sb t (S order) thd (/ 10 ^ 15 :: hp) col
      else if (h <? Z.of_nat (length P))%Z then
        let p := nth (Z.to_nat h) P 0 in
        plotspec_loop P f sb t (S order) (thd + p) (Rmax p (/ 10 ^ 15) :: hp) col
      else Err IndexError
  end.
Definition harmonic_power_plotspec (P : list R) (f sb : nat) (hs : list Z)
    : result (R * list R * list nat) :=
  bind (plotspec_loop P f sb hs 2 0 [] []) (fun x =>
  match x with (thd, hp, col) => Ok (Rmax thd (/ 10 ^ 15), hp, col) end).
