(** * Model of the MATLAB function plotphase (matlab/src/plotphase.m), the original of the polar spectrum and of the polar
    harmonic decomposition.
    Arithmetic is exact, the FFT is the exact DFT sum, linsolve is an argument.  Bins are counted from 0 (MATLAB's index minus one).
    [error], an index out of range, a nan or an unbounded axis limit are RuntimeError.  The capture is a matrix of runs, one per row.
    A window passed as a function handle is given by its samples (as many as the record has, not all zero).  Not modelled: colours,
    fonts, line styles. *)
From Verif Require Import Base Cplx FreqModel UnitsModel TiModel SpecModel CalModel FitModel HarmModel MatModel CohModel MsinModel MspecModel PlotModel.
Local Open Scope R_scope.

(** l.107-117: what the parser rejects; only an explicit maxSignal is checked. *)
Definition p_bad (maxsig : option R) (fs osr cutoff : R) : bool :=
  match maxsig with Some v => Rleb v 0 | None => false end || Rleb fs 0 || Rleb osr 0 || Rltb cutoff 0.
(** l.112: the default full scale is the range of the whole matrix. *)
Definition p_scale (maxsig : option R) (sig : list (list R)) : R :=
  match maxsig with Some v => v | None => m_full_scale sig end.

(** ** FFT mode (l.141-284) *)
(** l.143: the number of bins shown; the bin at N/2/OSR itself is left out. *)
Definition p_band (N : nat) (osr : R) : nat := Z.to_nat (Zfloor (INR N / 2 / osr)).
(** l.190-198: the tone's position between bins.  A neighbour of magnitude 0 has logarithm -inf, and then the quotient is nan; so it
    is when both neighbours are as large as the tone. *)
Definition p_position (X : nat -> C) (nb k : nat) : R :=
  let e := Cmod (X k) in let l := Cmod (X (k - 1)%nat) in let r := Cmod (X (Nat.min (k + 1) (nb - 1))) in
  let num := ln r / ln 10 - ln l / ln 10 in
  let den := 2 * (ln e / ln 10) - ln l / ln 10 - ln r / ln 10 in
  if Rltb 0 l && Rltb 0 r && negb (Reqb den 0) then INR k + num / den / 2 else INR k.
(** l.181-228: one run, turned so that the tone's phase becomes 0; None: the strongest bin is bin 0. *)
Definition p_aligned (N nb : nat) (t : list R) : option (nat -> C) :=
  let X := upd (rfft t) 0 C0 in                                             (* l.181-182 *)
  let k := argmax (map (fun b => Cmod (X b)) (seq 0 nb)) in                 (* l.183 *)
  if (k =? 0)%nat then None else                                            (* l.185-188 *)
  let x := p_position X nb k in
  let p := Cconj (Cscale (/ Cmod (X k)) (X k)) in                           (* l.200, 202 *)
  let s := fold_left (harmonic_step k N p) (seq 1 N) (mkAlign X (fun _ => false) p) in
  Some (fun b => if al_done s b then al_fft s b
                 else Cmult (al_fft s b) (cpower p (INR b / x))).           (* l.222-226 *)
Fixpoint p_aligned_runs (N nb : nat) (runs : list (list R)) : list (nat -> C) :=
  match runs with
  | [] => []
  | r :: t => match p_aligned N nb r with Some a => a :: p_aligned_runs N nb t | None => p_aligned_runs N nb t end
  end.
(** l.228-238: the sum of the runs over the band, its first bins cleared; clearing more bins than there are lengthens the array. *)
Definition p_sum (al : list (nat -> C)) (nb : nat) : list C :=
  map (fun b => fold_left (fun acc a => Cplus acc (a b)) al C0) (seq 0 nb).
Definition p_cut (cutoff fs : R) (N : nat) (S : list C) : list C :=
  if Rltb 0 cutoff then let c := Z.to_nat (Zceil (cutoff / fs * INR N)) in repeat C0 c ++ skipn c S else S.
(** l.241: the level in dB; None is -inf. *)
Definition p_level (N runs : nat) (z : C) : option R :=
  if Ceqb0 z then None else Some (10 * (ln (Cmod z ^ 2 / INR N ^ 2 * 16 / INR runs ^ 2) / ln 10)).
(** l.242-246: the level at the centre, the first percentile of the levels; -inf becomes -100. *)
Definition p_finite (levels : list (option R)) : list R :=
  flat_map (fun o => match o with Some v => [v] | None => [] end) levels.
Definition p_base (levels : list (option R)) : R :=
  let fin := p_finite levels in
  let missing := (length levels - length fin)%nat in
  let q := (Z.to_nat (Zceil (INR (length levels) * 0.01)) - 1)%nat in
  if (q <? missing)%nat then -100 else nth (q - missing) (sortR fin) 0.
(** l.247, one bin: the distance from the centre. *)
Definition p_radius (base : R) (l : option R) : R := match l with Some v => Rmax v base - base | None => 0 end.
(** l.240, 260: where the bin is drawn, angle and radius; an empty bin divides 0 by 0 and is not drawn.  The angle of 0 is 0. *)
Definition p_point (z : C) (r : R) : option (R * R) :=
  if Ceqb0 z then None else Some (Carg (Cscale r (Cscale (/ Cmod z) z)), r).
(** l.248-258: the largest radius and its position between bins; 0/0 where the neighbours are as large. *)
Definition p_peak (radii : list R) (nb : nat) : R :=
  let k := argmax radii in
  let e := nth k radii 0 in let l := nth (Nat.min (k - 1) (nb - 1)) radii 0 in let r := nth (Nat.min (k + 1) (nb - 1)) radii 0 in
  let den := 2 * e - l - r in
  if Reqb den 0 then INR k else INR k + (r - l) / den / 2.

Record p_fft := mkPfft {
  px_points : list (option (R * R));        (* angle and radius of every bin, clockwise from the top *)
  px_tone : option (R * R);                 (* the marked tone *)
  px_harmonics : list (nat * option (R * R));   (* the marked harmonics with their labels *)
  px_ticks : list (R * R);                  (* radius and label, outwards *)
  px_limit : R }.
(** l.131-284.  [harmonic]: below 2 nothing is marked. *)
Definition m_plotphase_fft (sig : list (list R)) (harmonic : nat) (maxsig : option R) (fs osr cutoff : R) (w : m_win) : result p_fft :=
  raise_if (p_bad maxsig fs osr cutoff) RuntimeError (
  let d := m_orient sig in                                                  (* l.131-137 *)
  let N := ncols d in
  let nb := p_band N osr in
  let scale := p_scale maxsig sig in
  raise_if ((nb =? 0)%nat || (N <? nb)%nat) RuntimeError (                  (* nothing to take the maximum of; l.233 *)
  let al := if Reqb scale 0 then [] else p_aligned_runs N nb (m_heard scale (m_window w N) d) in   (* l.170-231 *)
  raise_if (length al =? 0)%nat RuntimeError (                              (* every level is nan *)
  let sp := p_cut cutoff fs N (p_sum al nb) in
  let levels := map (p_level N (length al)) sp in
  let base := p_base levels in
  raise_if (Rleb 0 base) RuntimeError (                                     (* l.273 rlim *)
  let radii := map (p_radius base) levels in
  let points := map2 p_point sp radii in
  bind (m_harmonics (Some (p_peak radii nb)) harmonic N) (fun hs =>         (* l.277-278 *)
  raise_if (existsb (fun b => (length sp <=? b)%nat) hs) RuntimeError (      (* l.279 *)
  let n := S (Z.to_nat (Zfloor (- base / 10))) in
  Ok (mkPfft points (nth (argmax radii) points None)
             (combine (seq 2 (length hs)) (map (fun b => nth b points None) hs))
             (rev (map (fun i => (- base - 10 * INR i, - 10 * INR i)) (seq 0 n))) (- base)))))))).

(** ** LMS mode (l.286-425) *)
(** l.300-306: cosines of every order, then sines; no constant. *)
Definition p_basis (n : nat) (freq : R) (H : nat) : mat :=
  mkMat n (2 * H) (fun t j => if (j <? H)%nat then cos (INR t * freq * INR (j + 1) * 2 * PI) else sin (INR t * freq * INR (j - H + 1) * 2 * PI)).
(** l.290-294: the mean of the runs without its own mean, over the full scale. *)
Definition p_record (scale : R) (d : list (list R)) : list R :=
  let avg := harm_average d in map (fun x => (x - lmean avg) / scale) avg.
(** l.317-351: with oversampling the residual is windowed and low-pass filtered. *)
Definition p_inband (osr : R) (w : m_win) (res : list R) : result (list R) :=
  if Rltb 1 osr then
    let win := m_window w (length res) in
    bind (m_ifilter (map (fun x => [x]) (map2 (fun x v => x * (v / sqrt (lmean (map (fun y => y ^ 2) win)))) res win)) [[0; 0.5 / osr]])
      (fun c => Ok (map (fun r => nth 0 r 0) c))
  else Ok res.
(** 20*log10 of a positive number. *)
Definition p_db (x : R) : R := 20 * (ln x / ln 10).

Record p_lms := mkPlms {
  pl_mag : list R; pl_phase : list R; pl_noise : R;      (* harm_mag, harm_phase, noise_power *)
  pl_points : list (R * R);                 (* angle and radius of the harmonics from the fundamental on *)
  pl_circle : R; pl_text : num;             (* radius of the dashed circle and the number written there *)
  pl_ticks : list (R * Z); pl_limit : R }.
(** l.300-425 at the frequency found. *)
Definition p_lms_at (lin : lstsq_fun) (y : list R) (freq : R) (harmonic : Z) (osr : R) (w : m_win) : result p_lms :=
  raise_if (harmonic <=? 0)%Z RuntimeError (                                (* l.368: no harm_phase(1) *)
  let H := Z.to_nat harmonic in
  let n := length y in
  let B := p_basis n freq H in
  let W := lin B (fun i => nth i y 0) in                                    (* l.309 *)
  let res := map2 Rminus y (map (mv B W) (seq 0 n)) in                      (* l.312-315 *)
  bind (p_inband osr w res) (fun res' =>
  let noise := sqrt (lmean (map (fun x => x ^ 2) res')) * 2 * sqrt 2 in     (* l.353 *)
  let coef := fun h => (W h, W (h + H)%nat) in
  let mag := map (fun h => Cmod (coef h) * 2) (seq 0 H) in                  (* l.359-363 *)
  let phase := map (fun h => wrap_phase (Carg (coef h) - Carg (coef 0%nat) * INR (h + 1))) (seq 0 H) in   (* l.364-373 *)
  raise_if (Reqb noise 0 || existsb (fun m => Reqb m 0) mag) RuntimeError ( (* minR = -inf, l.419 *)
  let db := map p_db mag in
  let maxk := Zceil (lmax1 (hd 0 db) db / 10) in                            (* l.380 *)
  let mink := Zfloor ((Rmin (lmin1 (hd 0 db) db) (p_db noise) - 10) / 10) in   (* l.382-384 *)
  let base := IZR mink * 10 in
  Ok (mkPlms mag phase noise (combine phase (map (fun x => x - base) db)) (p_db noise - base) (fixed 1 (p_db noise))
             (map (fun i => (10 * INR i, (10 * (mink + Z.of_nat i))%Z)) (seq 0 (Z.to_nat (maxk - mink + 1))))
             (IZR maxk * 10 - base))))).
(** l.286-297; without a frequency (a constant record) every number is nan. *)
Definition m_plotphase_lms (lin : lstsq_fun) (sig : list (list R)) (harmonic : Z) (maxsig : option R) (fs osr cutoff : R) (w : m_win) : result p_lms :=
  raise_if (p_bad maxsig fs osr cutoff) RuntimeError (
  let scale := p_scale maxsig sig in
  raise_if (Reqb scale 0) RuntimeError (
  let y := p_record scale (m_orient sig) in
  bind (m_sinfit lin [y] 0 (1 / 10 ^ 12) (1 / 2) false 100) (fun o =>
  match o with
  | None => Err RuntimeError
  | Some r => p_lms_at lin y (mf_freq r) harmonic osr w
  end))).
