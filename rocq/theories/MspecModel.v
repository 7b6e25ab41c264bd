(** * Model of the MATLAB function plotspec (matlab/src/plotspec.m), the original of the spectrum analysis.
    Bins are counted from 0 (MATLAB's index minus one).  The capture is a matrix of runs, one per row.  Arithmetic is exact and the
    FFT is the exact DFT sum.  maxSignal, Fs and OSR are positive (the parser's checks); a default maxSignal of 0 (a constant capture)
    would make every sample nan and is not represented, nor is a fractional sideBin.
    Plotting is modelled only as far as the numbers printed for the tone's frequency. *)
From Verif Require Import Base Cplx FreqModel UnitsModel TiModel SpecModel MatModel CohModel.
Local Open Scope R_scope.

(** l.259-264: a column vector is one run. *)
Definition m_orient (d : list (list R)) : list (list R) :=
  if ((ncols d =? 1) && (1 <? length d))%nat then transpose (ncols d) d else d.
(** l.146, 205-209: the default full scale is the range of the whole matrix. *)
Definition m_full_scale (d : list (list R)) : R :=
  match concat d with [] => 0 | x :: l => lmax1 x l - lmin1 x l end.
(** l.276: how many bins lie in the signal band. *)
Definition m_inband (N : nat) (osr : R) : nat :=
  Z.to_nat (Z.min (Zfloor (INR N / 2 / osr) + 1) (Z.of_nat (N / 2 + 1))).
(** l.279-302, 723-751: the built-in windows, or the samples a window function handle returned. *)
Inductive m_win := MHann | MRect | MGiven (w : list R).
Definition m_window (w : m_win) (N : nat) : list R :=
  match w with
  | MHann => if (N =? 1)%nat then [1] else map (fun n => 1 / 2 * (1 - cos (2 * PI * INR n / INR N))) (seq 0 N)
  | MRect => repeat 1 N
  | MGiven w => w
  end.

(** l.308-316: one run; runs that are zero throughout are passed over. *)
Definition m_silent (r : list R) : bool := forallb (fun x => Reqb x 0) r.
Definition m_run (fullscale : R) (w r : list R) : list R :=
  let t := map (fun x => x / fullscale) r in
  let m := lmean t in
  map2 (fun x v => (x - m) * v / sqrt (lmean (map (fun y => y ^ 2) w))) t w.
Definition m_heard (fullscale : R) (w : list R) (d : list (list R)) : list (list R) :=
  map (m_run fullscale w) (filter (fun r => negb (m_silent r)) d).

(** l.318-360: the run's spectrum turned so that the tone's phase becomes 0; None: the strongest bin is bin 0. *)
Definition m_aligned (N nb : nat) (t : list R) : option (nat -> C) :=
  let X := upd (rfft t) 0 C0 in                                             (* l.320-321 *)
  let k := argmax (map (fun b => Cmod (X b)) (seq 0 nb)) in                 (* l.323 *)
  if (k =? 0)%nat then None else                                            (* l.325-328 *)
  let p := Cconj (Cscale (/ Cmod (X k)) (X k)) in                           (* l.329, 332 *)
  let s := fold_left (harmonic_step k N p) (seq 1 N) (mkAlign X (fun _ => false) p) in
  Some (fun b => if al_done s b then al_fft s b
                 else Cmult (al_fft s b) (cpower p (INR b / INR k))).       (* l.355-359 *)
Fixpoint m_aligned_runs (N nb : nat) (runs : list (list R)) : list (nat -> C) :=
  match runs with
  | [] => []
  | r :: t => match m_aligned N nb r with Some a => a :: m_aligned_runs N nb t | None => m_aligned_runs N nb t end
  end.

(** l.373-385, one bin: with coherent averaging the squared magnitude of the mean, else the mean power without bin 0; the last bin of
    an even record is halved. *)
Definition m_nyquist (N b : nat) (p : R) : R := if (Nat.even N && (b =? N / 2))%nat then p / 2 else p.
Definition m_power_bin (N : nat) (runs : list (list R)) (b : nat) : R :=
  m_nyquist N b (if (b =? 0)%nat then 0
                 else lsum (map (fun r => Cmod (rfft r b) ^ 2) runs) / INR N ^ 2 * 16 / INR (length runs)).
Definition m_coherent_bin (N : nat) (al : list (nat -> C)) (b : nat) : R :=
  m_nyquist N b (Cmod (fold_left (fun acc a => Cplus acc (a b)) al C0) ^ 2 / INR N ^ 2 * 16 / INR (length al) ^ 2).
(** l.304-385; None: no run was used and the whole spectrum is nan. *)
Definition m_spectrum (coherent : bool) (fullscale : R) (w : list R) (N nb : nat) (d : list (list R)) : option (list R) :=
  let runs := m_heard fullscale w d in
  let al := m_aligned_runs N nb runs in
  if (length (if coherent then map (fun _ => 0) al else map (fun _ => 0) runs) =? 0)%nat then None else
  Some (map (if coherent then m_coherent_bin N al else m_power_bin N runs) (seq 0 (N / 2 + 1))).

(** l.390-392; fs > 0. *)
Definition m_cut (cutoff fs : R) (N : nat) (P : list R) : list R :=
  if Rltb 0 cutoff then zero_range 0 (Z.to_nat (Zceil (cutoff / fs * INR N))) P else P.
(** l.395-404: the tone's position between bins, from the tone's bin and the spectrum after the cutoff.  A bin without power has
    logarithm -inf, and then the quotient is nan (or -0) and the position is the bin itself; None: the position is infinite. *)
Definition m_position (P : list R) (N f : nat) : option R :=
  let e := nth f P 0 in
  let l := nth (f - 1) P 0 in
  let r := nth (Nat.min (f + 1) (N / 2)) P 0 in
  if Rltb 0 e && Rltb 0 l && Rltb 0 r then
    let num := (ln r / ln 10) - (ln l / ln 10) in
    let den := 2 * (ln e / ln 10) - (ln l / ln 10) - (ln r / ln 10) in
    if Reqb den 0 then (if Reqb num 0 then Some (INR f) else None)
    else Some (INR f + num / den / 2)
  else Some (INR f).

(** l.415-459: the automatic half-width.  Comparisons with nan fail, so it is the largest one when the ideal tone has nothing in its bin. *)
Fixpoint m_first_below (ideal : list R) (floor : R) (nb f sb left : nat) : option nat :=
  match left with
  | O => None
  | S left' =>
      if ((sb <=? f)%nat && Rleb (nth (f - sb) ideal 0) floor) && ((f + sb <? nb)%nat && Rleb (nth (f + sb) ideal 0) floor)
      then Some (sb - 1)%nat
      else m_first_below ideal floor nb f (S sb) left'
  end.
Definition m_ideal (w : list R) (N : nat) (frac : R) : list R :=
  let t := map2 (fun x v => x * v / sqrt (lmean (map (fun y => y ^ 2) w)))
             (map (fun n => sin (2 * PI * frac / INR N * INR n)) (seq 0 N)) w in
  map (fun b => m_nyquist N b (Cmod (rfft t b) ^ 2 / INR N ^ 2 * 16)) (seq 0 (N / 2 + 1)).
Definition m_side_auto (P w : list R) (N nb f : nat) (frac : option R) : nat :=
  let max_sb := Nat.min f (nb - 1 - f) in
  match frac with
  | None => max_sb
  | Some x =>
      let ideal := m_ideal w N x in
      if Reqb (nth f ideal 0) 0 then max_sb else
      let scaled := map (fun p => p * (nth f P 0 / nth f ideal 0)) ideal in
      let band := firstn nb P in
      let big := filter (fun p => Rltb (/ 10 ^ 20) p) band in
      let floor := if (3 <=? length big)%nat then median big else median band in
      match m_first_below scaled floor nb f 1 max_sb with Some sb => sb | None => max_sb end
  end.

(** l.474, 506, 555, 581: where harmonics 2..m appear; an infinite position makes a nan index (an error). *)
Definition m_harmonics (frac : option R) (m N : nat) : result (list nat) :=
  if (m <=? 1)%nat then Ok [] else
  match frac with
  | None => Err RuntimeError
  | Some x => Ok (map (fun i => match m_alias (IZR (m_round (x * INR (i + 2)))) (INR N) with
                                | Ok v => Z.to_nat (Zfloor v)
                                | Err _ => O
                                end) (seq 0 (m - 1)))
  end.
(** l.475, 514, 584-586: the window of half-width sb around bin b. *)
Definition m_blank (hi sb : nat) (P : list R) (b : nat) : list R := zero_range (b - sb) (Nat.min (b + sb + 1) hi) P.

(** 10*log10(a/b) of MATLAB for a, b >= 0. *)
Definition m_db (a b : R) : xr := if Reqb b 0 then (if Reqb a 0 then NaN else PInf) else db (a / b).

(** l.536-546, 550-560: the noise estimates.  P: the spectrum without the tone. *)
Definition m_floor_bins (nb : nat) (P : list R) : list R :=
  match filter (fun x => Rltb (/ 10 ^ 20) (Rabs x)) (firstn nb P) with [] => firstn nb P | l => l end.
Definition m_noise_median (nb runs : nat) (P : list R) : R :=
  median (m_floor_bins nb P) / (if (runs =? 1)%nat then 0.72 else (1 - 2 / (9 * INR runs)) ^ 3) * INR nb.
Definition m_noise_mean (nb : nat) (P : list R) : R :=
  let s := sortR (m_floor_bins nb P) in
  let n := length (m_floor_bins nb P) in
  let lo := Z.to_nat (Z.max 1 (Zfloor (INR n * 0.05))) in
  let hi := Z.to_nat (Z.max 1 (Zfloor (INR n * 0.95))) in
  lmean (slice (lo - 1) hi s) * INR nb.
Definition m_noise_exclude (nb : nat) (hs : list nat) (P : list R) : R :=
  lsum (firstn nb (fold_left (fun p b => zero_range b (S b) p) hs P)).
(** l.562-571 *)
Definition m_noise (nfmethod : Z) (nb runs : nat) (hs : list nat) (P : list R) : R :=
  let md := m_noise_median nb runs P in
  let tr := m_noise_mean nb P in
  let ex := m_noise_exclude nb hs P in
  if (nfmethod =? 0)%Z then median [md; tr; ex] else if (nfmethod =? 1)%Z then md
  else if (nfmethod =? 2)%Z then tr else ex.
(** l.574-581 *)
Definition m_thd_power (nb sb : nat) (hs : list nat) (P : list R) : R :=
  lsum (map (fun i => if existsb (fun b => ((b - sb <=? i) && (i <? Nat.min (b + sb + 1) nb))%nat) hs then nth i P 0 else 0)
          (seq 0 (length P))).

Record mspec := {
  ms_power : list R;      (* the spectrum the tone is measured in *)
  ms_inband : nat; ms_bin : nat; ms_frac : option R; ms_side : nat;
  ms_sig : R; ms_sigpwr : xr; ms_noi : R; ms_spur_bin : nat; ms_spur : R; ms_harmonics : list nat;
  ms_thd_power : R; ms_noise_power : R;
  ms_enob : xr; ms_sndr : xr; ms_sfdr : xr; ms_snr : xr; ms_thd : xr; ms_floor : xr; ms_nsd : xr }.

(** l.387-590 from the averaged spectrum [P0] on.  [side] is None for 'auto', [assumed] None for nan. *)
Definition m_measure (P0 w : list R) (N nb runs : nat) (fs osr : R) (side : option nat) (harmonic : Z) (nthd : nat) (nfmethod : Z)
    (assumed : option R) (cutoff : R) : result mspec :=
  let P := m_cut cutoff fs N P0 in
  let f := argmax (firstn nb P0) in                                         (* l.387, 395 *)
  let frac := m_position P N f in
  let sb := match side with Some s => s | None => m_side_auto P w N nb f frac end in
  let sig0 := lsum (slice (f - sb) (Nat.min (f + sb + 1) nb) P) in          (* l.463 *)
  let sig := match assumed with Some a => pow10 (a / 10) | None => sig0 end in
  let pwr := match assumed with Some a => Fin a | None => db sig0 end in
  bind (m_harmonics frac (Z.to_nat (- harmonic)) N) (fun gone =>            (* l.472-477 *)
  let P1 := fold_left (m_blank (N / 2 + 1) sb) gone P in
  let P2 := zero_range 0 sb (m_blank (N / 2 + 1) sb P1 f) in                (* l.514-515 *)
  let band := firstn nb P2 in
  let noi := lsum band in
  let s := argmax band in                                                   (* l.520-523 *)
  let spur := lsum (slice (s - sb) (Nat.min (s + sb + 1) nb) band) in
  bind (m_harmonics frac nthd N) (fun hs =>
  let noise := m_noise nfmethod nb runs hs P2 in
  let thd := m_thd_power nb sb hs P2 in
  let sndr := m_db sig noi in
  let snr := m_db sig noise in
  let floor := xsub pwr snr in
  Ok {| ms_power := P; ms_inband := nb; ms_bin := f; ms_frac := frac; ms_side := sb;
        ms_sig := sig; ms_sigpwr := pwr; ms_noi := noi; ms_spur_bin := s; ms_spur := spur; ms_harmonics := hs;
        ms_thd_power := thd; ms_noise_power := noise;
        ms_enob := enob_of sndr; ms_sndr := sndr; ms_sfdr := m_db sig spur; ms_snr := snr; ms_thd := m_db thd sig;
        ms_floor := floor; ms_nsd := xsub floor (db (fs / 2 / osr)) |})).

(** l.254-716.  Ok None: no run was used; the spectrum and all ratios are nan. *)
Definition m_plotspec (data : list (list R)) (fs : R) (fullscale : option R) (coherent : bool) (wt : m_win) (side : option nat) (osr : R)
    (harmonic : Z) (nthd : nat) (nfmethod : Z) (assumed : option R) (cutoff : R) : result (option mspec) :=
  let d := m_orient data in
  let N := ncols d in
  let nb := m_inband N osr in
  let w := m_window wt N in
  let fsc := match fullscale with Some v => v | None => m_full_scale d end in
  match m_spectrum coherent fsc w N nb d with
  | None => Ok None
  | Some P0 => bind (m_measure P0 w N nb (length d) fs osr side harmonic nthd nfmethod assumed cutoff) (fun r => Ok (Some r))
  end.

(** l.625-637: the tone's frequency printed in the figure (the number before the SI prefix is applied). *)
Definition m_printed_fin (fs frac : R) (N : nat) : R :=
  let fin := frac / INR N * fs in
  if Rleb 1 fin then fin else (frac + 1) / INR N * fs.
