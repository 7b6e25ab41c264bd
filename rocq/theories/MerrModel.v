(** * Model of matlab/src/errsin.m, the original of rearrange_error_by_phase and rearrange_error_by_value.
    linsolve is an argument; the signal is a vector; [error] and a bad index are RuntimeError; 'bin' is an integer; the window
    is 'hann' or 'rect'; erange is empty or a pair.  The accumulating loops are written as sums per bin.  Not modelled:
    plotting (except the two averaged traces of the value plot), warnings, rounding. *)
From Verif Require Import Base Cplx SpecModel TiModel CalModel FitModel BandModel RearModel MatModel MsinModel.
Local Open Scope R_scope.

(** l.368-382 hannwin, entry n. *)
Definition m_hann (N n : nat) : R := if (N =? 1)%nat then 1 else 0.5 * (1 - cos (2 * PI * INR n / INR N)).
(** l.135-169: the error held to the band [0, 0.5/osr]; [hann] says which window. *)
Definition m_inband (hann : bool) (osr : R) (err : list R) : list R :=
  if Rltb 1 osr then
    let N := length err in
    let win n := if hann then m_hann N n else 1 in
    let e1 := map (fun n => nth n err 0 * win n) (seq 0 N) in                            (* l.164 *)
    let e2 := m_filter_col [(0, 0.5 / osr)] e1 in                                        (* l.165 *)
    map (fun n => nth n e2 0 / Rmax (win n) 0.01) (seq 0 N)                              (* l.168 *)
  else err.
(** l.172 mod(phi/pi*180 + t*fin*360, 360). *)
Definition m_mod (x m : R) : R := x - m * IZR (Zfloor (x / m)).
Definition m_phase (phi fin : R) (t : nat) : R := m_mod (phi / PI * 180 + INR t * fin * 360) 360.

(** l.210-214 and l.280-284: sqrt of the mean square about the mean of the bin; an empty bin is 0/0. *)
Definition m_bin_dev (idx : list nat) (err : list R) (b : nat) : xr :=
  match bin_mean idx err b with
  | Fin m => Fin (sqrt (bin_sum idx (map (fun e => (e - m) ^ 2) err) b / INR (bin_count idx b)))
  | v => v
  end.
(** l.193: the bin of a value, counted from zero; with a constant signal 0/0 is NaN, which min leaves out. *)
Definition m_value_bin (bin : Z) (lo hi x : R) : nat :=
  let wid := (hi - lo) / IZR bin in
  Z.to_nat ((if Reqb wid 0 then bin else Z.min (Zfloor ((x - lo) / wid) + 1) bin) - 1).
(** l.179-180 *)
Definition m_value_center (bin : Z) (lo hi : R) (k : nat) : R :=
  let wid := (hi - lo) / IZR bin in lo + INR (k + 1) * wid - wid / 2.
(** l.273 and l.281: the bin of a phase in degrees, counted from zero. *)
Definition m_phase_bin (bin : Z) (p : R) : nat := Z.to_nat (m_round (p / 360 * IZR bin) mod bin).
(** l.265 *)
Definition m_phase_center (bin : Z) (k : nat) : R := INR k / IZR bin * 360.
(** l.289-293 the matrix of the noise fit. *)
Definition m_noise_design (bin : Z) : mat :=
  of_cols (Z.to_nat bin) [fun k => cos (m_phase_center bin k / 360 * 2 * PI) ^ 2; fun k => sin (m_phase_center bin k / 360 * 2 * PI) ^ 2].
(** l.293-306: with a NaN on the right every coefficient is NaN, and max(NaN, 0) is 0. *)
Definition m_noise (linsolve : lstsq_fun) (bin : Z) (erms : list xr) : R * R :=
  if forallb (fun v => match v with Fin _ => true | _ => false end) erms then
    let co := linsolve (m_noise_design bin) (fun i => match nth i erms NaN with Fin v => v ^ 2 | _ => 0 end) in
    (sqrt (Rmax (co 0%nat) 0), sqrt (Rmax (co 1%nat) 0))
  else (0, 0).
(** l.221-225 and l.309-313. *)
Definition m_erange (erange : option (R * R)) (xs err : list R) : list R * list R :=
  match erange with
  | None => (xs, err)
  | Some (a, b) => List.split (filter (fun p => Rleb a (fst p) && Rleb (fst p) b) (combine xs err))
  end.

(** The outputs; [me_noise] is None for the two NaNs of value mode.  [me_first] and [me_second] are the averages over the samples
    with a phase below 180 degrees and the others, drawn as the rising and the falling trace (l.193-207, l.240-241; value mode). *)
Record m_err := mkMerr { me_mean : list xr; me_rms : list xr; me_xx : list R; me_noise : option (R * R); me_err : list R; me_errxx : list R;
  me_bins : list nat; me_first : list xr; me_second : list xr }.
(** l.175-225 *)
Definition m_by_value (bin : Z) (erange : option (R * R)) (sig err phase : list R) : m_err :=
  let lo := lmin1 (hd 0 sig) sig in let hi := lmax1 (hd 0 sig) sig in
  let idx := map (m_value_bin bin lo hi) sig in
  let all := seq 0 (Z.to_nat bin) in
  let half (c : R -> bool) := filter (fun p => c (snd p)) (combine (combine idx err) phase) in
  let trace (c : R -> bool) := map (bin_mean (map (fun p => fst (fst p)) (half c)) (map (fun p => snd (fst p)) (half c))) all in
  let '(xs, es) := m_erange erange sig err in
  mkMerr (map (bin_mean idx err) all) (map (m_bin_dev idx err) all) (map (m_value_center bin lo hi) all) None es xs idx
         (trace (fun p => Rltb p 180)) (trace (fun p => Rleb 180 p)).
(** l.263-313 *)
Definition m_by_phase (linsolve : lstsq_fun) (bin : Z) (erange : option (R * R)) (err phase : list R) : m_err :=
  let idx := map (m_phase_bin bin) phase in
  let all := seq 0 (Z.to_nat bin) in
  let erms := map (m_bin_dev idx err) all in
  let '(xs, es) := m_erange erange phase err in
  mkMerr (map (bin_mean idx err) all) erms (map (m_phase_center bin) all) (Some (m_noise linsolve bin erms)) es xs idx [] [].
(** l.95-313.  [fin] = None: not given.  Without a fit (C168: a constant signal) a NaN phase cannot index a bin, and in value mode
    every error is NaN: [None]. *)
Definition m_errsin (linsolve : lstsq_fun) (sig : list R) (bin : Z) (fin : option R) (value : bool) (erange : option (R * R)) (osr : R) (hann : bool)
    : result (option m_err) :=
  raise_if ((bin <=? 0)%Z || match fin with Some f => Rleb f 0 || Rleb 1 f | None => false end || Rltb osr 1) RuntimeError
  (bind (m_sinfit linsolve (map (fun x => [x]) sig) (match fin with Some f => f | None => 0 end) (1 / 10 ^ 12) (1 / 2) false 100) (fun o =>
   match o with
   | None => if value then Ok None else Err RuntimeError
   | Some r =>
       let f := match fin with Some f => f | None => mf_freq r end in
       let err := m_inband hann osr (map2 Rminus (mf_fitout r) sig) in                   (* l.132 *)
       let phase := map (m_phase (mf_phi r) f) (seq 0 (length sig)) in
       Ok (Some (if value then m_by_value bin erange sig err phase else m_by_phase linsolve bin erange err phase))
   end)).
