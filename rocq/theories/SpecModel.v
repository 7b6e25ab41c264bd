(** * Model of adctoolbox/spectrum: _bin_ranges, _window, _prepare_fft_input,
    _spectrum_averaging (power averaging), _locate_fundamental, _side_bin_auto, _harmonics,
    _exclude_bins, _estimate_noise_power, compute_spectrum, quick_sndr.
    A 2-D capture is a list of equally long rows (a 1-D capture is one row).  Arithmetic is
    exact; the FFT is the exact DFT sum of Cplx.v.  [side_bin] arguments are non-negative. *)
From Coq Require Import String.
From Verif Require Import Base Cplx FreqModel UnitsModel TiModel.
Local Open Scope string_scope.
Local Open Scope list_scope.
Local Open Scope R_scope.

(** ** numpy helpers *)

(** a[lo:hi] for 0 <= lo, 0 <= hi. *)
Definition slice {A} (lo hi : nat) (l : list A) : list A := firstn (hi - lo) (skipn lo l).
(** a[lo:hi] = 0 on a copy. *)
Definition zero_range (lo hi : nat) (l : list R) : list R :=
  map (fun i => if ((lo <=? i) && (i <? hi))%nat then 0 else nth i l 0) (seq 0 (length l)).
(** np.argmax of a non-empty 1-D array: the first position of the maximum. *)
Fixpoint argmax_from (best : R) (bi i : nat) (l : list R) : nat :=
  match l with
  | [] => bi
  | x :: t => if Rltb best x then argmax_from x i (S i) t else argmax_from best bi (S i) t
  end.
Definition argmax (l : list R) : nat :=
  match l with [] => O | x :: t => argmax_from x O 1 t end.
(** np.sort. *)
Fixpoint insR (x : R) (l : list R) : list R :=
  match l with [] => [x] | y :: t => if Rleb x y then x :: l else y :: insR x t end.
Definition sortR (l : list R) : list R := fold_right insR [] l.
(** np.median of a non-empty array. *)
Definition median (l : list R) : R :=
  let s := sortR l in let n := List.length l in
  if Nat.even n then (nth (n / 2 - 1) s 0 + nth (n / 2) s 0) / 2 else nth (n / 2) s 0.

(** ** _bin_ranges.py 16-27.  np.isclose(a, b, rtol, atol) is |a - b| <= atol + rtol*|b|. *)
Definition isclose12 (a b : R) : bool :=
  Rleb (Rabs (a - b)) (/ 10 ^ 12 + / 10 ^ 12 * Rabs b).
Definition inband_count (n_fft : Z) (osr : R) : result Z :=
  raise_if (n_fft <=? 0)%Z ValueError                                    (* l.16 *)
  (raise_if (Rleb osr 0) ValueError                                      (* l.18 *)
   (let rfft_len := (n_fft / 2 + 1)%Z in
    let edge := IZR n_fft / (2 * osr) in
    let nearest := IZR (round_he edge) in
    let edge' := if isclose12 edge nearest then nearest else edge in     (* l.24-25 *)
    let count := (Zfloor edge' + 1)%Z in
    Ok (Z.max 1 (Z.min count rfft_len)))).                               (* l.27 *)

(** ** _window.py *)
Inductive win : Set :=
| Boxcar | Hann | Hamming | Blackman | BlackmanHarris | Flattop | Kaiser | Chebwin.
(** _window.py 87-105, 131-137, 144-149: the (lower-cased) window name; unknown names mean hann. *)
Definition win_of_name (s : string) : win :=
  if (s =? "boxcar")%string then Boxcar
  else if (s =? "rectangular")%string then Boxcar
  else if (s =? "kaiser")%string then Kaiser
  else if (s =? "chebwin")%string then Chebwin
  else if (s =? "hann")%string then Hann
  else if (s =? "hamming")%string then Hamming
  else if (s =? "blackman")%string then Blackman
  else if (s =? "blackmanharris")%string then BlackmanHarris
  else if (s =? "flattop")%string then Flattop
  else Hann.
(** scipy.signal.windows.general_cosine(N, a, sym=False): the N+1-point symmetric window with
    fac = linspace(-pi, pi, N+1), last sample dropped; lengths <= 1 give ones. *)
Definition cos_window (a : list R) (N : nat) : list R :=
  if (N <=? 1)%nat then repeat 1 N else
  map (fun n => rsum (List.length a)
         (fun k => nth k a 0 * cos (INR k * (2 * PI * INR n / INR N - PI)))) (seq 0 N).
(** Coefficients used by scipy's hann, hamming, blackman, blackmanharris and flattop. *)
Definition win_coefs (w : win) : list R :=
  match w with
  | Hann => [0.5; 0.5]
  | Hamming => [0.54; 0.46]
  | Blackman => [0.42; 0.50; 0.08]
  | BlackmanHarris => [0.35875; 0.48829; 0.14128; 0.01168]
  | Flattop => [0.21557895; 0.41663158; 0.277263158; 0.083578947; 0.006947368]
  | _ => [1]
  end.
(** _window.py 87-105.  scipy's kaiser(beta=38) and chebwin(at=100) are not defined here; they
    are the arguments [kaiser38] and [cheb100]. *)
Definition create_window (kaiser38 cheb100 : nat -> list R) (w : win) (N : nat) : list R :=
  match w with
  | Boxcar => repeat 1 N
  | Kaiser => kaiser38 N
  | Chebwin => cheb100 N
  | _ => cos_window (win_coefs w) N
  end.
(** _window.py 107, 109, 178. *)
Definition window_gain (w : list R) : R := lsum w / INR (List.length w).
Definition enbw_factor (w : list R) : R :=
  INR (List.length w) * lsum (map (fun x => x ^ 2) w) / (lsum w) ^ 2.
Definition power_correction (w : list R) : R := 4 / ((window_gain w) ^ 2 * enbw_factor w).
(** _window.py 19-52 ('coherent' column) and 55-64. *)
Definition default_side_bin (w : win) : nat :=
  match w with Boxcar => 0 | Hann => 1 | Hamming => 1 | Blackman => 2 | BlackmanHarris => 3
             | Flattop => 4 | Kaiser => 8 | Chebwin => 4 end.
Definition auto_fallback (w : win) : nat :=
  match w with Boxcar => 1 | Hann => 3 | Hamming => 3 | Blackman => 4 | BlackmanHarris => 5
             | Flattop => 6 | Kaiser => 10 | Chebwin => 6 end.

(** ** _prepare_fft_input.py *)
Inductive scale := ScaleAuto | ScaleRange (l : list R) | ScalePeak (p : R).
Definition ncols (d : list (list R)) : nat := List.length (hd [] d).
(** _prepare_fft_input.py 36-43. *)
Definition orient (d : list (list R)) : list (list R) :=
  let n_rows := List.length d in let n_cols := ncols d in
  if ((n_cols =? 1) && (1 <? n_rows))%nat then transpose n_cols d
  else if ((1 <? n_rows) && (1 <? n_cols) && (n_cols * 2 <? n_rows))%nat then transpose n_cols d
  else d.
(** np.max(data), np.min(data) over all elements; an empty array raises ValueError. *)
Definition peak_of (d : list (list R)) (s : scale) : result R :=
  match s with
  | ScaleAuto => match concat d with
                 | [] => Err ValueError
                 | x :: l => Ok ((lmax1 x l - lmin1 x l) / 2)            (* l.47 *)
                 end
  | ScaleRange [lo; hi] => Ok ((hi - lo) / 2)                            (* l.51-52 *)
  | ScaleRange _ => Err ValueError                                       (* l.50 *)
  | ScalePeak p => Ok p                                                  (* l.55 *)
  end.
(** _prepare_fft_input.py 32-60. *)
Definition prepare_fft_input (data : list (list R)) (s : scale) : result (list (list R)) :=
  let d := orient data in
  bind (peak_of d s) (fun peak =>
  Ok (map (fun row =>
        let m := lmean row in
        map (fun x => if Reqb peak 0 then x - m else (x - m) / peak) row) d)).

(** ** _spectrum_averaging.py 30-41 *)
Definition power_bin (N : nat) (rows : list (list R)) (k : nat) : R :=
  let p := lmean (map (fun r => Cmod (rfft r k) ^ 2) rows) / INR N ^ 2 in
  let p := if (k =? 0)%nat then p / 2 else p in
  if (Nat.even N && (k =? N / 2))%nat then p / 2 else p.
Definition power_average (N : nat) (rows : list (list R)) : list R :=
  map (power_bin N rows) (seq 0 (N / 2 + 1)).

(** ** _locate_fundamental.py 42-75; float64 division by zero gives inf/nan, which l.72 resets *)
Definition log_floor (x : R) : R := ln (Rmax x (/ 10 ^ 20)) / ln 10.
Definition fundamental_bin (P : list R) (n_inband : nat) : nat :=
  let s := firstn n_inband P in
  if (1 <? List.length s)%nat then S (argmax (tl s)) else O.
Definition fundamental_frac (P : list R) (n_inband : nat) : R :=
  let s := firstn n_inband P in
  let f := fundamental_bin P n_inband in
  if ((0 <? f) && (f <? List.length s - 1))%nat then
    let ym := log_floor (nth (f - 1) s 0) in
    let y0 := log_floor (nth f s 0) in
    let yp := log_floor (nth (f + 1) s 0) in
    if Rleb (y0 - 4) (Rmin ym yp) then
      let den := 2 * (2 * y0 - ym - yp) in
      if Reqb den 0 then INR f else INR f + (yp - ym) / den
    else INR f
  else INR f.

(** ** _side_bin_auto.py 20-49 *)
Fixpoint first_below (ideal : list R) (floor : R) (n_inband f : nat) (minimum : nat)
    (sb : nat) (left : nat) : option nat :=
  match left with
  | O => None
  | S left' =>
      let lb := (sb <=? f)%nat && Rleb (nth (f - sb) ideal 0) floor in
      let rb := (f + sb <? n_inband)%nat && Rleb (nth (f + sb) ideal 0) floor in
      if lb && rb then Some (Nat.max (sb - 1) minimum)
      else first_below ideal floor n_inband f minimum (S sb) left'
  end.
Definition side_bin_auto (P : list R) (f : nat) (frac : R) (n_inband N : nat) (w : list R)
    (corr : R) (fallback minimum : nat) : nat :=
  let ideal0 := map (fun n => sin (2 * PI * frac * INR n / INR N)) (seq 0 N) in
  let spec0 := map (fun p => p * corr) (power_average N [map2 Rmult ideal0 w]) in
  let peak := Rmax (nth f P 0) (/ 10 ^ 30) in
  let ideal := map (fun p => p * (peak / Rmax (nth f spec0 0) (/ 10 ^ 30))) spec0 in
  let inband := firstn n_inband P in
  let positive := filter (fun p => Rltb (/ 10 ^ 20) p) inband in
  let nf := if (3 <=? List.length positive)%nat then median positive else median inband in
  let nf := Rmax nf (peak * / 10 ^ 24) in
  let max_sb := Nat.min f (n_inband - 1 - f) in
  let minimum := Nat.min minimum max_sb in
  match first_below ideal nf n_inband f minimum 1 max_sb with
  | Some sb => sb
  | None => Nat.min (Nat.max fallback minimum) max_sb
  end.

(** ** _harmonics.py *)
(** _harmonics.py 40-51. *)
Definition harmonic_bins (frac : R) (max_harmonic N : nat) : list Z :=
  map (fun i => round_he (fold_bin (frac * INR (i + 2)) (Z.of_nat N))) (seq 0 (max_harmonic - 1)).
(** _harmonics.py 118-120, 129-130. *)
Definition fund_collision (f sb : nat) (h : Z) : bool :=
  (Z.abs (h - Z.of_nat f) <=? 2 * Z.of_nat sb)%Z.
Definition dc_collision (sb : nat) (h : Z) : bool := (h <=? Z.of_nat sb)%Z.
Definition harm_start (sb : nat) (h : Z) : nat := Z.to_nat (Z.max (h - Z.of_nat sb) 0).
Definition harm_end (len sb : nat) (h : Z) : nat :=
  Z.to_nat (Z.min (h + Z.of_nat sb + 1) (Z.of_nat len)).
Definition counted (f sb : nat) (h : Z) : bool := negb (fund_collision f sb h) && negb (dc_collision sb h).
(** _harmonics.py 111, 133-134. *)
Definition harmonic_power (P : list R) (f sb : nat) (h : Z) : R :=
  if counted f sb h
  then Rmax (lsum (slice (harm_start sb h) (harm_end (List.length P) sb h) P)) (/ 10 ^ 15)
  else / 10 ^ 15.
(** _harmonics.py 109, 137: the de-duplicated set of bins. *)
Definition thd_bins (P : list R) (f sb : nat) (hs : list Z) : list nat :=
  nodup Nat.eq_dec
    (flat_map (fun h => let a := harm_start sb h in seq a (harm_end (List.length P) sb h - a))
              (filter (counted f sb) hs)).
(** _harmonics.py 140-147. *)
Definition thd_power (P : list R) (f sb : nat) (hs : list Z) : R :=
  let b := thd_bins P f sb hs in
  Rmax (match b with [] => / 10 ^ 15 | _ => lsum (map (fun i => nth i P 0) b) end) (/ 10 ^ 15).
(** _harmonics.py 122-123: the orders reported as collided. *)
Definition collided (f sb : nat) (hs : list Z) : list nat :=
  map fst (filter (fun ih => fund_collision f sb (snd ih)) (combine (seq 2 (List.length hs)) hs)).
(** _harmonics.py 208-218. *)
Definition zeroed (P : list R) (n_inband f sb : nat) : list R :=
  let s := zero_range 0 (Nat.min (sb + 1) n_inband) (firstn n_inband P) in
  zero_range (f - sb) (Nat.min (f + sb + 1) n_inband) s.
Definition highest_spur (P : list R) (sb n_inband s e : nat) : nat * R :=
  let c := zero_range 0 (Nat.min (sb + 1) n_inband) (firstn n_inband P) in
  let c := if (s <? e)%nat then zero_range s e c else c in
  let b := argmax c in
  (b, lsum (slice (b - sb) (Nat.min (b + sb + 1) n_inband) c)).

(** ** _exclude_bins.py 35-56 *)
Definition exclude_bins (P : list R) (f : nat) (hs : list Z) (sb max_bin : nat) : list R :=
  let s := firstn max_bin P in
  let s := zero_range 0 (sb + 1) s in
  let n := List.length s in
  let s := if ((1 <=? f) && (f <? n))%nat then zero_range (f - sb) (Nat.min (f + sb + 1) n) s else s in
  fold_left (fun s h => if ((1 <=? h) && (h <? Z.of_nat n))%Z
                        then zero_range (harm_start sb h) (harm_end n sb h) s else s) hs s.

(** ** _estimate_noise_power.py *)
(** _estimate_noise_power.py 10-16. *)
Definition trimmed_indices (n : nat) : nat * nat :=
  let lo := Z.max 1 (Zfloor (INR n * 0.05)) in
  let hi := Z.max 1 (Zfloor (INR n * 0.95)) in
  let start := (lo - 1)%Z in
  (Z.to_nat start, Z.to_nat (Z.min (Z.max (start + 1) hi) (Z.of_nat n))).
(** l.84-86. *)
Definition floor_bins (spec : list R) : list R :=
  match filter (fun x => Rltb (/ 10 ^ 20) (Rabs x)) spec with [] => spec | l => l end.
(** l.88-102: the three estimates. *)
Definition median_noise (spec : list R) (M n_inband : nat) : R :=
  let mn := if (M =? 1)%nat then 0.72 else (1 - 2 / (9 * INR M)) ^ 3 in
  median (floor_bins spec) / mn * INR n_inband.
Definition trimmed_noise (spec : list R) (n_inband : nat) : R :=
  let s := sortR (floor_bins spec) in
  let se := trimmed_indices (List.length (floor_bins spec)) in
  lmean (slice (fst se) (snd se) s) * INR n_inband.
Definition exclude_noise (spec : list R) (hs : list Z) (n_inband : nat) : R :=
  lsum (fold_left (fun s h => if ((0 <=? h) && (h <? Z.of_nat n_inband))%Z
                              then zero_range (Z.to_nat h) (S (Z.to_nat h)) s else s) hs spec).
(** l.54-64: the bins that remain as candidates for method 4. *)
Definition candidate_bins (n_inband f : nat) (hs : list Z) (sb : nat) : list nat :=
  filter (fun i =>
    negb (i <? Nat.min (sb + 1) n_inband)%nat &&
    negb (((1 <=? f) && (f <? n_inband) && (f - sb <=? i) && (i <? Nat.min (f + sb + 1) n_inband))%nat) &&
    forallb (fun h => negb ((1 <=? h)%Z && (h <? Z.of_nat n_inband)%Z &&
                            (harm_start sb h <=? i)%nat && (i <? harm_end n_inband sb h)%nat)) hs)
    (seq 0 n_inband).
(** l.50-125; [None] is the nan returned by method 4 when no bin remains. *)
Definition estimate_noise (P : list R) (nf_method : Z) (n_inband M f : nat) (hs : list Z) (sb : nat)
    : result (option R) :=
  if (nf_method =? 4)%Z then
    match candidate_bins n_inband f hs sb with
    | [] => Ok None
    | _ => Ok (Some (Rmax (lsum (exclude_bins P f hs sb n_inband)) (/ 10 ^ 15)))
    end
  else
    let spec := zeroed P n_inband f sb in
    let md := median_noise spec M n_inband in
    let tr := trimmed_noise spec n_inband in
    let ex := exclude_noise spec hs n_inband in
    let ok x := Ok (Some (Rmax x (/ 10 ^ 15))) in
    if (nf_method =? 0)%Z then ok (median [md; tr; ex])
    else if (nf_method =? 1)%Z then ok md
    else if (nf_method =? 2)%Z then ok tr
    else if (nf_method =? 3)%Z then ok ex
    else Err ValueError.

(** ** compute_spectrum.py *)
Definition db (x : R) : xr := xaxpy 0 10 (xlog10 x).
Record spectrum := {
  sp_power : list R; sp_inband : nat; sp_fund : nat; sp_frac : R; sp_side : nat;
  sp_start : nat; sp_end : nat; sp_sig : R; sp_sig_dbfs : R;
  sp_harm_bins : list Z; sp_thd_power : R; sp_harm_powers : list R; sp_collided : list nat;
  sp_spur_bin : nat; sp_spur_power : R; sp_noise_dist : R; sp_noise : option R;
  sp_sndr : xr; sp_enob : xr; sp_sfdr : xr; sp_thd : xr; sp_harm_dbc : list xr;
  sp_snr : xr; sp_floor : xr; sp_nsd : xr }.

(** np.log10(sig / noise) * 10 and the subtraction [a - x] on float values. *)
Definition xsub_l (a : R) (x : xr) : xr := xaxpy a (-1) x.
Definition xsub (x y : xr) : xr :=
  match x, y with
  | Fin a, _ => xsub_l a y
  | PInf, (Fin _ | NInf) => PInf
  | NInf, (Fin _ | PInf) => NInf
  | _, _ => NaN
  end.
(** compute_spectrum.py 148-154. *)
Definition noise_distortion (P : list R) (n_inband f sb : nat) : R :=
  let s := zero_range 0 (Nat.min (sb + 1) (List.length P)) P in
  let lo := (f - sb)%nat in let hi := Nat.min (f + sb + 1) n_inband in
  let s := if (lo <? hi)%nat then zero_range lo hi s else s in
  lsum (firstn n_inband s).
(** compute_spectrum.py 155-156 *)
Definition sndr_of (sig noi : R) : xr := db (sig / (noi + / 10 ^ 20)).
Definition enob_of (sndr : xr) : xr := xaxpy (- (1.76 / 6.02)) (/ 6.02) sndr.

(** compute_spectrum.py 99-181, from the corrected (and possibly cut-off) power spectrum on.
    [side] and [assumed] are None for the defaults (nan counts as None for [assumed]). *)
Definition analyse_power (P : list R) (M N n_inband : nat) (fs osr : R) (wt : win) (w : list R)
    (side : option nat) (max_harmonic : Z) (nf_method : Z) (assumed : option R)
    : result spectrum :=
  let f := fundamental_bin P n_inband in
  let frac := fundamental_frac P n_inband in
  let sb := match side with
            | Some s => s
            | None => side_bin_auto P f frac n_inband N w (power_correction w)
                        (auto_fallback wt) (default_side_bin wt)
            end in
  let s := (f - sb)%nat in
  let e := Nat.min (f + sb + 1) n_inband in
  let sig0 := lsum (slice s e P) in
  let sig := match assumed with Some a => pow10 (a / 10) | None => sig0 end in
  let dbfs := match assumed with Some a => a | None => 10 * (ln (Rmax sig0 (/ 10 ^ 30)) / ln 10) end in
  raise_if (max_harmonic <? 1)%Z ValueError                              (* np.zeros(negative) *)
  (let hs := harmonic_bins frac (Z.to_nat max_harmonic) N in
   let hp := map (harmonic_power P f sb) hs in
   let thd := thd_power P f sb hs in
   let spur := highest_spur P sb n_inband s e in
   let noi := noise_distortion P n_inband f sb in
   let sndr := sndr_of sig noi in
   bind (estimate_noise P nf_method n_inband M f hs sb) (fun noise =>
   let snr := match noise with Some v => db (sig / v) | None => NaN end in
   let floor := match noise with Some v => xsub_l dbfs snr | None => NaN end in
   let nsd := if xfinite floor then xsub floor (db (fs / (2 * osr))) else NaN in
   Ok {| sp_power := P; sp_inband := n_inband; sp_fund := f; sp_frac := frac; sp_side := sb;
         sp_start := s; sp_end := e; sp_sig := sig; sp_sig_dbfs := dbfs;
         sp_harm_bins := hs; sp_thd_power := thd; sp_harm_powers := hp;
         sp_collided := collided f sb hs;
         sp_spur_bin := fst spur; sp_spur_power := snd spur;
         sp_noise_dist := noi; sp_noise := noise;
         sp_sndr := sndr; sp_enob := enob_of sndr;
         sp_sfdr := if Rltb 0 sig then (if Rleb (snd spur) 0 then PInf else db (sig / snd spur)) else NaN;
         sp_thd := if Rltb 0 sig then db (thd / sig) else NaN;
         sp_harm_dbc := map (fun p => if Rltb 0 sig then db (p / sig) else NaN) hp;
         sp_snr := snr; sp_floor := floor; sp_nsd := nsd |})).

(** compute_spectrum.py 86-97; int(np.ceil(.)) is Zceil; a zero fs raises ZeroDivisionError.
    A non-positive cutoff leaves the spectrum alone.  (A negative fs would make cutoff_bin
    negative; the slice [:cutoff_bin] then counts from the end.  Not represented: fs > 0.) *)
Definition apply_cutoff (P : list R) (cutoff fs : R) (N : nat) : result (list R) :=
  if Rltb 0 cutoff then
    if Reqb fs 0 then Err ZeroDivisionError else
    let cb := Z.to_nat (Z.min (Zceil (cutoff / fs * INR N)) (Z.of_nat (List.length P))) in
    Ok (map (fun i => if (i <? cb)%nat then / 10 ^ 20 else nth i P 0) (seq 0 (List.length P)))
  else Ok P.

(** compute_spectrum.py 66-79 with coherent_averaging=False: the corrected power spectrum. *)
Definition windowed (rows : list (list R)) (w : list R) : list (list R) :=
  map (fun r => map2 Rmult r w) rows.
Definition corrected_power (rows : list (list R)) (w : list R) (N : nat) : list R :=
  map (fun p => p * power_correction w) (power_average N (windowed rows w)).

Definition compute_spectrum (kaiser38 cheb100 : nat -> list R) (data : list (list R)) (fs : R)
    (sc : scale) (wt : win) (side : option nat) (osr : R) (max_harmonic nf_method : Z)
    (assumed : option R) (cutoff : R) : result spectrum :=
  bind (prepare_fft_input data sc) (fun rows =>
  let M := List.length rows in let N := ncols rows in
  bind (inband_count (Z.of_nat N) osr) (fun nb =>
  let w := create_window kaiser38 cheb100 wt N in
  bind (apply_cutoff (corrected_power rows w N) cutoff fs N) (fun P =>
  analyse_power P M N (Z.to_nat nb) fs osr wt w side max_harmonic nf_method assumed))).

(** ** quick_sndr.py 44-68 *)
Definition quick_sndr (kaiser38 cheb100 : nat -> list R) (data : list (list R)) (wt : win)
    (side : option Z) (sc : scale) : result (xr * xr) :=
  bind (prepare_fft_input data sc) (fun rows =>
  let N := ncols rows in
  bind (inband_count (Z.of_nat N) 1) (fun nb =>
  let n_inband := Z.to_nat nb in
  let w := create_window kaiser38 cheb100 wt N in
  let P := corrected_power rows w N in
  let f := fundamental_bin P n_inband in
  let sb := match side with Some s => Z.to_nat (Z.max s 0) | None => default_side_bin wt end in
  let s := (f - sb)%nat in
  let e := Nat.min (f + sb + 1) n_inband in
  let sig := lsum (slice s e P) in
  let nd := zero_range s e (zero_range 0 (Nat.min (sb + 1) (List.length P)) P) in
  let sndr := sndr_of sig (lsum (firstn n_inband nd)) in
  Ok (sndr, enob_of sndr))).
