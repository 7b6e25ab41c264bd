(** * Model of the MATLAB dashboard adcpanel (matlab/src/adcpanel.m), the original of the Python dashboards.
    Arithmetic is exact; linsolve, rank and the order sort() gives are arguments.  The data are a matrix given by its rows.  A
    variable that was never assigned is None, and using it is an error.  'disp' and 'verbose' are truth values and 'window' is
    'hann' or 'rect'.  Not modelled: what the called functions draw (their own modules) and a failure while they draw, messages,
    figure handles and layout.  Where the calibration gives nan, or the weights add up to 0 with maxCode given, the panel is not
    followed further (None). *)
From Verif Require Import Base Cplx FreqModel UnitsModel TiModel SpecModel CalModel FitModel SineHistModel MatModel CohModel MsinModel MerrModel MosrModel McalModel MgenModel MspecModel MphaseModel.
Local Open Scope R_scope.

(** l.261-286: what the parser lets through. *)
Inductive a_type : Set := TAuto | TBits | TValues | TUnknown.
Record a_opts := mkAopts { ao_type : a_type; ao_sine : bool; ao_osr : R; ao_fs : R; ao_max : option R; ao_harm : R; ao_hann : bool; ao_fin : R; ao_disp : bool }.
Definition a_bad (o : a_opts) : bool :=
  Rleb (ao_osr o) 0 || Rleb (ao_fs o) 0 || match ao_max o with Some v => Rleb v 0 | None => false end || Rleb (ao_harm o) 0 ||
  Rltb (ao_fin o) 0 || Rltb (1 / 2) (ao_fin o).

(** ** Data (l.291-360) *)
(** ceil(log2(x)) *)
Definition a_log2 (x : Z) : Z := Zceil (ln (IZR x) / ln 2).
(** l.322-339: the number of bits for codes between [lo] and [hi]. *)
Definition a_nbits (lo hi : Z) : Z :=
  if (0 <=? lo)%Z then (if (hi =? 0)%Z then 1 else a_log2 (hi + 1))%Z
  else Z.max (a_log2 (- lo) + 1) (if (0 <? hi)%Z then a_log2 (hi + 1) + 1 else 1).
(** dec2bin(v, n) - '0' with the most significant bit first; dec2bin takes more digits where the largest value needs them. *)
Definition a_bits_of (n : nat) (v : Z) : list R := map (fun i => IZR (v / 2 ^ (Z.of_nat n - 1 - Z.of_nat i) mod 2)) (seq 0 n).
Definition a_width (n : Z) (vs : list Z) : nat := Z.to_nat (Z.max n (Z.log2 (zmax_list vs) + 1)).
(** l.318-345: integer codes become bits; dec2bin refuses values that are not whole. *)
Definition a_decompose (codes : list R) : result (list (list R)) :=
  raise_if (existsb (fun x => negb (Reqb (IZR (Zfloor x)) x)) codes) RuntimeError (
  let z := map Zfloor codes in
  let n := a_nbits (zmin_list z) (zmax_list z) in
  let u := if (0 <=? zmin_list z)%Z then z else map (fun v => if (v <? 0)%Z then (2 ^ n + v)%Z else v) z in    (* l.342 *)
  Ok (map (a_bits_of (a_width n u)) u)).
Definition a_upright (d : list (list R)) : list (list R) := if (length d <? ncols d)%nat then TiModel.transpose (ncols d) d else d.
(** l.291-354: the type decided on and the data as they are used. *)
Definition a_data (t : a_type) (d : list (list R)) : result (a_type * list (list R)) :=
  raise_if (length (concat d) =? 0)%nat RuntimeError (                           (* l.291 *)
  match t with
  | TAuto =>
      if (length d =? 1)%nat then Ok (TValues, TiModel.transpose (ncols d) d)
      else if (ncols d =? 1)%nat then Ok (TValues, d)
      else Ok (TBits, a_upright d)
  | TBits =>
      let u := a_upright d in
      if (ncols u =? 1)%nat then bind (a_decompose (map (fun r => nth 0 r 0) u)) (fun b => Ok (TBits, b)) else Ok (TBits, u)
  | TValues => Ok (TValues, if ((length d =? 1) && (1 <? ncols d))%nat then TiModel.transpose (ncols d) d else d)
  | TUnknown => Ok (TUnknown, d)
  end).

(** ** The report.  [Failed]: the field holds the error's message; [Nothing]: it is []; [Skipped]: it says so; [Absent]: there is no
    such field. *)
Inductive a_field (A : Type) := Absent | Failed | Skipped | Nothing | Value (a : A).
Arguments Absent {A}. Arguments Failed {A}. Arguments Skipped {A}. Arguments Nothing {A}. Arguments Value {A} a.
(** try ... catch around a call that uses the variable [s]. *)
Definition a_try {S A : Type} (s : option S) (f : S -> result A) : a_field A :=
  match s with
  | None => Failed
  | Some x => match f x with Ok a => Value a | Err _ => Failed end
  end.

(** ** Bits (l.405-475) *)
Record a_bits := mkAbits { ab_effres : R; ab_weights : list R; ab_offset : R; ab_freq : R; ab_postcal : list R; ab_max : R }.
Definition a_matrix (d : list (list R)) : mat := mkMat (length d) (ncols d) (fun i j => nth j (nth i d []) 0).
(** l.433-465.  None: not followed further. *)
Definition a_calibrate (lin : lstsq_fun) (rank : rank_fun) (d : list (list R)) (fin : R) (harm : Z) (maxcode : option R) : result (option a_bits) :=
  bind (m_wcalsin lin rank (a_matrix d) fin 0.5 (1 / 10 ^ 12) 100 (IZR harm) false true true []) (fun c =>
  match c with
  | None => Ok None
  | Some c =>
      let w := map (mc_weight c) (seq 0 (ncols d)) in
      bind (m_plotwgt w) (fun r =>
      let '(_, wgtsca, effres) := r in
      let s := match maxcode with None => Some wgtsca | Some m => if Reqb (lsum w) 0 then None else Some (m / lsum w) end in
      Ok (match s with
          | None => None
          | Some s =>
              let w' := map (fun x => x * s) w in
              Some (mkAbits effres w' (mc_offset c * s) (nth 0 (mc_freq c) 0) (map (fun row => dot row w') d)
                            (match maxcode with None => lsum (map Rabs w) * wgtsca | Some m => m end))
          end))
  end).

(** ** Time domain (l.504-545) *)
Record a_time := mkAtime { at_sig : list (R * R); at_sine : list (R * R); at_err : list (R * R); at_left : R * R; at_right : R * R; at_x : Z * Z; at_idx : nat }.
Definition a_curve (y : list R) : list (R * R) := combine (map (fun i => INR (i + 1)) (seq 0 (length y))) y.
(** l.513-518, 542: half the width of the window in samples; None: infinite, at f = 0.5. *)
Definition a_half (f : R) : option R :=
  if Rltb (1 / 4) f then (if Reqb f (1 / 2) then None else Some (Rmax (1.5 * IZR (m_round (1 / (1 / 2 - f)))) 50))
  else Some (Rmax (1.5 * IZR (m_round (1 / f))) 50).
(** Limits that do not increase are an error, here outside any try. *)
Definition a_timedomain (sig sine err : list R) (f : R) : result a_time :=
  let idx := S (argmax (map Rabs err)) in
  let N := Z.of_nat (length sig) in
  let lo := lmin1 (hd 0 sig) sig in let hi := lmax1 (hd 0 sig) sig in
  let elo := lmin1 (hd 0 err) err in let ehi := lmax1 (hd 0 err) err in
  let r := hi - lo in let er := ehi - elo in
  let x := match a_half f with
           | Some h => (Z.max 1 (m_round (INR idx - h)), Z.min N (m_round (INR idx + h)))
           | None => (1%Z, N)
           end in
  raise_if (Rleb r 0 || Rleb er 0 || (snd x <=? fst x)%Z) RuntimeError (
  Ok (mkAtime (a_curve sig) (a_curve sine) (a_curve err) (lo - r * 1.1, hi + r * 0.1) (elo - er * 0.1, ehi + er * 1.1) x idx)).

(** ** The analyses of a sine (l.484-655) *)
Record a_linearity := mkAlin { al_inl : list R; al_dnl : list R; al_code : list Z; al_inlpp : option R; al_dnlpp : option R }.
(** max minus min; [] of nothing. *)
Definition a_range (l : list R) : option R := match l with [] => None | x :: t => Some (lmax1 x t - lmin1 x t) end.
Definition a_inl (s : list R) : result a_linearity :=
  bind (m_inlsin (map (fun x => IZR (m_round x)) s) 0.01) (fun r =>
  let '(i, d, code) := r in Ok (mkAlin i d code (a_range i) (a_range d))).
Definition a_spectrum (d : list (list R)) (fs maxcode : R) (harm : Z) (osr : R) (hann : bool) : result (option mspec) :=
  raise_if (Rleb maxcode 0) RuntimeError (m_plotspec d fs (Some maxcode) false (if hann then MHann else MRect) None osr harm 5 0 None 0).

Record a_report := mkArep {
  ar_type : a_type; ar_sine : bool;                              (* dataType, signalType *)
  ar_overflow : a_field (list (R * R * R * R)); ar_bits : a_field a_bits;
  ar_decomp : a_field (option m_parts); ar_errphase : a_field (option m_err); ar_spectrum : a_field (option mspec);
  ar_errvalue : a_field (option m_err); ar_linearity : a_field a_linearity; ar_osr : a_field (list R * list (xr * xr * xr));
  ar_fft : a_field p_fft; ar_lms : a_field p_lms;
  ar_few : bool;                                                 (* the warning of l.613 *)
  ar_time : option a_time; ar_wave : option (list (R * R)); ar_drawn : bool; (* the time-domain tiles and whether plotspec draws *)
  ar_title : option (nat * option nat) }.                        (* samples and bits in the title *)

(** l.484-655.  [sig] and [full] are the variables sig and sigFull, [N] the number of rows, [maxcode] as after l.482. *)
Definition a_pipeline_a (lin : lstsq_fun) (sortd : list R -> list nat) (o : a_opts) (sig : option (list R)) (full : option (list (list R)))
    (N : nat) (maxcode fin : R) (title : nat * option nat) (overflow : a_field (list (R * R * R * R))) (bits : a_field a_bits) (t : a_type)
    : result a_report :=
  let harm := m_round (ao_harm o) in
  let win := if ao_hann o then MHann else MRect in
  let dec := a_try sig (fun s => m_tomdec lin s (Some fin) harm) in                                   (* l.490 *)
  let fin' := match dec with
              | Value p => if Reqb fin 0 then match p with Some q => Some (mp_freq q) | None => None end else Some fin   (* l.494 *)
              | _ => Some fin
              end in
  bind (match dec, sig with
        | Value (Some q), Some s =>
            if ao_disp o && Rltb 0 (mp_freq q)
            then bind (a_timedomain s (mp_sine q) (mp_err q) (mp_freq q)) (fun x => Ok (Some x)) else Ok None
        | _, _ => Ok None
        end) (fun time =>
  let err value := a_try sig (fun s => match fin' with
                                       | Some f => m_errsin lin s 100 (Some f) value None (ao_osr o) (ao_hann o)
                                       | None => Err RuntimeError
                                       end) in                                                       (* l.557, 588 *)
  Ok (mkArep t (ao_sine o) overflow bits dec (err false)
        (a_try full (fun d => a_spectrum d (ao_fs o) maxcode harm (ao_osr o) (ao_hann o)))           (* l.573 *)
        (err true)
        (a_try sig a_inl)                                                                            (* l.620 *)
        (a_try sig (fun s => m_perfosr lin sortd s [] (IZR harm) None))                              (* l.647 *)
        (if ao_disp o then a_try full (fun d => m_plotphase_fft d (Z.to_nat harm) (Some maxcode) (ao_fs o) (ao_osr o) 0 win) else Absent)
        (if ao_disp o then a_try full (fun d => m_plotphase_lms lin d harm (Some maxcode) (ao_fs o) (ao_osr o) 0 win) else Absent)
        (Rltb (INR N) maxcode) time None (ao_disp o) (if ao_disp o then Some title else None))).
(** l.657-700: plotspec is told to draw whatever 'disp' says, and its results are dropped. *)
Definition a_pipeline_b (o : a_opts) (sig : list R) (full : list (list R)) (maxcode : R) (title : nat * option nat) : a_report :=
  mkArep TValues (ao_sine o) Absent Absent Skipped Skipped
    (match a_spectrum full (ao_fs o) maxcode 0 (ao_osr o) (ao_hann o) with Ok _ => Nothing | Err _ => Failed end)
    Skipped Skipped Skipped Skipped Skipped false None (if ao_disp o then Some (a_curve sig) else None) true
    (if ao_disp o then Some title else None).

(** l.257-713. *)
Definition m_adcpanel (lin : lstsq_fun) (rank : rank_fun) (sortd : list R -> list nat) (dat : list (list R)) (o : a_opts) : result (option a_report) :=
  raise_if (a_bad o) RuntimeError (
  bind (a_data (ao_type o) dat) (fun td =>
  let '(t, d) := td in
  let N := length d in
  let harm := m_round (ao_harm o) in
  let range := m_full_scale d in                                                                     (* l.480-482 *)
  match t with
  | TBits =>
      let M := ncols d in
      let over := a_try (Some d) (fun b => m_bitchk b (map (fun i => 2 ^ (M - 1 - i)) (seq 0 M)) None) in
      let run sig full maxcode fin bits :=
        bind (a_pipeline_a lin sortd o sig full N maxcode fin (N, Some M) over bits TBits) (fun r => Ok (Some r)) in
      match a_calibrate lin rank d (ao_fin o) harm (ao_max o) with
      | Ok (Some b) => run (Some (ab_postcal b)) (Some (map (fun x => [x]) (ab_postcal b))) (ab_max b) (ab_freq b) (Value b)
      | Ok None => Ok None
      | Err _ => run None None (match ao_max o with Some m => m | None => range end) (ao_fin o) Failed
      end
  | TValues =>
      let sig := map (fun r => nth 0 r 0) d in                                                       (* l.358 *)
      let maxcode := match ao_max o with Some m => m | None => range end in
      if ao_sine o
      then bind (a_pipeline_a lin sortd o (Some sig) (Some d) N maxcode (ao_fin o) (N, None) Absent Absent TValues) (fun r => Ok (Some r))
      else Ok (Some (a_pipeline_b o sig d maxcode (N, None)))
  | _ => Ok (Some (mkArep TUnknown (ao_sine o) Absent Absent Absent Absent Absent Absent Absent Absent Absent Absent false None None false
                     (if ao_disp o then Some (N, None) else None)))
  end)).
