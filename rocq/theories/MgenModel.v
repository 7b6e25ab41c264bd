(** * Model of matlab/src/noiseshape.m, plotwgt.m, legacy/cap2weight.m, dumped/errac.m, dumped/errpdf.m and
    dumped/fitstaticnl.m, the originals of apply_noise_shaping, analyze_weight_radix,
    convert_cap_to_weight, and of the computations in analyze_error_autocorr, analyze_error_pdf and
    fit_static_nonlin.
    [error] (including a failed inputParser check) is RuntimeError.  linsolve is an argument.  Not
    modelled: type checks, tfdata objects, warnings, rounding, and the drawing (except for plotwgt). *)
From Verif Require Import Base Cplx SpecModel CalModel FitModel AcfModel RampModel EpdfModel NonlinModel SiggenModel DoutModel SineHistModel PlotModel DplotModel MatModel MsinModel.
Local Open Scope R_scope.

(** ** noiseshape.m *)
(** nchoosek(n, k) by Pascal's rule. *)
Fixpoint nchoosek (n k : nat) : Z :=
  match n, k with
  | _, O => 1
  | O, S _ => 0
  | S n', S k' => nchoosek n' k' + nchoosek n' (S k')
  end%Z.
(** The 'ntf' option: a numeric array, a cell array of numeric arrays, a struct with the optional fields
    num and den, or something else. *)
Inductive m_ntf := MNum (l : list R) | MCell (l : list (list R)) | MStruct (num den : option (list R)) | MOther.
(** l.118-163 resolveNtf.  An empty array or cell is the default. *)
Definition m_default_ntf (order : nat) : list R := map (fun k => (-1) ^ k * IZR (nchoosek order k)) (seq 0 (S order)).
Definition m_resolve_ntf (ntf : m_ntf) (order : nat) : result (list R * list R) :=
  match ntf with
  | MNum [] | MCell [] => Ok (m_default_ntf order, [1])
  | MNum l => Ok (l, [1])
  | MCell [num; den] => Ok (num, den)
  | MCell _ => Err RuntimeError
  | MStruct None _ => Err RuntimeError
  | MStruct (Some num) (Some den) => Ok (num, den)
  | MStruct (Some num) None => Ok (num, [1])
  | MOther => Err RuntimeError
  end.
(** filter(b, a, x): direct form II transposed with zero initial state, after dividing both
    polynomials by a(1).  [z] is the state; entries past the end of [a] and [b] count as zero. *)
Fixpoint m_filter_loop (b a : list R) (z : nat -> R) (x : list R) : list R :=
  match x with
  | [] => []
  | v :: t => let y := nth 0 b 0 * v + z 0%nat in
              y :: m_filter_loop b a (fun i => nth (S i) b 0 * v + z (S i) - nth (S i) a 0 * y) t
  end.
(** An empty polynomial and a(1) = 0 are errors. *)
Definition m_filter (b a x : list R) : result (list R) :=
  raise_if ((length b =? 0)%nat || (length a =? 0)%nat || Reqb (nth 0 a 0) 0) RuntimeError
  (let s := nth 0 a 0 in Ok (m_filter_loop (map (fun c => c / s) b) (map (fun c => c / s) a) (fun _ => 0) x)).
(** The options (l.65-74) and the fields of info (l.105-114). *)
Record ns_opts := mkNsOpts { o_N : Z; o_Fs : R; o_Fin : R; o_A : R; o_DC : R; o_bits : Z; o_lo : R; o_hi : R; o_order : Z; o_ntf : m_ntf }.
(** The defaults of l.65-74. *)
Definition ns_defaults : ns_opts := mkNsOpts 8192 1 (1 / 64) 0.4 0 10 (-0.5) 0.5 1 (MNum []).
Record ns_info := mkNsInfo { i_clean : list R; i_quantized : list R; i_qerr : list R; i_shaped : list R; i_codes : list R; i_num : list R; i_den : list R; i_lsb : R; i_N : nat }.
(** l.57-115; [sigin] is None without an input signal; an empty one counts as none (l.77). *)
Definition m_noiseshape (sigin : option (list R)) (o : ns_opts) : result (list R * ns_info) :=
  raise_if ((o_N o <=? 0)%Z || Rleb (o_Fs o) 0 || Rleb (o_Fin o) 0 || (o_bits o <=? 0)%Z || Rleb (o_hi o) (o_lo o) || (o_order o <? 1)%Z || (5 <? o_order o)%Z) RuntimeError
  (let gen := map (fun i => o_A o * sin (2 * PI * o_Fin o * (INR i / o_Fs o)) + o_DC o) (seq 0 (Z.to_nat (o_N o))) in
   let x := match sigin with None | Some [] => gen | Some s => s end in
   bind (m_resolve_ntf (o_ntf o) (Z.to_nat (o_order o))) (fun nd =>
   let lsb := (o_hi o - o_lo o) / 2 ^ Z.to_nat (o_bits o) in
   let top := 2 ^ Z.to_nat (o_bits o) - 1 in
   let codes := map (fun v => Rmin (Rmax (IZR (Zfloor ((v - o_lo o) / lsb))) 0) top) x in
   let q := map (fun c => c * lsb + o_lo o) codes in
   let e := map2 Rminus q x in
   bind (m_filter (fst nd) (snd nd) e) (fun sh =>
   Ok (map2 Rplus x sh, mkNsInfo x q e sh codes (fst nd) (snd nd) lsb (length x))))).

(** ** plotwgt.m *)
(** l.83-86: no leading NaN. *)
Definition m_radix (a : list R) : list R := map (fun i => nth i a 0 / nth (S i) a 0) (seq 0 (length a - 1)).
(** l.100 sort(..., 'descend'): positions, equal values in their original order. *)
Fixpoint m_insert (a : list R) (i : nat) (l : list nat) : list nat :=
  match l with [] => [i] | j :: t => if Rltb (nth i a 0) (nth j a 0) then j :: m_insert a i t else i :: l end.
Definition m_order_of (a : list R) : list nat := fold_right (m_insert a) [] (seq 0 (length a)).
(** l.107-112 the zero-based position of the last significant weight. *)
Definition m_last_sig (s : list R) : nat :=
  match filter (fun i => Rleb 3 (nth i s 0 / nth (S i) s 0)) (seq 0 (length s - 1)) with [] => (length s - 1)%nat | i :: _ => i end.
(** l.124, 130 *)
Definition m_round_rms (sig : list R) (s : R) : R := sqrt (lmean (map (fun w => (w * s - IZR (m_round (w * s))) ^ 2) sig)).
(** l.121-135 *)
Definition m_wgtsca (sig : list R) (top : R) : R :=
  let w0 := 1 / nth (length sig - 1) sig 0 in
  let init := m_round (top * w0) in
  let lo := Z.max 1 (m_round (IZR init * 0.5)) in
  let hi := Z.max lo (m_round (IZR init * 1.5)) in
  snd (fold_left (fun st c => let s := IZR c / top in let e := m_round_rms sig s in if Rltb e (fst st) then (e, s) else st)
         (map (fun i => (lo + Z.of_nat i)%Z) (seq 0 (Z.to_nat (hi + 1 - lo)))) (m_round_rms sig w0, w0)).
(** l.79-138 for weights other than zero: radix, wgtsca, effres.  sortIdx(1) of no weights is an index error. *)
Definition m_plotwgt (weights : list R) : result (list R * R * R) :=
  raise_if (length weights =? 0)%nat RuntimeError
  (let a := map Rabs weights in
   let s := map (fun i => nth i a 0) (m_order_of a) in
   let sig := firstn (S (m_last_sig s)) s in
   Ok (m_radix a, m_wgtsca sig (nth 0 s 0), ln (lsum sig / nth (length sig - 1) sig 0 + 1) / ln 2)).
(** l.142-218 the figure: line and markers, legend entries, texts, limits (the numbers of the texts to two decimals).  The y axis is logarithmic. *)
Record m_wgt_figure := mkMwf { mw_line : list (R * R); mw_pos : list (R * R); mw_neg : list (R * R); mw_legend : list bool; mw_msb : R * R; mw_lsb : option (R * R);
  mw_ylim : R * R; mw_xlim : R * R; mw_index : list (R * Z); mw_effres : num; mw_radix : list (R * R * num) }.
Definition m_plotwgt_figure (weights : list R) (radix : list R) (effres : R) : m_wgt_figure :=
  let a := map Rabs weights in
  let n := length weights in
  let point i := (INR (i + 1), nth i a 0) in
  let neg i := Rltb (nth i weights 0) 0 in
  let order := m_order_of a in
  let msb := nth 0 order 0%nat in
  let lsb := nth (m_last_sig (map (fun i => nth i a 0) order)) order 0%nat in
  let mark i := (INR (i + 1), nth i a 0 / 1.5) in
  let pos_ids := filter (fun i => negb (neg i)) (seq 0 n) in
  let neg_ids := filter neg (seq 0 n) in
  let ymin := rmin_list (filter (fun v => Rltb 0 v) a) / 4 in
  mkMwf (map point (seq 0 n)) (map point pos_ids) (map point neg_ids)
    (match pos_ids, neg_ids with _ :: _, _ :: _ => [true; false] | [], _ :: _ => [false] | _, _ => [] end)      (* l.204-208, true is 'Positive' *)
    (mark msb) (if (lsb =? msb)%nat then None else Some (mark lsb))
    (ymin, rmax_list a * 4) (0.5, INR n + 0.5)
    (map (fun i => (INR (i + 1), (Z.of_nat n - Z.of_nat (i + 1) + 1)%Z)) (seq 0 n)) (fixed 2 effres)
    (map (fun b => (INR b, nth (b - 1) a 0 * 1.5, fixed 2 (nth (b - 2) radix 0))) (seq 2 (n - 1))).

(** ** legacy/cap2weight.m l.23-31 *)
Definition m_cap2weight (cd cb cp : list R) : result (list R * R) :=
  bind (m_cdacwgt (rev cd) (rev cb) (rev cp)) (fun wc => Ok (rev (fst wc), snd wc)).

(** ** dumped/errac.m l.20-48 (an integer MaxLag >= 0) *)
(** l.33-39: e(1:N-lag) and e(1+lag:N) are empty when lag >= N. *)
Definition m_acf_at (e : list R) (lag : Z) : xr :=
  let N := length e in
  let k := Z.to_nat (Z.abs lag) in
  xmean (map2 Rmult (firstn (N - k) e) (skipn k e)).
Definition m_errac (err : list R) (max_lag : Z) (normalize : bool) : list xr * list Z :=
  let e := map (fun v => v - lmean err) err in
  let lags := map (fun i => (- max_lag + Z.of_nat i)%Z) (seq 0 (Z.to_nat (2 * max_lag + 1))) in
  let acf := map (m_acf_at e) lags in
  (if normalize then map (fun v => xdivide v (m_acf_at e 0)) acf else acf, lags).

(** ** dumped/errpdf.m l.9-38, at least one sample.
    std of one sample is 0.  The result is in the fields of the Python one. *)
Definition m_std (e : list R) : R := if (length e <=? 1)%nat then 0 else sqrt (lsum (map (fun v => (v - lmean e) ^ 2) e) / (INR (length e) - 1)).
Definition m_errpdf (err : list R) (resolution : Z) (full_scale : R) : epdf_result :=
  let lsb := full_scale / powerRZ 2 resolution in
  if Reqb lsb 0 then NotFinite else
  let n := map (fun v => v / lsb) err in
  let s := m_std n in
  let lim := Rmax 0.5 (fold_right Rmax 0 (map Rabs n)) in
  let x := map (fun i => - lim + INR i * ((lim - - lim) / 199)) (seq 0 200) in
  let mu := lmean n in
  Numbers (if Reqb s 0 then mkEpdf n mu (Fin 0) x None None None else
  let h := 1.06 * s * Rpower (INR (length n)) (- (1 / 5)) in
  let fx := map (fun p => lmean (map (fun v => exp (- 0.5 * ((p - v) / h) ^ 2)) n) / (h * sqrt (2 * PI))) x in
  let g := map (fun p => 1 / (s * sqrt (2 * PI)) * exp (- (p - mu) ^ 2 / (2 * s ^ 2))) x in
  let p := map (fun v => v + / 2 ^ 52) fx in let q := map (fun v => v + / 2 ^ 52) g in
  mkEpdf n mu (Fin s) x (Some fx) (Some g) (Some (lsum (map2 (fun a b => a * ln (a / b)) p q) * (nth 1 x 0 - nth 0 x 0)))).

(** ** dumped/fitstaticnl.m l.91-187 *)
(** polyfit: the Vandermonde matrix (decreasing powers) without the column scaling of numpy. *)
Definition m_polyfit (linsolve : lstsq_fun) (x y : list R) (deg : nat) : vec :=
  linsolve (mkMat (length x) (S deg) (fun t j => nth t x 0 ^ (deg - j))) (fun t => nth t y 0).
(** [None]: the frequency estimate is NaN, and with it every output.  sinfit runs with its defaults;
    polycoeff(end-i) is entry order - i. *)
Definition m_fitstaticnl (linsolve : lstsq_fun) (sig : list R) (order : Z) (freq : R) : result (option nonlin_result) :=
  raise_if (order <? 2)%Z RuntimeError (
  raise_if (Rltb freq 0 || Rleb 0.5 freq) RuntimeError (
  raise_if (Z.of_nat (length sig) <? order + 2)%Z RuntimeError (
  bind (m_sinfit linsolve (map (fun v => [v]) sig) freq (1 / 10 ^ 12) (1 / 2) false 100) (fun o =>
  match o with
  | None => Ok None
  | Some fit =>
      let deg := Z.to_nat order in
      let fitted := mf_fitout fit in
      let x := map (fun v => v - lmean fitted) fitted in
      let y := map (fun v => v - lmean sig) sig in
      let x_max := rmax_list (map Rabs x) in
      raise_if (Rltb x_max (1 / 10 ^ 10)) RuntimeError (
      let p := m_polyfit linsolve (map (fun v => v / x_max) x) y deg in
      let k1 := p (deg - 1)%nat / x_max in
      let k2 := xdivide (Fin (p (deg - 2)%nat / x_max ^ 2)) (Fin k1) in
      let k3 := if (3 <=? order)%Z then xdivide (Fin (p (deg - 3)%nat / x_max ^ 3)) (Fin k1) else NaN in
      let lo := rmin_list fitted in let hi := rmax_list fitted in
      let xs := map (fun i => lo + INR i * ((hi - lo) / 999)) (seq 0 1000) in
      let ys := map (fun v => rsum (S deg) (fun j => p j * ((v - lmean fitted) / x_max) ^ (deg - j)) + lmean sig) xs in
      Ok (Some (mkNonlin k2 k3 fitted xs ys)))
  end)))).
