(** * Model of matlab/src/sinfit.m, findfreq.m and tomdec.m, the originals of fit_sine_4param,
    estimate_frequency and decompose_harmonic_error.
    linsolve is an argument (a function of the matrix and the right-hand side).  [error] is
    RuntimeError.  Not modelled: type checks, printing, warnings, rounding, plotting. *)
From Verif Require Import Base Cplx SpecModel TiModel CalModel FitModel.
Local Open Scope R_scope.

(** sinfit.m l.86-92: an array given by its rows becomes a column; one row is transposed, several
    columns are averaged. *)
Definition m_column (rows : list (list R)) : list R :=
  match rows with [row] => row | _ => map lmean rows end.

(** sinfit.m l.113-130: the magnitude spectrum without its mean, the largest bin and the larger
    neighbour, indices held within 1 .. floor(N/2).  Zero divided by zero is NaN.  One sample
    leaves an empty spectrum and ends in an index error (l.140). *)
Definition m_estimate (y : list R) : result xr :=
  let n := length y in
  let nspec := (n / 2)%nat in
  let spec := map (fun k => if (k =? 0)%nat then 0 else Cmod (rdft n (fun i => nth i y 0) k)) (seq 0 nspec) in
  raise_if (nspec =? 0)%nat RuntimeError
  (let k0 := (argmax spec + 1)%nat in
   let at_ := fun i => nth (Nat.min (Nat.max i 1) nspec - 1) spec 0 in
   let right := Rltb (at_ (k0 - 1)%nat) (at_ (k0 + 1)%nat) in
   let r := if right then 1 else -1 in
   let nb := at_ (if right then k0 + 1 else k0 - 1)%nat in
   if Reqb (at_ k0 + nb) 0 then Ok NaN else Ok (Fin ((INR k0 - 1 + r * nb / (at_ k0 + nb)) / INR n))).

(** l.137 and l.157: the matrices; the fourth column is the derivative by the frequency over N. *)
Definition m_design3 (n : nat) (f : R) : mat :=
  of_cols n [fun t => cos (2 * PI * f * INR t); fun t => sin (2 * PI * f * INR t); fun _ => 1].
Definition m_slope (n : nat) (f a b : R) (t : nat) : R :=
  (- a * 2 * PI * INR t * sin (2 * PI * f * INR t) + b * 2 * PI * INR t * cos (2 * PI * f * INR t)) / INR n.
Definition m_design4 (n : nat) (f a b : R) : mat :=
  of_cols n [fun t => cos (2 * PI * f * INR t); fun t => sin (2 * PI * f * INR t); fun _ => 1; m_slope n f a b].

(** Variables of the loop l.145-175. *)
Record m_state := mkMs { ms_freq : R; ms_a : R; ms_b : R; ms_dc : R; ms_delta : R; ms_ii : nat }.
(** l.152-162 one pass; l.165 the relative error. *)
Definition m_pass (linsolve : lstsq_fun) (y : list R) (rate : R) (s : m_state) : m_state * xr :=
  let n := length y in
  let freq := ms_freq s + ms_delta s in
  let x := linsolve (m_design4 n freq (ms_a s) (ms_b s)) (fun i => nth i y 0) in
  let rms := sqrt (lmean (map (fun t => (x 3%nat / INR n * m_slope n freq (ms_a s) (ms_b s) t) ^ 2) (seq 0 n))) in
  let den := sqrt (x 0%nat ^ 2 + x 1%nat ^ 2) in
  (mkMs freq (x 0%nat) (x 1%nat) (x 2%nat) (x 3%nat * rate / INR n) (S (ms_ii s)),
   if Reqb den 0 then (if Reqb rms 0 then NaN else PInf) else Fin (rms / den)).
(** l.149 and l.172-174: at most niter passes, until the relative error is below tol. *)
Fixpoint m_refine (linsolve : lstsq_fun) (y : list R) (tol rate : R) (niter : nat) (s : m_state) : m_state :=
  match niter with
  | O => s
  | S k => let '(s', relerr) := m_pass linsolve y rate s in
           if match relerr with Fin v => Rltb v tol | _ => false end then s' else m_refine linsolve y tol rate k s'
  end.

(** The outputs, and the number of passes made (printed when verbose, l.168). *)
Record m_fit := mkMfit { mf_fitout : list R; mf_freq : R; mf_mag : R; mf_dc : R; mf_phi : R; mf_passes : nat }.
(** l.96-101 the limits of the options; f0 = 0 asks for the estimate and the search (l.111-112).
    [None]: the estimate is NaN and with it every output. *)
Definition m_sinfit (linsolve : lstsq_fun) (rows : list (list R)) (f0 tol rate : R) (fsearch : bool) (niter : Z) : result (option m_fit) :=
  raise_if (length (m_column rows) =? 0)%nat RuntimeError
  (raise_if (Rltb f0 0 || Rltb (1 / 2) f0 || Rleb tol 0 || Rleb rate 0 || Rltb 1 rate || (niter <=? 0)%Z) RuntimeError
  (let y := m_column rows in
   let n := length y in
   bind (if Reqb f0 0 then m_estimate y else Ok (Fin f0)) (fun start =>
   match start with
   | Fin f =>
       let x := linsolve (m_design3 n f) (fun i => nth i y 0) in
       let s0 := mkMs f (x 0%nat) (x 1%nat) (x 2%nat) 0 0 in
       let s := if fsearch || Reqb f0 0 then m_refine linsolve y tol rate (Z.to_nat niter) s0 else s0 in
       let fit := map (fun t => ms_a s * cos (2 * PI * ms_freq s * INR t) + ms_b s * sin (2 * PI * ms_freq s * INR t) + ms_dc s) (seq 0 n) in
       Ok (Some (mkMfit fit (ms_freq s) (sqrt (ms_a s ^ 2 + ms_b s ^ 2)) (ms_dc s) (- Carg (ms_a s, ms_b s)) (ms_ii s)))
   | _ => Ok None
   end))).

(** findfreq.m l.41-58 with the defaults of sinfit. *)
Definition m_findfreq (linsolve : lstsq_fun) (rows : list (list R)) (fs : R) : result xr :=
  raise_if (Rleb fs 0) RuntimeError
  (bind (m_sinfit linsolve rows 0 (1 / 10 ^ 12) (1 / 2) false 100) (fun o =>
   Ok (match o with Some s => Fin (mf_freq s * fs) | None => NaN end))).

(** tomdec.m l.86-94: the columns 1, cos of every order, sin of every order. *)
Definition m_basis (n : nat) (freq : R) (order : nat) : mat :=
  mkMat n (2 * order + 1) (fun t j =>
    if (j =? 0)%nat then 1
    else if (j <=? order)%nat then cos (INR t * freq * INR j * 2 * PI)
    else sin (INR t * freq * INR (j - order) * 2 * PI)).
Record m_parts := mkParts { mp_sine : list R; mp_err : list R; mp_har : list R; mp_oth : list R; mp_freq : R }.
(** tomdec.m l.61-110 for a vector; [freq] None is the default -1, and 0 also asks for findfreq
    (l.77-79).  [None]: every output is NaN. *)
Definition m_tomdec (linsolve : lstsq_fun) (y : list R) (freq : option R) (order : Z) : result (option m_parts) :=
  raise_if (match freq with Some f => Rltb f 0 || Rltb (1 / 2) f | None => false end || (order <? 1)%Z) RuntimeError
  (bind (match freq with
         | Some f => if Rleb f 0 then m_findfreq linsolve (map (fun v => [v]) y) 1 else Ok (Fin f)
         | None => m_findfreq linsolve (map (fun v => [v]) y) 1
         end) (fun fr =>
   match fr with
   | Fin f =>
       let n := length y in
       let o := Z.to_nat order in
       let B := m_basis n f o in
       let W := linsolve B (fun i => nth i y 0) in
       let sine := map (fun t => W 0%nat + m_at B t 1 * W 1%nat + m_at B t (1 + o) * W (1 + o)%nat) (seq 0 n) in
       let all := map (mv B W) (seq 0 n) in
       Ok (Some (mkParts sine (map2 Rminus y sine) (map2 Rminus all sine) (map2 Rminus y all) f))
   | _ => Ok None
   end)).
