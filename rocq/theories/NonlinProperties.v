(** * Property theorems of Nonlin: statements only, proofs in NonlinProofs.v.
    Generated by tools/mkprops.py from the final lemmas. *)
From Verif Require Import Base BaseLemmas Cplx SpecModel SpecLemmas DoutProofs SiggenProofs CalModel CalSpec CalProofs CalExLemmas CalExProofs TiModel TiToneProofs SpecToneProofs RampModel FitModel FitSpec FitProofs AcfModel AcfProofs RearProofs HarmSpec HarmProofs NonlinModel NonlinSpec.
From Coq Require Import Psatz.
Local Open Scope R_scope.
From Verif Require Import NonlinProofs.

(** The coefficients are those of the least-squares polynomial of the zero-mean record in the zero-mean
    fitted sine, whatever the normalisation; k2 and k3 are their ratios to the linear one; the transfer
    curve is that polynomial on 1000 even steps over the range of the fitted sine. *)
Theorem C97_transfer :
  forall lstsq sig order r,
  least_squares lstsq -> fit_static_nonlin lstsq sig order = Ok r ->
  let n := length sig in let deg := Z.to_nat order in
  let F := fun t => nth t (nl_fitted r) 0 in let S := fun t => nth t sig 0 in
  let x := fun t => F t - average n F in let y := fun t => S t - average n S in
  exists c, (forall d, rsum n (fun t => (y t - poly deg c (x t)) ^ 2) <= rsum n (fun t => (y t - poly deg d (x t)) ^ 2)) /\
  quotient (c 2%nat) (c 1%nat) (nl_k2 r) /\ ((3 <= order)%Z -> quotient (c 3%nat) (c 1%nat) (nl_k3 r)) /\ (order = 2%Z -> nl_k3 r = NaN) /\
  length (nl_x r) = 1000%nat /\ length (nl_y r) = 1000%nat /\
  (forall i, (i < 1000)%nat -> nth i (nl_y r) 0 = average n S + poly deg c (nth i (nl_x r) 0 - average n F)) /\
  (forall lo hi, spans n F lo hi -> forall i, (i < 1000)%nat -> nth i (nl_x r) 0 = lo + INR i * ((hi - lo) / 999)).
Proof. exact c97_transfer. Qed.
Print Assumptions C97_transfer.

(** Exactly which calls are refused. *)
Theorem C97_accepts :
  forall lstsq sig order,
  ((order < 2)%Z \/ (Z.of_nat (length sig) < order + 2)%Z -> fit_static_nonlin lstsq sig order = Err ValueError) /\
  ((2 <= order)%Z -> (order + 2 <= Z.of_nat (length sig))%Z -> exists fit, fit_core lstsq sig None 1 (1 / 10 ^ 9) = Ok fit /\
     let F := fun t => nth t (f_fitted fit) 0 in
     ((exists t, (t < length sig)%nat /\ 1 / 10 ^ 10 <= Rabs (F t - average (length sig) F)) -> exists r, fit_static_nonlin lstsq sig order = Ok r) /\
     ((forall t, (t < length sig)%nat -> Rabs (F t - average (length sig) F) < 1 / 10 ^ 10) -> fit_static_nonlin lstsq sig order = Err ValueError)).
Proof. exact c97_accepts. Qed.
Print Assumptions C97_accepts.

(** A record that is a polynomial of the zero-mean fitted sine is resolved exactly. *)
Theorem C98_exact :
  forall lstsq sig order r a,
  least_squares lstsq -> fit_static_nonlin lstsq sig order = Ok r ->
  let n := length sig in let deg := Z.to_nat order in
  let F := fun t => nth t (nl_fitted r) 0 in let x := fun t => F t - average n F in
  distinct_values n x (S deg) -> (forall t, (t < n)%nat -> nth t sig 0 - average n (fun t => nth t sig 0) = poly deg a (x t)) ->
  quotient (a 2%nat) (a 1%nat) (nl_k2 r) /\ ((3 <= order)%Z -> quotient (a 3%nat) (a 1%nat) (nl_k3 r)) /\
  forall i, (i < 1000)%nat -> nth i (nl_y r) 0 = average n (fun t => nth t sig 0) + poly deg a (nth i (nl_x r) 0 - average n F).
Proof. exact c98_exact. Qed.
Print Assumptions C98_exact.

(** The documented model y = x + k2 x^2 + k3 x^3 (plus an offset) with x = A cos(2 pi k t / n + ph): the
    cubic term enlarges the fitted sine by g = 1 + 3/4 k3 A^2 and the coefficients returned are k2 / g and
    k3 / g^2.  The harmonics are assumed not to disturb the refinement of the frequency. *)
Theorem C99_gain :
  forall lstsq sig order k A ph off k2 k3,
  least_squares lstsq -> let n := length sig in let deg := Z.to_nat order in
  let th := fun t => 2 * PI * (INR k / INR n) * INR t + ph in let g := 1 + 3 / 4 * k3 * A ^ 2 in
  (2 <= k)%nat -> (6 * k < n)%nat -> INR n <= 10 ^ 10 -> (3 <= order)%Z \/ (order = 2%Z /\ k3 = 0) -> (order + 2 <= Z.of_nat n)%Z ->
  g <> 0 -> A <> 0 -> Rabs (k2 * A ^ 2 / 2) <= Rabs (g * A) -> Rabs (k3 * A ^ 3 / 4) <= Rabs (g * A) ->
  rsum n (fun t => (k2 * A ^ 2 / 2 * cos (2 * th t) + k3 * A ^ 3 / 4 * cos (3 * th t)) * (INR t * sin (th t))) = 0 ->
  distinct_values n (fun t => cos (th t)) (S deg) -> (exists t, (t < n)%nat /\ 1 / 10 ^ 10 <= Rabs (g * A * cos (th t))) ->
  (forall t, (t < n)%nat -> nth t sig 0 = off + cubic k2 k3 (A * cos (th t))) ->
  exists r, fit_static_nonlin lstsq sig order = Ok r /\ nl_k2 r = Fin (k2 / g) /\ ((3 <= order)%Z -> nl_k3 r = Fin (k3 / g ^ 2)) /\
  forall t, (t < n)%nat -> nth t (nl_fitted r) 0 = off + k2 * A ^ 2 / 2 + g * (A * cos (th t)).
Proof. exact c99_gain. Qed.
Print Assumptions C99_gain.

(** The extracted coefficients are not those of the documented model: a sine of amplitude 1 through
    x + 0.1 x^2 - 0.4 x^3, 16 samples over two periods, is reported with k2 = 1/7 and k3 = -40/49. *)
Theorem C99_refuted :
  exists lstsq sig r k2 k3, least_squares lstsq /\ fit_static_nonlin lstsq sig 3 = Ok r /\
  is_record sig (fun t => cubic k2 k3 (cos (2 * PI * (2 / 16) * INR t))) /\ k2 = 1 / 10 /\ k3 = - (4 / 10) /\ nl_k2 r = Fin (1 / 7) /\ nl_k3 r = Fin (- (40 / 49)).
Proof. exact c99_refuted. Qed.
Print Assumptions C99_refuted.

(** With no distortion the coefficients vanish. *)
Example C99_gain_ex :
  exists r, fit_static_nonlin gs_lstsq (rec16 3 0 0) 3 = Ok r /\ nl_k2 r = Fin 0 /\ nl_k3 r = Fin 0 /\ nth 4 (nl_fitted r) 0 = 2.
Proof. exact c99_gain_ex. Qed.

(** The transfer curve of the distorted record at its first point, x = -0.65 (the smallest fitted value):
    the curve passes through the sample itself, -1 + 0.1 + 0.4. *)
Example C98_exact_ex :
  exists r, fit_static_nonlin gs_lstsq (rec16 0 (1 / 10) (- (4 / 10))) 3 = Ok r /\ nth 0 (nl_x r) 0 = - (65 / 100) /\ nth 0 (nl_y r) 0 = - (5 / 10).
Proof. exact c98_exact_ex. Qed.

(** Orders below two and records shorter than order + 2 are refused; a record without signal is refused too. *)
Example C97_accepts_ex :
  fit_static_nonlin gs_lstsq [0; 1; 0; -1; 0] 1 = Err ValueError /\ fit_static_nonlin gs_lstsq [0; 1; 0; -1] 3 = Err ValueError.
Proof. exact c97_accepts_ex. Qed.
