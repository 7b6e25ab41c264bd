(** * Property theorems of Epdf: statements only, proofs in EpdfProofs.v.
    Generated by tools/mkprops.py from the final lemmas. *)
From Verif Require Import Base BaseLemmas Cplx SpecModel DoutProofs CalModel CalSpec CalProofs CalExLemmas CohLemmas FitModel FitSpec FitProofs HarmProofs RampModel RearProofs NonlinModel NonlinSpec NonlinProofs EpdfModel EpdfSpec.
Local Open Scope R_scope.
From Verif Require Import EpdfProofs.

(** What is reported.  The errors are (record - fitted sine) in steps of full scale / 2^resolution (the full scale given, or the
    span of the record); mu is their mean, sigma their unbiased deviation (NaN for one sample); the grid has 200 equally spaced
    points from -X to X, where X is the largest |error|, but at least half an LSB; when sigma is positive the density is the mean of
    normal densities of Silverman's bandwidth around the errors, the Gaussian is the normal density of mean mu and deviation sigma,
    and the divergence is the Kullback-Leibler sum of the two, each raised by 2^-52; when sigma is zero all three are NaN. *)
Theorem C116_values :
  forall lstsq signal res fs freq mi tol r,
  error_pdf lstsq signal res fs freq mi tol = Ok (Numbers r) ->
  let n := length signal in let e := fun t => nth t (p_err r) 0 in let x := fun i => nth i (p_x r) 0 in
  exists fit full X, fit_core lstsq signal freq mi tol = Ok fit /\
  match fs with Some v => full = v | None => is_span n (fun t => nth t signal 0) full end /\ full <> 0 /\
  length (p_err r) = n /\ (forall t, (t < n)%nat -> e t = (nth t signal 0 - nth t (f_fitted fit) 0) * powerRZ 2 res / full) /\
  p_mu r = average n e /\
  (n = 1%nat -> p_sigma r = NaN) /\ ((2 <= n)%nat -> exists s, p_sigma r = Fin s /\ 0 <= s /\ s ^ 2 = sample_variance n e) /\
  length (p_x r) = 200%nat /\ (forall i, (i < 200)%nat -> x i = X * (2 * INR i / 199 - 1)) /\ 0.5 <= X /\ (forall t, (t < n)%nat -> Rabs (e t) <= X) /\ (X = 0.5 \/ exists t, (t < n)%nat /\ X = Rabs (e t)) /\
  (p_sigma r = Fin 0 \/ p_sigma r = NaN -> p_pdf r = None /\ p_gauss r = None /\ p_kl r = None) /\
  (forall s, p_sigma r = Fin s -> 0 < s -> exists h f g kl, silverman n s h /\ p_pdf r = Some f /\ p_gauss r = Some g /\ p_kl r = Some kl /\ length f = 200%nat /\ length g = 200%nat /\
     (forall i, (i < 200)%nat -> nth i f 0 = mixture n e h (x i)) /\ (forall i, (i < 200)%nat -> nth i g 0 = bell s (x i - p_mu r)) /\
     kl = kl_sum 200 (x 1%nat - x 0%nat) (fun i => nth i f 0 + / 2 ^ 52) (fun i => nth i g 0 + / 2 ^ 52)).
Proof. exact c116_values. Qed.
Print Assumptions C116_values.

(** Both densities are positive everywhere and bounded by the height of one normal density; the estimate at a grid point is at
    least one n-th of the kernel around any single error. *)
Theorem C116_positive :
  forall lstsq signal res fs freq mi tol r s f g,
  error_pdf lstsq signal res fs freq mi tol = Ok (Numbers r) -> p_sigma r = Fin s -> p_pdf r = Some f -> p_gauss r = Some g ->
  let n := length signal in 0 < s /\ exists h, silverman n s h /\ forall i, (i < 200)%nat ->
  0 < nth i f 0 <= 1 / (h * sqrt (2 * PI)) /\ 0 < nth i g 0 <= 1 / (s * sqrt (2 * PI)) /\
  forall t, (t < n)%nat -> bell h (nth i (p_x r) 0 - nth t (p_err r) 0) / INR n <= nth i f 0.
Proof. exact c116_positive. Qed.
Print Assumptions C116_positive.

(** The errors have deviation zero exactly when they are all equal. *)
Theorem C116_spread :
  forall lstsq signal res fs freq mi tol r,
  error_pdf lstsq signal res fs freq mi tol = Ok (Numbers r) -> (2 <= length signal)%nat ->
  (p_sigma r = Fin 0 <-> forall t u, (t < length signal)%nat -> (u < length signal)%nat -> nth t (p_err r) 0 = nth u (p_err r) 0).
Proof. exact c116_spread. Qed.
Print Assumptions C116_spread.

(** Without frequency refinement (max_iterations = 0) the errors have mean zero, so mu = 0 and sigma^2 (n - 1) is their energy. *)
Theorem C116_centred :
  forall lstsq signal res fs freq tol r,
  least_squares lstsq -> error_pdf lstsq signal res fs freq 0 tol = Ok (Numbers r) ->
  p_mu r = 0 /\ forall s, p_sigma r = Fin s -> s ^ 2 * (INR (length signal) - 1) = rsum (length signal) (fun t => nth t (p_err r) 0 ^ 2).
Proof. exact c116_centred. Qed.
Print Assumptions C116_centred.

(** One more bit of resolution doubles the errors, their mean and their deviation. *)
Theorem C116_resolution :
  forall lstsq signal res fs freq mi tol r r',
  error_pdf lstsq signal res fs freq mi tol = Ok (Numbers r) -> error_pdf lstsq signal (res + 1) fs freq mi tol = Ok (Numbers r') ->
  (forall t, (t < length signal)%nat -> nth t (p_err r') 0 = 2 * nth t (p_err r) 0) /\ p_mu r' = 2 * p_mu r /\ (forall s, p_sigma r = Fin s -> p_sigma r' = Fin (2 * s)).
Proof. exact c116_resolution. Qed.
Print Assumptions C116_resolution.

(** Failures: fewer than two samples without a frequency, and no samples without a full scale, raise ValueError; no samples with a
    full scale ZeroDivisionError; a constant record without a full scale has LSB zero and no finite numbers are reported; in all
    other cases numbers are reported exactly when the full scale is not zero. *)
Theorem C116_errors :
  forall lstsq signal res fs freq mi tol,
  (freq = None -> (length signal <= 1)%nat -> error_pdf lstsq signal res fs freq mi tol = Err ValueError) /\
  (freq <> None -> signal = [] -> error_pdf lstsq signal res fs freq mi tol = Err (match fs with Some _ => ZeroDivisionError | None => ValueError end)) /\
  ((freq <> None /\ signal <> [] \/ (2 <= length signal)%nat) ->
     (fs = None -> (exists v, forall t, (t < length signal)%nat -> nth t signal 0 = v) -> error_pdf lstsq signal res fs freq mi tol = Ok NotFinite) /\
     (fs = None -> (exists t u, (t < length signal)%nat /\ (u < length signal)%nat /\ nth t signal 0 <> nth u signal 0) -> exists r, error_pdf lstsq signal res fs freq mi tol = Ok (Numbers r)) /\
     (forall v, fs = Some v -> v = 0 -> error_pdf lstsq signal res fs freq mi tol = Ok NotFinite) /\
     (forall v, fs = Some v -> v <> 0 -> exists r, error_pdf lstsq signal res fs freq mi tol = Ok (Numbers r))).
Proof. exact c116_errors. Qed.
Print Assumptions C116_errors.

(** What the reported divergence says: with P and Q the masses of the two (raised) densities on the grid, it is at least P ln (P/Q) and
    at least P - Q, with equality in the first only if the two are proportional; so it is nonnegative whenever the estimate has at least
    the mass of the Gaussian on the grid, and zero for equal masses only if the densities agree at every grid point. *)
Theorem C117_lower_bound :
  forall lstsq signal res fs freq mi tol r f g kl,
  error_pdf lstsq signal res fs freq mi tol = Ok (Numbers r) -> p_pdf r = Some f -> p_gauss r = Some g -> p_kl r = Some kl ->
  let dx := nth 1 (p_x r) 0 - nth 0 (p_x r) 0 in let p := fun i => nth i f 0 + / 2 ^ 52 in let q := fun i => nth i g 0 + / 2 ^ 52 in let P := mass 200 dx p in let Q := mass 200 dx q in
  0 < P /\ 0 < Q /\ P * ln (P / Q) <= kl /\ P - Q <= kl /\ (Q <= P -> 0 <= kl) /\ (P = Q -> (kl <= 0 <-> forall i, (i < 200)%nat -> nth i f 0 = nth i g 0)).
Proof. exact c117_lower_bound. Qed.
Print Assumptions C117_lower_bound.

(** If the estimate is below the Gaussian on the whole grid the divergence is negative. *)
Theorem C117_negative :
  forall lstsq signal res fs freq mi tol r f g kl,
  error_pdf lstsq signal res fs freq mi tol = Ok (Numbers r) -> p_pdf r = Some f -> p_gauss r = Some g -> p_kl r = Some kl ->
  (forall i, (i < 200)%nat -> nth i f 0 < nth i g 0) -> kl < 0.
Proof. exact c117_negative. Qed.
Print Assumptions C117_negative.

(** The divergence is not a measure of distance: it can be negative. *)
Theorem C117_nonnegative_refuted :
  exists lstsq signal res tol r kl, least_squares lstsq /\ error_pdf lstsq signal res None (Some 0) 0 tol = Ok (Numbers r) /\ p_kl r = Some kl /\ kl < 0.
Proof. exact c117_nonnegative_refuted. Qed.
Print Assumptions C117_nonnegative_refuted.

Example C116_values_ex :
  exists r, error_pdf gs_lstsq [1; -1] 12 None (Some 0) 0 (1 / 10 ^ 9) = Ok (Numbers r) /\ nth 0 (p_err r) 0 = 2048 /\ nth 1 (p_err r) 0 = -2048 /\ p_sigma r = Fin (2048 * sqrt 2).
Proof. exact c116_values_ex. Qed.

Example C116_positive_ex :
  exists r f, error_pdf gs_lstsq [1; -1] 12 None (Some 0) 0 (1 / 10 ^ 9) = Ok (Numbers r) /\ p_pdf r = Some f /\ 0 < nth 100 f 0.
Proof. exact c116_positive_ex. Qed.

Example C116_spread_ex :
  exists r, error_pdf gs_lstsq [1; -1] 12 None (Some 0) 0 (1 / 10 ^ 9) = Ok (Numbers r) /\ p_sigma r <> Fin 0.
Proof. exact c116_spread_ex. Qed.

Example C116_centred_ex :
  exists r, error_pdf gs_lstsq [1; -1] 12 None (Some 0) 0 (1 / 10 ^ 9) = Ok (Numbers r) /\ p_mu r = 0.
Proof. exact c116_centred_ex. Qed.

Example C116_resolution_ex :
  exists r, error_pdf gs_lstsq [1; -1] 13 None (Some 0) 0 (1 / 10 ^ 9) = Ok (Numbers r) /\ nth 0 (p_err r) 0 = 4096 /\ p_sigma r = Fin (2 * (2048 * sqrt 2)).
Proof. exact c116_resolution_ex. Qed.

Example C116_errors_ex :
  error_pdf gs_lstsq [5; 5; 5] 12 None None 1 (1 / 10 ^ 9) = Ok NotFinite /\ error_pdf gs_lstsq [5] 12 None None 1 (1 / 10 ^ 9) = Err ValueError /\ error_pdf gs_lstsq [] 12 (Some 1) (Some (1 / 4)) 1 (1 / 10 ^ 9) = Err ZeroDivisionError.
Proof. exact c116_errors_ex. Qed.

Example C117_lower_bound_ex :
  exists r f g kl, error_pdf gs_lstsq [1; -1] 12 None (Some 0) 0 (1 / 10 ^ 9) = Ok (Numbers r) /\ p_pdf r = Some f /\ p_gauss r = Some g /\ p_kl r = Some kl /\
  let dx := nth 1 (p_x r) 0 - nth 0 (p_x r) 0 in mass 200 dx (fun i => nth i f 0 + / 2 ^ 52) - mass 200 dx (fun i => nth i g 0 + / 2 ^ 52) <= kl < 0.
Proof. exact c117_lower_bound_ex. Qed.

Example C117_negative_ex :
  forall a s h x, 0 < a -> 0 < s -> s ^ 2 = 2 * a ^ 2 -> silverman 2 s h -> - a <= x <= a -> (bell h (x - a) + bell h (x + a)) / 2 < bell s x.
Proof. exact c117_negative_ex. Qed.
