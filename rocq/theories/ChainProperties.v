(** * Property theorems of Chain: statements only, proofs in ChainProofs.v.
    Generated by tools/mkprops.py from the final lemmas. *)
From Coq Require Import Psatz.
From Verif Require Import Base BaseLemmas UnitsModel UnitsSpec UnitsProofs CalModel CalSpec CalProofs CalExLemmas FitSpec FitProofs MsinProofs SiggenModel ChainModel ChainSpec.
Local Open Scope R_scope.
From Verif Require Import ChainProofs.

(** When it runs: at least two samples, a signal as long as the generator's record and a positive sampling rate; otherwise a
    ValueError.  The result is as long as the record. *)
Theorem C197_when :
  forall lin g x rms draws,
  length draws = g_N g ->
  match apply_jitter lin g (Some x) rms draws with
  | Ok out => (2 <= g_N g)%nat /\ length x = g_N g /\ 0 < g_Fs g /\ length out = g_N g
  | Err e => e = ValueError /\ ((g_N g < 2)%nat \/ length x <> g_N g \/ g_Fs g <= 0)
  end.
Proof. exact c197_when. Qed.
Print Assumptions C197_when.

(** Sample k of the result is the not-a-knot cubic spline through the given signal, taken at the disturbed time. *)
Theorem C197_is_spline :
  forall lin g x rms draws out a b c d k i,
  least_squares lin -> apply_jitter lin g (Some x) rms draws = Ok out -> length draws = g_N g -> (4 <= g_N g)%nat -> (k < g_N g)%nat ->
  not_a_knot (g_N g) (1 / g_Fs g) (fun k => nth k x 0) a b c d -> interval_of (g_N g) (1 / g_Fs g) (INR k / g_Fs g + nth k draws 0 * rms) i ->
  nth k out 0 = let u := INR k / g_Fs g + nth k draws 0 * rms - INR i / g_Fs g in a i + b i * u + c i * u ^ 2 + d i * u ^ 3.
Proof. exact c197_is_spline. Qed.
Print Assumptions C197_is_spline.

(** There is exactly one such spline for every signal of four samples or more, and one interval for every time. *)
Theorem C197_one_spline :
  forall n h y,
  (4 <= n)%nat -> 0 < h ->
  (exists a b c d, not_a_knot n h y a b c d) /\
  (forall a b c d a' b' c' d', not_a_knot n h y a b c d -> not_a_knot n h y a' b' c' d' -> forall i, (i + 1 < n)%nat -> a i = a' i /\ b i = b' i /\ c i = c' i /\ d i = d' i) /\
  (forall v, exists i, interval_of n h v i /\ forall j, interval_of n h v j -> j = i).
Proof. exact c197_one_spline. Qed.
Print Assumptions C197_one_spline.

(** With no jitter, in the draw or in the scale, the sample comes back unchanged, whatever the solver does. *)
Theorem C197_no_jitter :
  forall lin g x rms draws out k,
  apply_jitter lin g (Some x) rms draws = Ok out -> length draws = g_N g -> (k < g_N g)%nat -> nth k draws 0 * rms = 0 -> nth k out 0 = nth k x 0.
Proof. exact c197_no_jitter. Qed.
Print Assumptions C197_no_jitter.

(** A cubic signal is moved exactly, also beyond the ends of the record. *)
Theorem C197_cubic :
  forall lin g p0 p1 p2 p3 x rms draws out k,
  least_squares lin -> apply_jitter lin g (Some x) rms draws = Ok out -> length draws = g_N g -> (4 <= g_N g)%nat ->
  (forall j, (j < g_N g)%nat -> nth j x 0 = cubic p0 p1 p2 p3 (INR j / g_Fs g)) -> (k < g_N g)%nat -> nth k out 0 = cubic p0 p1 p2 p3 (INR k / g_Fs g + nth k draws 0 * rms).
Proof. exact c197_cubic. Qed.
Print Assumptions C197_cubic.

(** Two samples: the straight line; three: the parabola (Newton's form). *)
Theorem C197_small :
  forall lin g x rms draws out k,
  least_squares lin -> apply_jitter lin g (Some x) rms draws = Ok out -> length draws = g_N g -> (k < g_N g)%nat ->
  let y i := nth i x 0 in let w := INR k + nth k draws 0 * rms * g_Fs g in
  (g_N g = 2%nat -> nth k out 0 = y 0%nat + (y 1%nat - y 0%nat) * w) /\
  (g_N g = 3%nat -> nth k out 0 = y 0%nat + (y 1%nat - y 0%nat) * w + (y 2%nat - 2 * y 1%nat + y 0%nat) / 2 * w * (w - 1)).
Proof. exact c197_small. Qed.
Print Assumptions C197_small.

(** The same jitter on a weighted sum of two signals is the weighted sum of the two results. *)
Theorem C197_linear :
  forall lin g x x' p q rms draws out out',
  least_squares lin -> length draws = g_N g -> apply_jitter lin g (Some x) rms draws = Ok out -> apply_jitter lin g (Some x') rms draws = Ok out' ->
  exists out2, apply_jitter lin g (Some (map2 (fun u v => p * u + q * v) x x')) rms draws = Ok out2 /\ forall k, (k < g_N g)%nat -> nth k out2 0 = p * nth k out 0 + q * nth k out' 0.
Proof. exact c197_linear. Qed.
Print Assumptions C197_linear.

(** Without a signal the generator's sine is recomputed at the disturbed times. *)
Theorem C197_from_scratch :
  forall lin g rms draws,
  length draws = g_N g -> exists out, apply_jitter lin g None rms draws = Ok out /\ length out = g_N g /\
  forall k, (k < g_N g)%nat -> nth k out 0 = g_A g * sin (2 * PI * g_Fin g * (INR k / g_Fs g + nth k draws 0 * rms)) + g_DC g.
Proof. exact c197_from_scratch. Qed.
Print Assumptions C197_from_scratch.

(** The result need not stay between the smallest and the largest sample of the signal: beyond the ends the outermost cubic goes on. *)
Theorem C197_bounded_refuted :
  exists g x rms draws out, length draws = g_N g /\ apply_jitter gs_lstsq g (Some x) rms draws = Ok out /\ (forall v, In v x -> 0 <= v <= 1) /\ exists v, In v out /\ 1 < v.
Proof. exact c197_bounded_refuted. Qed.
Print Assumptions C197_bounded_refuted.

(** When it runs: ten samples or more and a signal as long as the record (a single value is repeated); otherwise a ValueError. *)
Theorem C198_when :
  forall g x scale draws,
  length draws = g_N g ->
  match apply_drift g (Some x) scale draws with
  | Ok out => (10 <= g_N g)%nat /\ (length x = g_N g \/ length x = 1%nat) /\ length out = g_N g
  | Err e => e = ValueError /\ ((g_N g <= 9)%nat \/ (length x <> g_N g /\ length x <> 1%nat))
  end.
Proof. exact c198_when. Qed.
Print Assumptions C198_when.

(** A record of fewer than ten samples is an error, whatever the signal, also the generator's own. *)
Theorem C198_short :
  forall g s scale draws,
  length draws = g_N g -> (g_N g < 10)%nat -> apply_drift g s scale draws = Err ValueError.
Proof. exact c198_short. Qed.
Print Assumptions C198_short.

(** What is added: the running sum of the scaled draws, continued by nine point-mirrored samples at either end, passed through the
    low-pass forwards and then backwards, each time starting as if the first value had always been there. *)
Theorem C198_filtered :
  forall g x scale draws out,
  length draws = g_N g -> length x = g_N g -> apply_drift g (Some x) scale draws = Ok out ->
  let N := g_N g in
  let b i := nth i (fst (butter2 0.001)) 0 in let a i := nth i (snd (butter2 0.001)) 0 in
  exists E F G : nat -> R,
  (forall k, (k < N)%nat -> E (9 + k)%nat = scale * rsum (k + 1) (fun i => nth i draws 0)) /\
  (forall k, (k <= 9)%nat -> E (9 - k)%nat = 2 * E 9%nat - E (9 + k)%nat) /\
  (forall k, (k <= 9)%nat -> E (N + 8 + k)%nat = 2 * E (N + 8)%nat - E (N + 8 - k)%nat) /\
  F 0%nat = E 0%nat /\ F 1%nat = E 0%nat + b 0%nat * (E 1%nat - E 0%nat) /\
  (forall n, (n + 2 < N + 18)%nat -> F (n + 2)%nat = b 0%nat * E (n + 2)%nat + b 1%nat * E (n + 1)%nat + b 2%nat * E n - a 1%nat * F (n + 1)%nat - a 2%nat * F n) /\
  G (N + 17)%nat = F (N + 17)%nat /\ G (N + 16)%nat = F (N + 17)%nat + b 0%nat * (F (N + 16)%nat - F (N + 17)%nat) /\
  (forall n, (n + 2 < N + 18)%nat -> G n = b 0%nat * F n + b 1%nat * F (n + 1)%nat + b 2%nat * F (n + 2)%nat - a 1%nat * G (n + 1)%nat - a 2%nat * G (n + 2)%nat) /\
  forall k, (k < N)%nat -> nth k out 0 = nth k x 0 + G (9 + k)%nat.
Proof. exact c198_filtered. Qed.
Print Assumptions C198_filtered.

(** The low-pass: second order Butterworth, with the power gain 1 / (1 + (tan(w/2) / tan(wc/2))^4) at the angular frequency w per
    sample, so half the power at the cutoff wc = PI/1000 and all of it at frequency 0; and it is stable. *)
Theorem C198_response :
  forall w,
  cos (w / 2) <> 0 -> let b := fst (butter2 0.001) in let a := snd (butter2 0.001) in
  nth 0 a 0 = 1 /\ gain2 b w * (1 + (tan (w / 2) / tan (PI / 1000 / 2)) ^ 4) = gain2 a w /\
  gain2 b (PI / 1000) = gain2 a (PI / 1000) / 2 /\ gain2 b 0 = gain2 a 0 /\ 0 < gain2 a 0 /\ Rabs (nth 1 a 0) < 1 + nth 2 a 0 /\ nth 2 a 0 < 1.
Proof. exact c198_response. Qed.
Print Assumptions C198_response.

(** The drift is linear in the draws and in the scale and does not depend on the signal. *)
Theorem C198_linear :
  forall g x1 x2 x3 s1 s2 s3 d1 d2 d3 o1 o2 o3 p q,
  length d1 = g_N g -> length d2 = g_N g -> length d3 = g_N g -> length x1 = g_N g -> length x2 = g_N g -> length x3 = g_N g ->
  apply_drift g (Some x1) s1 d1 = Ok o1 -> apply_drift g (Some x2) s2 d2 = Ok o2 -> apply_drift g (Some x3) s3 d3 = Ok o3 ->
  (forall k, (k < g_N g)%nat -> nth k d3 0 * s3 = p * (nth k d1 0 * s1) + q * (nth k d2 0 * s2)) ->
  forall k, (k < g_N g)%nat -> nth k o3 0 - nth k x3 0 = p * (nth k o1 0 - nth k x1 0) + q * (nth k o2 0 - nth k x2 0).
Proof. exact c198_linear. Qed.
Print Assumptions C198_linear.

(** A first step and then none: the drift is that step everywhere.  With the scale 0 the signal comes back. *)
Theorem C198_constant :
  forall g x scale c draws out k,
  length x = g_N g -> length draws = g_N g -> nth 0 draws 0 = c -> (forall i, (1 <= i < g_N g)%nat -> nth i draws 0 * scale = 0) -> apply_drift g (Some x) scale draws = Ok out -> (k < g_N g)%nat -> nth k out 0 = nth k x 0 + c * scale.
Proof. exact c198_constant. Qed.
Print Assumptions C198_constant.

Theorem C198_zero :
  forall g x draws out k,
  length x = g_N g -> length draws = g_N g -> apply_drift g (Some x) 0 draws = Ok out -> (k < g_N g)%nat -> nth k out 0 = nth k x 0.
Proof. exact c198_zero. Qed.
Print Assumptions C198_zero.

(** If a gain of the amplitude raises the measured level by 20 log10 of it, the new amplitude gives the target level. *)
Theorem C199_target :
  forall (level : R -> R) vpp target,
  0 < vpp -> (forall v r, 0 < v -> 0 < r -> level (v * r) = level v + 20 * (ln r / ln 10)) -> let new := vpp_for_target_dbfs vpp (level vpp) target in 0 < new /\ level new = target.
Proof. exact c199_target. Qed.
Print Assumptions C199_target.

(** No change when the level is right already; a second correction adds up with the first; no other amplitude does it. *)
Theorem C199_steps :
  forall vpp m t u,
  vpp_for_target_dbfs vpp t t = vpp /\ vpp_for_target_dbfs (vpp_for_target_dbfs vpp m t) t u = vpp_for_target_dbfs vpp m u /\ vpp_for_target_dbfs 0 m t = 0 /\
  (0 < vpp -> mag_to_db (vpp_for_target_dbfs vpp m t / vpp) = Fin (t - m)) /\ (0 < vpp -> t < u -> vpp_for_target_dbfs vpp m t < vpp_for_target_dbfs vpp m u).
Proof. exact c199_steps. Qed.
Print Assumptions C199_steps.
