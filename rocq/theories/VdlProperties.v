(** * Property theorems of Vdl: statements only, proofs in VdlProofs.v.
    Generated by tools/mkprops.py from the final lemmas. *)
From Verif Require Import Base BaseLemmas Cplx SpecModel SpecLemmas SineHistModel TiModel TiSpec TiProofs FitSpec VdlModel VdlSpec.
From Coq Require Import Psatz.
Local Open Scope R_scope.
From Verif Require Import VdlProofs.

(** Neighbouring codes differ by the drawn step, at least a twentieth of the nominal one; so the delay rises strictly with the
    code, whatever the draws and however wide they spread. *)
Theorem C160_steps :
  forall n lsb cv off draws v,
  make_vdl n lsb cv off draws = Ok v ->
  (forall c, (0 <= c < n - 1)%Z -> vdl_delay v (c + 1) - vdl_delay v c = lsb * Rmax (1 + cv * draws (Z.to_nat c)) (1 / 20)) /\
  (0 < lsb -> forall c d, (0 <= c < d)%Z -> (d < n)%Z -> IZR (d - c) * (lsb / 20) <= vdl_delay v d - vdl_delay v c) /\
  (cv = 0 -> forall c, (0 <= c < n)%Z -> vdl_delay v c = off + lsb * IZR (c - n / 2)).
Proof. exact c160_steps. Qed.
Print Assumptions C160_steps.

(** The middle code has just the constant delay, codes beyond the ends act like the ends, and the line can be built for every
    positive number of codes. *)
Theorem C160_ends :
  forall n lsb cv off draws,
  ((1 <= n)%Z <-> exists v, make_vdl n lsb cv off draws = Ok v) /\ ((n < 1)%Z -> make_vdl n lsb cv off draws = Err ValueError) /\
  forall v, make_vdl n lsb cv off draws = Ok v -> vdl_delay v (v_center v) = off /\ v_center v = (n / 2)%Z /\
    (forall c, (c <= 0)%Z -> vdl_delay v c = vdl_delay v 0) /\ (forall c, (n - 1 <= c)%Z -> vdl_delay v c = vdl_delay v (n - 1)) /\
    vdl_range v = vdl_delay v (n - 1) - vdl_delay v 0.
Proof. exact c160_ends. Qed.
Print Assumptions C160_ends.

(** nearest_code finds the code whose delay is closest, the lowest one of several; it inverts the delay line, and within its
    reach it is never further away than half of some step. *)
Theorem C160_nearest :
  forall n lsb cv off draws v,
  make_vdl n lsb cv off draws = Ok v ->
  (forall t, exists c, nearest_code v t = Ok c /\ (0 <= c < n)%Z /\ (forall d, Rabs (vdl_delay v c - t) <= Rabs (vdl_delay v d - t)) /\ (forall d, (0 <= d < c)%Z -> Rabs (vdl_delay v c - t) < Rabs (vdl_delay v d - t))) /\
  (0 < lsb -> forall c, (0 <= c < n)%Z -> nearest_code v (vdl_delay v c) = Ok c) /\
  (forall t c, nearest_code v t = Ok c -> vdl_delay v 0 <= t < vdl_delay v (n - 1) -> exists d, (0 <= d < n - 1)%Z /\ Rabs (vdl_delay v c - t) <= (vdl_delay v (d + 1) - vdl_delay v d) / 2).
Proof. exact c160_nearest. Qed.
Print Assumptions C160_nearest.

(** Sample n is taken by channel n mod M at n periods plus the skew of that channel. *)
Theorem C161_samples :
  forall s fin amp n rms rnd u noise,
  sized s -> s_fs s <> 0 -> rms <= 0 -> exists x, capture s fin amp n rms None rnd u noise = Ok x /\ length x = n /\
  forall t, (t < n)%nat -> nth t x 0 = amp * cos (2 * PI * fin * (INR t / s_fs s + channel_skew s (t mod Z.to_nat (s_M s))) + (if rnd then u else 0)).
Proof. exact c161_samples. Qed.
Print Assumptions C161_samples.

(** With all skews equal the record is one pure sine; a delay common to all channels is only a phase. *)
Theorem C161_aligned :
  forall s fin amp n rms rnd u noise d x,
  sized s -> s_fs s <> 0 -> rms <= 0 -> (forall m, (m < Z.to_nat (s_M s))%nat -> channel_skew s m = d) -> capture s fin amp n rms None rnd u noise = Ok x ->
  is_record x (sine amp (fin / s_fs s) (2 * PI * fin * d + (if rnd then u else 0)) 0).
Proof. exact c161_aligned. Qed.
Print Assumptions C161_aligned.

Theorem C161_common :
  forall s fin amp n rms hd3 u noise d,
  sized s -> s_fs s <> 0 ->
  capture (mkSampler (s_M s) (s_fs s) (map (fun v => v + d) (s_skew s)) (s_vdls s) (s_trim s)) fin amp n rms hd3 true u noise = capture s fin amp n rms hd3 true (u + 2 * PI * fin * d) noise.
Proof. exact c161_common. Qed.
Print Assumptions C161_common.

(** A request for a third harmonic of level h adds one of exactly r = 10^(h/20) times the amplitude, and raises the
    fundamental by the factor 1 + 3 r. *)
Theorem C161_hd3 :
  forall s fin amp n rms h rnd u noise,
  sized s -> s_fs s <> 0 -> rms <= 0 -> amp <> 0 -> exists x, capture s fin amp n rms (Some h) rnd u noise = Ok x /\ length x = n /\
  let r := Rpower 10 (h / 20) in forall t, (t < n)%nat -> let th := 2 * PI * fin * (INR t / s_fs s + channel_skew s (t mod Z.to_nat (s_M s))) + (if rnd then u else 0) in
  nth t x 0 = amp * (1 + 3 * r) * cos th + amp * r * cos (3 * th).
Proof. exact c161_hd3. Qed.
Print Assumptions C161_hd3.

(** One channel, eight samples of a period, a harmonic of 0 dBc asked for: the record is a sine of four times the amplitude
    of its third harmonic, and nothing else fits it. *)
Theorem C161_hd3_refuted :
  exists s x, sized s /\ capture s 1 1 8 0 (Some 0) false 0 (fun _ => 0) = Ok x /\ Rpower 10 (0 / 20) = 1 /\
  forall F H, (forall t, (t < 8)%nat -> nth t x 0 = F * cos (2 * PI * INR t / 8) + H * cos (3 * (2 * PI * INR t / 8))) -> F = 4 /\ H = 1.
Proof. exact c161_hd3_refuted. Qed.
Print Assumptions C161_hd3_refuted.

(** Trimming each channel to the code nearest to what it lacks against channel 0 leaves a skew against channel 0 of at most
    half a step of its line, if its line reaches that far. *)
Theorem C161_ideal_codes :
  forall s m v c n lsb cv off draws,
  make_vdl n lsb cv off draws = Ok v -> nth m (s_vdls s) (mkVdl 1 [] 0 0) = v -> nth m (s_trim s) 0%Z = c ->
  let target := channel_skew s 0 - nth m (s_skew s) 0 in nearest_code v target = Ok c -> vdl_delay v 0 <= target < vdl_delay v (n - 1) ->
  exists d, (0 <= d < n - 1)%Z /\ Rabs (channel_skew s m - channel_skew s 0) <= (vdl_delay v (d + 1) - vdl_delay v d) / 2.
Proof. exact c161_ideal_codes. Qed.
Print Assumptions C161_ideal_codes.

(** Without given trim codes every channel starts at the centre code of its delay line; given codes are kept. *)
Theorem C161_initial :
  forall M fs skew vdls trim s,
  make_sampler M fs skew vdls trim = Ok s ->
  s_M s = M /\ s_fs s = fs /\ s_skew s = skew /\ s_vdls s = vdls /\ (trim = None -> s_trim s = map v_center vdls) /\ (forall t, trim = Some t -> s_trim s = t).
Proof. exact c161_initial. Qed.
Print Assumptions C161_initial.

(** What is refused: sizes that do not fit, too few trim codes, a sampling rate of zero, a harmonic of a zero amplitude. *)
Theorem C161_errors :
  forall M fs skew vdls trim,
  ((Z.of_nat (length skew) = M /\ Z.of_nat (length vdls) = M) <-> exists s, make_sampler M fs skew vdls trim = Ok s) /\
  (~ (Z.of_nat (length skew) = M /\ Z.of_nat (length vdls) = M) -> make_sampler M fs skew vdls trim = Err AssertionError) /\
  (forall s, make_sampler M fs skew vdls trim = Ok s -> (0 < M)%Z -> sized s <-> (forall t, trim = Some t -> (Z.to_nat M <= length t)%nat)) /\
  (forall s fin amp n rms hd3 rnd u noise, make_sampler M fs skew vdls trim = Ok s -> (0 < M)%Z -> let x := capture s fin amp n rms hd3 rnd u noise in
     (fs = 0 -> x = Err ZeroDivisionError) /\ (fs <> 0 -> ~ sized s -> x = Err IndexError) /\ (fs <> 0 -> sized s -> hd3 <> None /\ amp = 0 -> x = Err ZeroDivisionError) /\
     (fs <> 0 -> sized s -> ~ (hd3 <> None /\ amp = 0) -> exists y, x = Ok y /\ length y = n)).
Proof. exact c161_errors. Qed.
Print Assumptions C161_errors.

(** The measure of channel i is the sum of the absolute steps from its samples to the next ones, over all but the last round. *)
Theorem C162_mad :
  forall (M K : nat) x,
  (0 < M)%nat -> length x = (K * M)%nat -> exists mad, mad_of (Z.of_nat M) x = Ok mad /\ length mad = M /\
  forall i, (i < M)%nat -> nth i mad 0 = rsum (K - 1) (fun k => Rabs (nth (k * M + i + 1) x 0 - nth (k * M + i) x 0)).
Proof. exact c162_mad. Qed.
Print Assumptions C162_mad.

(** On a noise-free capture it is proportional to |sin (pi fin g)|, g the time to the next sample. *)
Theorem C162_gap :
  forall s fin amp (K : nat) rms rnd u noise,
  sized s -> s_fs s <> 0 -> rms <= 0 -> let M := Z.to_nat (s_M s) in
  exists x mad, capture s fin amp (K * M) rms None rnd u noise = Ok x /\ mad_of (s_M s) x = Ok mad /\
  forall i, (i < M)%nat -> nth i mad 0 = 2 * Rabs amp * Rabs (sin (PI * fin * gap s i)) * rsum (K - 1) (fun k => Rabs (sin (PI * fin * (INR (2 * (k * M + i) + 1) / s_fs s + channel_skew s i + channel_skew s (S i mod M)) + (if rnd then u else 0)))).
Proof. exact c162_gap. Qed.
Print Assumptions C162_gap.

(** One pass: channel 0 stays, every other code goes one down if the measures before its channel exceed their share and one up if
    not, unless that leaves the line. *)
Theorem C162_step :
  forall s fin amp n rms hd3 u noise s',
  sized s -> calibration_step s fin amp n rms hd3 u noise = Ok s' ->
  exists mad, (exists x, capture s fin amp n rms hd3 true u noise = Ok x /\ mad_of (s_M s) x = Ok mad) /\ length mad = Z.to_nat (s_M s) /\ sized s' /\ s_M s' = s_M s /\ s_fs s' = s_fs s /\ s_skew s' = s_skew s /\ s_vdls s' = s_vdls s /\ length (s_trim s') = length (s_trim s) /\
  nth 0 (s_trim s') 0%Z = nth 0 (s_trim s) 0%Z /\
  forall m, (0 < m < Z.to_nat (s_M s))%nat -> let share := INR m * (lsum mad / INR (length mad)) in let sum := rsum m (fun j => nth j mad 0) in
    (share < sum -> nth m (s_trim s') 0%Z = Z.min (Z.max (nth m (s_trim s) 0 - 1) 0)%Z (top_code s m)) /\ (sum <= share -> nth m (s_trim s') 0%Z = Z.min (Z.max (nth m (s_trim s) 0 + 1) 0)%Z (top_code s m)).
Proof. exact c162_step. Qed.
Print Assumptions C162_step.

(** The whole run: as many code sets as passes, channel 0 never moves, all other codes stay on their lines and move by at most
    one, and by exactly one away from the ends. *)
Theorem C162_run :
  forall sfdr us noises fin amp n rms hd3,
  forall p i s best r hist, sized s -> (forall m, (m < Z.to_nat (s_M s))%nat -> (0 <= top_code s m)%Z) ->
  calibration_loop sfdr us noises fin amp n rms hd3 p i s best = Ok (r, hist) -> length hist = p /\
  forall k, (k < p)%nat -> let before := nth k (s_trim s :: hist) [] in let after := nth k hist [] in
    nth 0 after 0%Z = nth 0 (s_trim s) 0%Z /\ length after = length (s_trim s) /\
    forall m, (0 < m < Z.to_nat (s_M s))%nat -> (0 <= nth m after 0 <= top_code s m)%Z /\ ((0 < nth m before 0 < top_code s m)%Z -> Z.abs (nth m after 0%Z - nth m before 0%Z) = 1%Z) /\ ((0 <= nth m before 0 <= top_code s m)%Z -> (Z.abs (nth m after 0 - nth m before 0) <= 1)%Z).
Proof. exact c162_run. Qed.
Print Assumptions C162_run.

Theorem C162_best :
  forall sfdr us noises fin amp n rms hd3 p s r hist,
  (0 < p)%nat -> calibration_loop sfdr us noises fin amp n rms hd3 p 0 s (None, s_trim s) = Ok (r, hist) ->
  let codes k := nth k (s_trim s :: hist) [] in exists j, (j < p)%nat /\ r = (Some (sfdr j (codes j)), codes j) /\
  (forall k, (k < p)%nat -> sfdr k (codes k) <= sfdr j (codes j)) /\ (forall k, (k < j)%nat -> sfdr k (codes k) < sfdr j (codes j)).
Proof. exact c162_best. Qed.
Print Assumptions C162_best.

(** The run never fails if the record is a whole number of rounds and, for a harmonic, the amplitude is not zero. *)
Theorem C162_total :
  forall sfdr us noises fin amp (K : nat) rms hd3,
  forall p i s best, sized s -> s_fs s <> 0 -> (hd3 <> None -> amp <> 0) ->
  exists r hist, calibration_loop sfdr us noises fin amp (K * Z.to_nat (s_M s)) rms hd3 p i s best = Ok (r, hist).
Proof. exact c162_total. Qed.
Print Assumptions C162_total.

(** With decisions that are right about one channel, its code comes within one of the right code and stays there. *)
Theorem C162_locks :
  forall (decide : nat -> list Z -> list bool) vdls m target (codes : nat -> list Z),
  (0 < m < length vdls)%nat -> (forall k, (m < length (codes k))%nat) -> (0 <= target < v_codes (nth m vdls (mkVdl 1 [] 0 0)))%Z ->
  (forall k, codes (S k) = update_trim (-1) vdls (codes k) (decide k (codes k))) ->
  (forall k, (target < nth m (codes k) 0%Z)%Z -> nth (m - 1) (decide k (codes k)) false = true) -> (forall k, (nth m (codes k) 0%Z < target)%Z -> nth (m - 1) (decide k (codes k)) false = false) ->
  forall k, (Z.abs (nth m (codes 0%nat) 0 - target) <= Z.of_nat k)%Z -> (Z.abs (nth m (codes k) 0 - target) <= 1)%Z.
Proof. exact c162_locks. Qed.
Print Assumptions C162_locks.

(** Aligned channels do not stay aligned: the codes move in every pass. *)
Theorem C162_rests_refuted :
  exists s s', sized s /\ (forall m, (m < Z.to_nat (s_M s))%nat -> channel_skew s m = 0) /\ calibration_step s (1 / 4) 1 8 0 None 0 (fun _ => 0) = Ok s' /\ Rabs (channel_skew s' 1 - channel_skew s' 0) = 1.
Proof. exact c162_rests_refuted. Qed.
Print Assumptions C162_rests_refuted.
