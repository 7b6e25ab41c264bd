(** * Property theorems of Band: statements only, proofs in BandProofs.v.
    Generated by tools/mkprops.py from the final lemmas. *)
From Verif Require Import Base BaseLemmas Cplx FreqModel FreqProofs TiModel TiSpec TiProofs TiToneProofs SpecProofs SpecToneProofs BandModel BandSpec.
From Coq Require Import Psatz ZifyBool.
Local Open Scope R_scope.
From Verif Require Import BandProofs.

(** Below the top bin the mask keeps exactly the covered bins, together with their mirror bins. *)
Theorem C50_mask :
  forall N bands k,
  (0 < N)%nat -> good_bands bands -> (2 * k + 1 < N)%nat ->
  (mask_at N bands k = 1 <-> covered N bands k) /\ (mask_at N bands (mirror N k) = 1 <-> covered N bands k).
Proof. exact c50_mask. Qed.
Print Assumptions C50_mask.

(** At even length the Nyquist bin follows the same rule. *)
Theorem C50_mask_nyquist :
  forall h bands,
  (0 < h)%nat -> good_bands bands -> mask_at (2 * h) bands h = 1 <-> covered (2 * h) bands h.
Proof. exact c50_mask_nyquist. Qed.
Print Assumptions C50_mask_nyquist.

(** At odd length 2h+1 the mirror of the top bin is never kept. *)
Theorem C50_mask_odd_top :
  forall h bands,
  (0 < h)%nat -> good_bands bands -> mask_at (2 * h + 1) bands (h + 1) = 0.
Proof. exact c50_mask_odd_top. Qed.
Print Assumptions C50_mask_odd_top.

(** At even length the mask is conjugate-symmetric. *)
Theorem C50_mask_symmetric :
  forall N bands k,
  Nat.even N = true -> good_bands bands -> (0 < k < N)%nat -> mask_at N bands (N - k) = mask_at N bands k.
Proof. exact c50_mask_symmetric. Qed.
Print Assumptions C50_mask_symmetric.

(** At odd length it is not: three samples, full band. *)
Theorem C50_symmetric_refuted :
  exists N bands k, good_bands bands /\ (0 < k < N)%nat /\ mask_at N bands (N - k) <> mask_at N bands k.
Proof. exact c50_symmetric_refuted. Qed.
Print Assumptions C50_symmetric_refuted.

(** The output spectrum is the input spectrum times the average of the mask at the bin and at
    its mirror bin, for every signal and length. *)
Theorem C50_response :
  forall bands x k,
  (k < length x)%nat ->
  rfft (filter_col bands x) k = Cscale ((mask_at (length x) bands k + mask_at (length x) bands (mirror (length x) k)) / 2) (rfft x k).
Proof. exact c50_response. Qed.
Print Assumptions C50_response.

(** Every bin below the top one, and the Nyquist bin at even length, is passed unchanged if some
    band covers it and removed otherwise. *)
Theorem C50_brickwall :
  forall bands x k,
  good_bands bands -> (2 * k + 1 < length x)%nat \/ (length x = 2 * k /\ 0 < k)%nat ->
  (covered (length x) bands k -> rfft (filter_col bands x) k = rfft x k) /\
  (~ covered (length x) bands k -> rfft (filter_col bands x) k = C0).
Proof. exact c50_brickwall. Qed.
Print Assumptions C50_brickwall.

(** At odd length the top bin comes out at half its amplitude when covered. *)
Theorem C50_odd_top_halved :
  forall bands x h,
  (0 < h)%nat -> good_bands bands -> length x = (2 * h + 1)%nat -> covered (length x) bands h ->
  rfft (filter_col bands x) h = Cscale (/ 2) (rfft x h).
Proof. exact c50_odd_top_halved. Qed.
Print Assumptions C50_odd_top_halved.

(** At even length the full band returns the signal itself. *)
Theorem C50_full_band_even :
  forall x,
  Nat.even (length x) = true -> filter_col [(0, 0.5)] x = x.
Proof. exact c50_full_band_even. Qed.
Print Assumptions C50_full_band_even.

(** Filtering twice with the same bands is filtering once, at even length. *)
Theorem C50_idempotent :
  forall bands x,
  Nat.even (length x) = true -> good_bands bands -> filter_col bands (filter_col bands x) = filter_col bands x.
Proof. exact c50_idempotent. Qed.
Print Assumptions C50_idempotent.

(** A coherent tone comes out scaled by the average of the mask at its bin and the mirror bin. *)
Theorem C50_tone :
  forall bands N J A ph,
  (2 * J < N)%nat ->
  let x := map (fun n => A * cos (2 * PI * INR J * INR n / INR N + ph)) (seq 0 N) in
  filter_col bands x = map (fun v => (mask_at N bands J + mask_at N bands (mirror N J)) / 2 * v) x.
Proof. exact c50_tone. Qed.
Print Assumptions C50_tone.

(** With three samples the full band does not return the signal: a tone at bin 1 is halved. *)
Theorem C50_full_band_refuted :
  exists x y, length x = 3%nat /\ filter_col [(0, 0.5)] x = y /\ y = map (fun v => / 2 * v) x /\ y <> x.
Proof. exact c50_full_band_refuted. Qed.
Print Assumptions C50_full_band_refuted.

(** Errors: any band table that is empty, has a row without exactly two entries, or an entry
    outside [0, 0.5] raises; every other table is accepted and each column is filtered alone. *)
Theorem C50_errors :
  forall din bands,
  (bands = [] \/ exists r, In r bands /\ (length r <> 2%nat \/ exists v, In v r /\ (v < 0 \/ 0.5 < v))) ->
  extract_freq_components din bands = Err ValueError.
Proof. exact c50_errors. Qed.
Print Assumptions C50_errors.

Theorem C50_columns :
  forall din bands N M,
  rect N M din -> (0 < M <= N)%nat -> bands <> [] ->
  (forall r, In r bands -> length r = 2%nat /\ forall v, In v r -> 0 <= v <= 0.5) ->
  exists out, extract_freq_components din bands = Ok out /\ rect N M out /\
    forall j, (j < M)%nat -> map (fun row => nth j row 0) out = filter_col (map (fun r => (nth 0 r 0, nth 1 r 0)) bands) (map (fun row => nth j row 0) din).
Proof. exact c50_columns. Qed.
Print Assumptions C50_columns.

(** An array with more columns than rows is taken as one record per row: the result is that of the transposed
    array, so its rows and columns come back exchanged. *)
Theorem C50_wide :
  forall N M din bands,
  rect M N din -> (0 < M < N)%nat ->
  extract_freq_components din bands = extract_freq_components (transpose N din) bands /\
  forall out, extract_freq_components din bands = Ok out -> rect N M out /\ forall j, (j < M)%nat -> map (fun row => nth j row 0) out = filter_col (map (fun r => (nth 0 r 0, nth 1 r 0)) bands) (nth j din []).
Proof. exact c50_wide. Qed.
Print Assumptions C50_wide.

(** Eight samples, band [0.1, 0.3]: edges round to bins 1 and 2. *)
Example C50_brickwall_ex :
  forall x,
  length x = 8%nat -> rfft (filter_col [(0.3, 0.1)] x) 2 = rfft x 2 /\ rfft (filter_col [(0.3, 0.1)] x) 3 = C0 /\ rfft (filter_col [(0.3, 0.1)] x) 0 = C0.
Proof. exact c50_brickwall_ex. Qed.
