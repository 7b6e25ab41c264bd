(** * What the MATLAB bit-level plots should show. *)
From Verif Require Import Base DoutModel DoutSpec EplotModel MbitModel.
Local Open Scope R_scope.

(** The signal as a row or as a column. *)
Definition samples (sig : list (list R)) (s : list R) : Prop := sig = [s] \/ sig = map (fun x => [x]) s.
(** The signal without its first z bits, sample by sample (nothing is taken off for z <= 0). *)
Definition stage (s : list R) (bits : list (list R)) (w : list R) (z : Z) : list R :=
  map (fun i => nth i s 0 - bits_between (nth i bits []) w 0 (Z.to_nat z)) (seq 0 (length s)).
Definition panel_of (s : list R) (bits : list (list R)) (w : list R) (p : Z * Z) : m_panel :=
  mkPanel (combine (stage s bits w (fst p)) (stage s bits w (snd p))) (label_of (fst p)) (label_of (snd p)).
(** What a matrix of pairs says: two columns, or else two rows. *)
Definition pairs_given (rows : list (list Z)) (ps : list (Z * Z)) : Prop :=
  (ps <> [] /\ rows = map (fun p => [fst p; snd p]) ps) \/ (length ps <> 2%nat /\ rows = [map fst ps; map snd ps]).
Definition alpha_valid (alpha : option R) : Prop := match alpha with None => True | Some a => 0 < a <= 1 end.
