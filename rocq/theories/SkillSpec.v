(** * Specification vocabulary for the installer (what a path looks like to an observer). *)
From Verif Require Import Base SkillModel.
From Coq Require Import String.
Local Open Scope list_scope.

(** What lstat plus reading shows at a path, without the directory listing. *)
Inductive kind : Type := KFile (c : string) | KDir | KLink (p : path).
Definition kind_of (t : tree) : kind := match t with TFile c => KFile c | TDir _ => KDir | TLink p => KLink p end.
Definition stat (t : tree) (p : path) : option kind := option_map kind_of (lookup p t).
(** p is q or an ancestor of q. *)
Definition prefix_of (p q : path) : Prop := exists r, q = p ++ r.
(** Every state an interrupted or partly failing run can leave behind: some of the steps, in order. *)
Inductive sub {A : Type} : list A -> list A -> Prop :=
| sub_nil : sub [] []
| sub_take x a b : sub a b -> sub (x :: a) (x :: b)
| sub_skip x a b : sub a b -> sub a (x :: b).
Definition crash_state (ss : list step) (t t' : tree) : Prop := exists ss', sub ss' ss /\ t' = run ss' t.
(** A tree as it is on disk: no links, no duplicate names in a directory. *)
Inductive plain : tree -> Prop :=
| plain_file c : plain (TFile c)
| plain_dir l : NoDup (map fst l) -> Forall (fun e => plain (snd e)) l -> plain (TDir l).
(** Names accepted by the installer. *)
Definition bundled (n : string) : Prop := n = "adctoolbox-user-guide"%string \/ n = "adctoolbox-contributor-guide"%string.
Inductive means : string -> string -> Prop :=
| m_user : means "user" "adctoolbox-user-guide"
| m_user_guide : means "user-guide" "adctoolbox-user-guide"
| m_user_full : means "adctoolbox-user-guide" "adctoolbox-user-guide"
| m_dev : means "dev" "adctoolbox-contributor-guide"
| m_contr : means "contributor" "adctoolbox-contributor-guide"
| m_contr_guide : means "contributor-guide" "adctoolbox-contributor-guide"
| m_contr_full : means "adctoolbox-contributor-guide" "adctoolbox-contributor-guide".
(** No name in the path is on the list of names filecmp skips. *)
Definition compared_path (q : path) : Prop := Forall (fun n => ~ In n ["RCS"; "CVS"; "tags"; ".git"; ".hg"; ".bzr"; "_darcs"; "__pycache__"]%string) q.
Definition is_dir (t : tree) (q : path) : Prop := exists l, lookup q t = Some (TDir l).
(** The two trees look the same wherever filecmp looks: at paths of compared names whose parents
    are directories on both sides, existence agrees, and two files have the same content. *)
Definition agree (a b : tree) : Prop :=
  forall q n, compared_path (q ++ [n]) -> (forall q', prefix_of q' q -> is_dir a q' /\ is_dir b q') ->
    (lookup (q ++ [n]) a = None <-> lookup (q ++ [n]) b = None) /\
    (forall x y, lookup (q ++ [n]) a = Some (TFile x) -> lookup (q ++ [n]) b = Some (TFile y) -> x = y).
(** Names the example copier leaves out. *)
Definition left_out (n : string) : Prop := n = "__pycache__"%string \/ exists s, n = (s ++ ".pyc")%string.
(** l lists the values of ms without repetition, in the order of their first mention. *)
Definition first_mentions (ms l : list string) : Prop :=
  NoDup l /\ (forall m, In m l <-> In m ms) /\
  (forall x y l1 l2 l3, l = l1 ++ x :: l2 ++ y :: l3 -> exists pre post, ms = pre ++ x :: post /\ ~ In y pre).
(** The tree at p is neither missing nor a directory. *)
Definition blocked (t : tree) (p : path) : Prop := exists x, lookup p t = Some x /\ forall l, x <> TDir l.
Definition strictly_above (q p : path) : Prop := exists n r, p = q ++ n :: r.
