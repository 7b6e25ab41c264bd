(** * Model of adctoolbox/skill_cli.py and adctoolbox/cli.py.
    The file system is a tree; every change is a sequence of atomic steps.  A crash can happen
    between any two of them, and copytree goes on with the other entries after an OS error, so a
    failed run may have performed any sub-sequence of the step list.  Simplified: symbolic links are not followed while walking a path (the destination
    and its ancestors are assumed not to be links), the bundled resources are on disk, outside the
    destination, and contain no links; printing and argparse are not modelled. *)
From Verif Require Import Base.
From Coq Require Import String Ascii.
Local Open Scope string_scope.
Local Open Scope list_scope.

(** ** The file system *)
Definition path := list string.
Inductive tree : Type := TFile (content : string) | TDir (entries : list (string * tree)) | TLink (target : path).
Fixpoint aget (n : string) (l : list (string * tree)) : option tree :=
  match l with [] => None | (m, t) :: r => if String.eqb n m then Some t else aget n r end.
Fixpoint aset (n : string) (v : tree) (l : list (string * tree)) : list (string * tree) :=
  match l with [] => [(n, v)] | (m, t) :: r => if String.eqb n m then (m, v) :: r else (m, t) :: aset n v r end.
Definition adel (n : string) (l : list (string * tree)) : list (string * tree) := filter (fun e => negb (String.eqb n (fst e))) l.
(** lstat: the node at a path. *)
Fixpoint lookup (p : path) (t : tree) : option tree :=
  match p with
  | [] => Some t
  | n :: p' => match t with TDir l => match aget n l with Some c => lookup p' c | None => None end | _ => None end
  end.
(** Create or replace (Some) or delete (None) the node at a path whose parent is a directory. *)
Fixpoint put (p : path) (v : option tree) (t : tree) : tree :=
  match p with
  | [] => t
  | n :: p' =>
      match t with
      | TDir l => match p' with
                  | [] => TDir (match v with Some x => aset n x l | None => adel n l end)
                  | _ => match aget n l with Some c => TDir (aset n (put p' v c) l) | None => t end
                  end
      | _ => t
      end
  end.
(** Atomic file-system changes. *)
Inductive step : Type := SMkdir (p : path) | SCreate (p : path) | SWrite (p : path) (c : string) | SLink (p t : path) | SRemove (p : path).
Definition do_step (s : step) (t : tree) : tree :=
  match s with
  | SMkdir p => put p (Some (TDir [])) t
  | SCreate p => put p (Some (TFile "")) t
  | SWrite p c => put p (Some (TFile c)) t
  | SLink p d => put p (Some (TLink d)) t
  | SRemove p => put p None t
  end.
Definition run (ss : list step) (t : tree) : tree := fold_left (fun a s => do_step s a) ss t.
(** shutil.copytree of a tree without links: make the directory, then the entries in order. *)
Fixpoint copy_steps (src : tree) (p : path) : list step :=
  match src with
  | TFile c => [SCreate p; SWrite p c]
  | TDir l => SMkdir p :: (fix go (l : list (string * tree)) : list step := match l with [] => [] | (n, t) :: r => copy_steps t (p ++ [n]) ++ go r end) l
  | TLink _ => []
  end.
(** shutil.rmtree (children first), or unlink for a file or link. *)
Fixpoint remove_steps (t : tree) (p : path) : list step :=
  match t with
  | TDir l => (fix go (l : list (string * tree)) : list step := match l with [] => [] | (n, t) :: r => remove_steps t (p ++ [n]) ++ go r end) l ++ [SRemove p]
  | _ => [SRemove p]
  end.
(** Path.mkdir(parents=True, exist_ok=True) of [p] below the existing node [cur] at [pre]. *)
Fixpoint mkdir_steps (pre p : path) (cur : option tree) : result (list step) :=
  match p with
  | [] => match cur with None => Ok [SMkdir pre] | Some (TDir _) => Ok [] | Some _ => Err FileExistsError end
  | n :: p' => match cur with
               | None => bind (mkdir_steps (pre ++ [n]) p' None) (fun r => Ok (SMkdir pre :: r))
               | Some (TDir l) => mkdir_steps (pre ++ [n]) p' (aget n l)
               | Some _ => Err OSError
               end
  end.

(** ** Names *)
(** l.13-15 *)
Definition user_guide := "adctoolbox-user-guide".
Definition contributor_guide := "adctoolbox-contributor-guide".
Definition DEFAULT_SKILLS := [user_guide].
Definition DEV_SKILLS := [user_guide; contributor_guide].
Definition AVAILABLE_SKILLS := [user_guide; contributor_guide].
(** l.16-24 SKILL_ALIASES.get(raw, raw) *)
Definition alias (raw : string) : string :=
  if String.eqb raw "user" then user_guide else if String.eqb raw "user-guide" then user_guide
  else if String.eqb raw "adctoolbox-user-guide" then user_guide
  else if String.eqb raw "dev" then contributor_guide else if String.eqb raw "contributor" then contributor_guide
  else if String.eqb raw "contributor-guide" then contributor_guide
  else if String.eqb raw "adctoolbox-contributor-guide" then contributor_guide else raw.
Definition mem (s : string) (l : list string) : bool := existsb (String.eqb s) l.
(** l.48-59 the loop. *)
Fixpoint resolve_loop (names resolved : list string) : result (list string) :=
  match names with
  | [] => Ok resolved
  | raw :: t => let r := alias raw in
                if negb (mem r AVAILABLE_SKILLS) then Err ValueError
                else resolve_loop t (if mem r resolved then resolved else resolved ++ [r])
  end.
(** l.32-59 *)
Definition resolve_skill_names (names : option (list string)) (dev all : bool) : result (list string) :=
  if all then Ok AVAILABLE_SKILLS
  else if dev then Ok DEV_SKILLS
  else match names with None | Some [] => Ok DEFAULT_SKILLS | Some l => resolve_loop l [] end.

(** ** Installation *)
(** l.155-175 the loop: the steps it performs from the state [t], and its outcome. [src n] is the
    content of the bundled directory of skill n (None: not there), [src_path n] its path. *)
Fixpoint install_loop (src : string -> option tree) (src_path : string -> path) (root : path) (overwrite editable : bool) (names : list string) (t : tree)
  : list step * result (list path) :=
  match names with
  | [] => ([], Ok [])
  | n :: rest =>
      let target := root ++ [n] in
      let continue pre :=
        let make := if editable then Ok [SLink target (src_path n)]
                    else match src n with
                         | Some (TDir l) => Ok (copy_steps (TDir l) target)
                         | Some _ => Err OSError                                (* NotADirectoryError *)
                         | None => Err FileNotFoundError
                         end in
        match make with
        | Err e => (pre, Err e)
        | Ok mk => let ss := pre ++ mk in
                   let r := install_loop src src_path root overwrite editable rest (run ss t) in
                   (ss ++ fst r, match snd r with Ok ps => Ok (target :: ps) | Err e => Err e end)
        end in
      match lookup target t with                                     (* l.159 exists() or is_symlink() *)
      | None => continue []
      | Some old => if overwrite then continue (remove_steps old target) else ([], Err FileExistsError)
      end
  end.
(** l.135-176 *)
Definition install_bundled_skills (src : string -> option tree) (src_path : string -> path) (names : option (list string)) (dev all : bool) (dest : path) (overwrite editable : bool) (t : tree)
  : list step * result (list path) :=
  match resolve_skill_names names dev all with
  | Err e => ([], Err e)
  | Ok l => match mkdir_steps [] dest (Some t) with
            | Err e => ([], Err e)
            | Ok mk => let r := install_loop src src_path dest overwrite editable l (run mk t) in (mk ++ fst r, snd r)
            end
  end.

(** ** Status *)
(** filecmp.dircmp's default ignore list. *)
Definition DEFAULT_IGNORES := ["RCS"; "CVS"; "tags"; ".git"; ".hg"; ".bzr"; "_darcs"; "__pycache__"].
Definition visible (l : list (string * tree)) : list (string * tree) := filter (fun e => negb (mem (fst e) DEFAULT_IGNORES)) l.
(** l.75-83 _dirs_equal on two trees; a name that is a file on one side and a directory on the
    other is in dircmp.common_funny, which the code does not look at; so is a link. *)
Fixpoint dirs_equal (left right : tree) : bool :=
  match left, right with
  | TDir l, TDir r =>
      forallb (fun e => match aget (fst e) l with Some _ => true | None => false end) (visible r)     (* right_only *)
      && (fix go (es : list (string * tree)) : bool :=
            match es with
            | [] => true
            | (n, c) :: rest =>
                (if mem n DEFAULT_IGNORES then true
                 else match aget n r with
                      | None => false                                                             (* left_only *)
                      | Some d => match c, d with
                                  | TFile a, TFile b => String.eqb a b                            (* common_files *)
                                  | TDir _, TDir _ => dirs_equal c d                              (* common_dirs *)
                                  | _, _ => true                                                  (* common_funny *)
                                  end
                      end) && go rest
            end) l
  | _, _ => true
  end.
Inductive mode : Set := Missing | EditableLink | Copy | NonDirectory.
Record status_row := mkRow { s_name : string; s_installed : bool; s_mode : mode; s_synced : bool }.
Definition path_eqb (p q : path) : bool := if list_eq_dec string_dec p q then true else false.
(** l.101-130 one row; [resolve] is Path.resolve. A missing bundled directory makes dircmp raise. *)
Definition status_of (src : string -> option tree) (src_path : string -> path) (resolve : path -> path) (root : path) (t : tree) (n : string) : result status_row :=
  match lookup (root ++ [n]) t with
  | None => Ok (mkRow n false Missing false)
  | Some (TLink d) => Ok (mkRow n true EditableLink (path_eqb (resolve d) (resolve (src_path n))))
  | Some (TDir l) => match src n with
                     | Some s => Ok (mkRow n true Copy (dirs_equal s (TDir l)))
                     | None => Err FileNotFoundError
                     end
  | Some (TFile _) => Ok (mkRow n true NonDirectory false)
  end.
Fixpoint all_ok {A B} (f : A -> result B) (l : list A) : result (list B) :=
  match l with [] => Ok [] | x :: t => bind (f x) (fun y => bind (all_ok f t) (fun r => Ok (y :: r))) end.
(** l.86-132 *)
Definition skill_status (src : string -> option tree) (src_path : string -> path) (resolve : path -> path) (names : option (list string)) (dev all : bool) (dest : path) (t : tree) : result (list status_row) :=
  bind (resolve_skill_names names dev all) (all_ok (status_of src src_path resolve dest t)).

(** ** main, l.250-296: the exit value, or the exception that escapes. *)
Record cli_args := mkArgs { a_skills : list string; a_list : bool; a_status : bool; a_dev : bool; a_all : bool; a_dest : option path; a_force : bool; a_editable : bool }.
Definition main (src : string -> option tree) (src_path : string -> path) (resolve : path -> path) (a : cli_args) (t : tree) : list step * result Z :=
  if a_list a then ([], Ok 0%Z)
  else match a_dest a with
       | None => ([], Err SystemExit)                                               (* parser.error *)
       | Some dest =>
           if a_status a then ([], bind (skill_status src src_path resolve (Some (a_skills a)) (a_dev a) (a_all a) dest t) (fun _ => Ok 0%Z))
           else let r := install_bundled_skills src src_path (Some (a_skills a)) (a_dev a) (a_all a) dest (a_force a) (a_editable a) t in
                (fst r, match snd r with
                        | Ok _ => Ok 0%Z
                        | Err FileExistsError | Err ValueError => Ok 1%Z
                        | Err e => Err e
                        end)
       end.

(** ** cli.py l.7-47 copy_examples *)
(** l.36 ignore_patterns('__pycache__', '*.pyc'). *)
Fixpoint ends_with (suffix s : string) : bool :=
  if String.eqb suffix s then true else match s with EmptyString => false | String _ r => ends_with suffix r end.
Definition ignored_example (n : string) : bool := String.eqb n "__pycache__" || ends_with ".pyc" n.
Fixpoint prune (t : tree) : tree :=
  match t with
  | TDir l => TDir ((fix go (l : list (string * tree)) := match l with [] => [] | (n, c) :: r => if ignored_example n then go r else (n, prune c) :: go r end) l)
  | _ => t
  end.
(** l.7-47; os.makedirs(dst) at the start of copytree: the ancestors, then the directory itself. *)
Definition copy_examples (examples : option tree) (dest : path) (t : tree) : list step * result unit :=
  match examples with
  | None => ([], Err SystemExit)                                                    (* l.21-23 *)
  | Some ex =>
      match lookup dest t with
      | Some _ => ([], Err SystemExit)                                              (* l.28-31, or copytree's FileExistsError for a dangling link *)
      | None => match mkdir_steps [] (removelast dest) (Some t) with
                | Err _ => ([], Err SystemExit)                                     (* l.45-47 *)
                | Ok mk => (mk ++ copy_steps (prune ex) dest, Ok tt)
                end
      end
  end.
