(** * Property theorems of Skill: statements only, proofs in SkillProofs.v.
    Generated by tools/mkprops.py from the final lemmas. *)
From Verif Require Import Base BaseLemmas SkillModel SkillSpec SkillLemmas.
From Coq Require Import String.
Local Open Scope list_scope.
From Verif Require Import SkillProofs.

(** --all wins over everything, --dev over names, and an empty request is the default skill. *)
Theorem C44_flags :
  forall names dev,
  resolve_skill_names names dev true = Ok ["adctoolbox-user-guide"; "adctoolbox-contributor-guide"]%string /\
  resolve_skill_names names true false = Ok ["adctoolbox-user-guide"; "adctoolbox-contributor-guide"]%string /\
  resolve_skill_names None false false = Ok ["adctoolbox-user-guide"]%string /\
  resolve_skill_names (Some []) false false = Ok ["adctoolbox-user-guide"]%string.
Proof. exact c44_flags. Qed.
Print Assumptions C44_flags.

(** A non-empty request succeeds exactly when every name has a meaning, and then yields the
    meanings without repetition in the order of first mention. *)
Theorem C44_names :
  forall names l,
  names <> [] ->
  resolve_skill_names (Some names) false false = Ok l <-> exists ms, Forall2 means names ms /\ first_mentions ms l.
Proof. exact c44_names. Qed.
Print Assumptions C44_names.

(** The only failure is ValueError, exactly when some name of a plain request has no meaning. *)
Theorem C44_fails :
  forall names dev all e,
  resolve_skill_names names dev all = Err e <-> e = ValueError /\ dev = false /\ all = false /\ exists l n, names = Some l /\ In n l /\ forall m, ~ means n m.
Proof. exact c44_fails. Qed.
Print Assumptions C44_fails.

Example C44_names_ex :
  resolve_skill_names (Some ["dev"; "user"; "contributor"]%string) false false = Ok ["adctoolbox-contributor-guide"; "adctoolbox-user-guide"]%string /\
  resolve_skill_names (Some ["dev"; "usr"]%string) false false = Err ValueError.
Proof. exact c44_names_ex. Qed.

(** Without --force nothing that existed before is changed, at any point of an interrupted or
    partly failing run. *)
Theorem C45_no_clobber :
  forall src src_path names dev all dest editable t t' q,
  crash_state (fst (install_bundled_skills src src_path names dev all dest false editable t)) t t' -> lookup q t <> None -> stat t' q = stat t q.
Proof. exact c45_no_clobber. Qed.
Print Assumptions C45_no_clobber.

(** With or without --force, only the requested targets change, apart from creating the missing
    directories of the destination path. *)
Theorem C45_only_targets :
  forall src src_path names dev all dest overwrite editable t t' q l,
  resolve_skill_names names dev all = Ok l -> crash_state (fst (install_bundled_skills src src_path names dev all dest overwrite editable t)) t t' ->
  (forall n, In n l -> ~ prefix_of (dest ++ [n]) q) -> ~ (prefix_of q dest /\ lookup q t = None) -> stat t' q = stat t q.
Proof. exact c45_only_targets. Qed.
Print Assumptions C45_only_targets.

(** An unknown name is reported before anything is touched. *)
Theorem C45_unknown_untouched :
  forall src src_path names dev all dest overwrite editable t e,
  resolve_skill_names names dev all = Err e -> install_bundled_skills src src_path names dev all dest overwrite editable t = ([], Err e).
Proof. exact c45_unknown_untouched. Qed.
Print Assumptions C45_unknown_untouched.

(** Without --force, with the bundled directories present: the outcome is decided by what is at
    the destination, its ancestors and the requested targets. *)
Theorem C45_outcome :
  forall src src_path names dev all dest l editable t,
  resolve_skill_names names dev all = Ok l -> (forall n, In n l -> editable = true \/ exists es, src n = Some (TDir es)) ->
  let outcome := snd (install_bundled_skills src src_path names dev all dest false editable t) in
  ((exists q, strictly_above q dest /\ blocked t q) -> outcome = Err OSError) /\
  (blocked t dest -> outcome = Err FileExistsError) /\
  ((exists n, In n l /\ lookup (dest ++ [n]) t <> None) -> outcome = Err FileExistsError) /\
  (~ blocked t dest -> (forall q, strictly_above q dest -> ~ blocked t q) -> (forall n, In n l -> lookup (dest ++ [n]) t = None) ->
     outcome = Ok (map (fun n => dest ++ [n]) l)).
Proof. exact c45_outcome. Qed.
Print Assumptions C45_outcome.

(** A successful install returns the target paths, and each then holds exactly the bundled tree
    (or, with --editable, a link to it). *)
Theorem C46_installed_content :
  forall src src_path names dev all dest l overwrite editable t ps,
  resolve_skill_names names dev all = Ok l -> (forall n s, In n l -> src n = Some s -> plain s) ->
  snd (install_bundled_skills src src_path names dev all dest overwrite editable t) = Ok ps ->
  ps = map (fun n => dest ++ [n]) l /\
  forall n, In n l -> lookup (dest ++ [n]) (run (fst (install_bundled_skills src src_path names dev all dest overwrite editable t)) t) = if editable then Some (TLink (src_path n)) else src n.
Proof. exact c46_installed_content. Qed.
Print Assumptions C46_installed_content.

(** After a successful install, the status of the same request shows every skill installed and
    synced, in the mode that was asked for. *)
Theorem C46_synced :
  forall src src_path resolve names dev all dest l overwrite editable t ps,
  resolve_skill_names names dev all = Ok l -> (forall n s, In n l -> src n = Some s -> plain s) ->
  snd (install_bundled_skills src src_path names dev all dest overwrite editable t) = Ok ps ->
  skill_status src src_path resolve names dev all dest (run (fst (install_bundled_skills src src_path names dev all dest overwrite editable t)) t) =
  Ok (map (fun n => mkRow n true (if editable then EditableLink else Copy) true) l).
Proof. exact c46_synced. Qed.
Print Assumptions C46_synced.

(** A row says installed exactly when something is there; a missing target is never synced. *)
Theorem C46_row :
  forall src src_path resolve dest t n row,
  status_of src src_path resolve dest t n = Ok row ->
  s_name row = n /\ (s_installed row = true <-> lookup (dest ++ [n]) t <> None) /\ (s_mode row = Missing <-> lookup (dest ++ [n]) t = None) /\
  (s_synced row = true -> s_mode row = Copy \/ s_mode row = EditableLink) /\ (s_mode row = Copy <-> is_dir t (dest ++ [n])).
Proof. exact c46_row. Qed.
Print Assumptions C46_row.

(** What "synced" means in a row: a link must resolve to where the bundled skill resolves, a copy must compare
    equal to the bundled directory; a plain file is reported as such and never synced. *)
Theorem C46_row_synced :
  forall src src_path resolve dest t n row,
  status_of src src_path resolve dest t n = Ok row ->
  (s_mode row = EditableLink <-> exists d, lookup (dest ++ [n]) t = Some (TLink d)) /\
  (s_mode row = NonDirectory <-> exists c, lookup (dest ++ [n]) t = Some (TFile c)) /\
  (forall d, lookup (dest ++ [n]) t = Some (TLink d) -> (s_synced row = true <-> resolve d = resolve (src_path n))) /\
  (forall l, lookup (dest ++ [n]) t = Some (TDir l) -> exists s, src n = Some s /\ s_synced row = dirs_equal s (TDir l)).
Proof. exact c46_row_synced. Qed.
Print Assumptions C46_row_synced.

(** A bundled directory that is missing cannot be compared with an installed copy. *)
Theorem C46_missing_source :
  forall src src_path resolve dest t n,
  (exists e, status_of src src_path resolve dest t n = Err e) <-> is_dir t (dest ++ [n]) /\ src n = None.
Proof. exact c46_missing_source. Qed.
Print Assumptions C46_missing_source.

(** The comparison used for "synced" is exactly agreement where filecmp looks. *)
Theorem C73_synced_meaning :
  forall a b,
  plain a -> plain b -> is_dir a [] -> is_dir b [] -> dirs_equal a b = true <-> agree a b.
Proof. exact c73_synced_meaning. Qed.
Print Assumptions C73_synced_meaning.

(** If moreover neither side uses a skipped name and no path is a file on one side and a directory
    on the other, then agreement is equality of everything visible. *)
Theorem C73_synced_identical :
  forall a b,
  plain a -> plain b -> is_dir a [] -> is_dir b [] ->
  (forall q, (lookup q a <> None \/ lookup q b <> None) -> compared_path q) -> (forall q, is_dir a q -> lookup q b <> None -> is_dir b q) -> (forall q, is_dir b q -> lookup q a <> None -> is_dir a q) ->
  dirs_equal a b = true <-> forall q, stat a q = stat b q.
Proof. exact c73_synced_identical. Qed.
Print Assumptions C73_synced_identical.

(** "synced" can be reported for a copy that differs: a skipped directory name is not compared,
    and neither is a path that is a file on one side and a directory on the other. *)
Theorem C73_synced_identical_refuted :
  exists src t1 t2 dest n,
  (exists row, status_of src (fun _ => []) (fun p => p) dest t1 n = Ok row /\ s_synced row = true) /\
  (exists row, status_of src (fun _ => []) (fun p => p) dest t2 n = Ok row /\ s_synced row = true) /\
  (exists s, src n = Some s /\ plain s /\ plain t1 /\ plain t2 /\
     (exists q, stat s q <> stat t1 (dest ++ n :: q) /\ stat s q <> None) /\ (exists q, stat s q <> stat t2 (dest ++ n :: q) /\ stat s q <> None)).
Proof. exact c73_synced_identical_refuted. Qed.
Print Assumptions C73_synced_identical_refuted.

(** --list and --status never change anything, and no destination is a usage error. *)
Theorem C74_read_only :
  forall src src_path resolve a t,
  a_list a = true \/ a_status a = true \/ a_dest a = None -> fst (main src src_path resolve a t) = [].
Proof. exact c74_read_only. Qed.
Print Assumptions C74_read_only.

Theorem C74_no_dest :
  forall src src_path resolve a t,
  a_list a = false -> a_dest a = None -> snd (main src src_path resolve a t) = Err SystemExit.
Proof. exact c74_no_dest. Qed.
Print Assumptions C74_no_dest.

(** An install request exits 0 exactly when all skills were installed, 1 on an unknown name or an
    existing target; an unknown name leaves the file system alone. *)
Theorem C74_install_exit :
  forall src src_path resolve a t dest,
  a_list a = false -> a_status a = false -> a_dest a = Some dest ->
  let r := install_bundled_skills src src_path (Some (a_skills a)) (a_dev a) (a_all a) dest (a_force a) (a_editable a) t in
  fst (main src src_path resolve a t) = fst r /\
  (snd (main src src_path resolve a t) = Ok 0%Z <-> exists ps, snd r = Ok ps) /\
  (snd (main src src_path resolve a t) = Ok 1%Z <-> snd r = Err ValueError \/ snd r = Err FileExistsError) /\
  (snd r = Err ValueError -> fst r = []).
Proof. exact c74_install_exit. Qed.
Print Assumptions C74_install_exit.

(** --status does not turn an unknown name into an exit code: the ValueError escapes. *)
Theorem C74_status_exit_refuted :
  forall src src_path resolve dest t,
  exists a, a_status a = true /\ a_dest a = Some dest /\ snd (main src src_path resolve a t) = Err ValueError /\
  snd (main src src_path resolve (mkArgs (a_skills a) false false (a_dev a) (a_all a) (a_dest a) (a_force a) (a_editable a)) t) = Ok 1%Z.
Proof. exact c74_status_exit_refuted. Qed.
Print Assumptions C74_status_exit_refuted.

(** An install that fails can leave some of the requested skills installed. *)
Theorem C75_atomic_refuted :
  exists src t dest n1 n2, let r := install_bundled_skills src (fun _ => []) None true false dest false false t in
  plain t /\ snd r = Err FileExistsError /\ n1 <> n2 /\ lookup (dest ++ [n1]) t = None /\ lookup (dest ++ [n1]) (run (fst r) t) = src n1 /\ src n1 <> None /\ lookup (dest ++ [n2]) t <> None.
Proof. exact c75_atomic_refuted. Qed.
Print Assumptions C75_atomic_refuted.

(** With --force the old copy is deleted before the new one is known to be available: a missing
    bundled directory leaves neither. *)
Theorem C75_force_keeps_old_refuted :
  exists src t dest, let r := install_bundled_skills src (fun _ => []) None false false dest true false t in
  plain t /\ snd r = Err FileNotFoundError /\ lookup (dest ++ [user_guide]) t <> None /\ lookup (dest ++ [user_guide]) (run (fst r) t) = None.
Proof. exact c75_force_keeps_old_refuted. Qed.
Print Assumptions C75_force_keeps_old_refuted.

(** What does hold: with every bundled directory present, no target in the way and a usable
    destination, the complete request is installed. *)
Theorem C75_complete_when_clear :
  forall src src_path names dev all dest l editable t,
  resolve_skill_names names dev all = Ok l -> (forall n, In n l -> exists es, src n = Some (TDir es) /\ plain (TDir es)) ->
  ~ blocked t dest -> (forall q, strictly_above q dest -> ~ blocked t q) -> (forall n, In n l -> lookup (dest ++ [n]) t = None) ->
  let r := install_bundled_skills src src_path names dev all dest false editable t in
  (exists ps, snd r = Ok ps) /\ forall n, In n l -> lookup (dest ++ [n]) (run (fst r) t) = if editable then Some (TLink (src_path n)) else src n.
Proof. exact c75_complete_when_clear. Qed.
Print Assumptions C75_complete_when_clear.

(** The copier refuses when the destination exists or the examples are missing, without touching
    anything. *)
Theorem C53_refuses :
  forall ex dest t,
  ex = None \/ lookup dest t <> None -> copy_examples ex dest t = ([], Err SystemExit).
Proof. exact c53_refuses. Qed.
Print Assumptions C53_refuses.

(** It succeeds exactly when the destination is free and no ancestor is in the way. *)
Theorem C53_succeeds :
  forall ex dest t,
  snd (copy_examples ex dest t) = Ok tt <-> ex <> None /\ lookup dest t = None /\ forall q, strictly_above q dest -> ~ blocked t q.
Proof. exact c53_succeeds. Qed.
Print Assumptions C53_succeeds.

(** After success the destination is the bundled tree without the left-out names: it has exactly
    the paths of the bundled tree that avoid them, with the same kind and content. *)
Theorem C53_content :
  forall ex e dest t q,
  ex = Some e -> plain e -> snd (copy_examples ex dest t) = Ok tt ->
  let t' := run (fst (copy_examples ex dest t)) t in
  (Forall (fun n => ~ left_out n) q -> stat t' (dest ++ q) = stat e q) /\ (Exists left_out q -> stat t' (dest ++ q) = None).
Proof. exact c53_content. Qed.
Print Assumptions C53_content.

(** Whatever happens, nothing that existed before is changed, at any point. *)
Theorem C53_no_clobber :
  forall ex dest t t' q,
  crash_state (fst (copy_examples ex dest t)) t t' -> lookup q t <> None -> stat t' q = stat t q.
Proof. exact c53_no_clobber. Qed.
Print Assumptions C53_no_clobber.

(** ** Examples *)
Example C73_synced_meaning_ex :
  dirs_equal (TDir [("a", TFile "1"); ("b", TDir [("c", TFile "2")])]%string) (TDir [("b", TDir [("c", TFile "2")]); ("a", TFile "1")]%string) = true /\
  dirs_equal (TDir [("a", TFile "1"); ("b", TDir [("c", TFile "2")])]%string) (TDir [("b", TDir [("c", TFile "3")]); ("a", TFile "1")]%string) = false /\
  dirs_equal (TDir [("a", TFile "1")]%string) (TDir [("a", TFile "1"); ("extra", TFile "")]%string) = false.
Proof. exact c73_synced_meaning_ex. Qed.

(** Installing the default skill into a missing directory below home. *)
Example C45_no_clobber_ex :
  let r := install_bundled_skills ex_src (fun _ => []) None false false ["home"; "skills"]%string false false ex_fs in
  snd r = Ok [["home"; "skills"; "adctoolbox-user-guide"]%string] /\ List.length (fst r) = 7%nat /\
  run (fst r) ex_fs = TDir [("home", TDir [("notes.txt", TFile "keep"); ("skills", TDir [("adctoolbox-user-guide", TDir [("SKILL.md", TFile "guide"); ("ref", TDir [("a.md", TFile "A")])])])]); ("tmp", TFile "x")]%string /\
  run (firstn 3 (fst r)) ex_fs = TDir [("home", TDir [("notes.txt", TFile "keep"); ("skills", TDir [("adctoolbox-user-guide", TDir [("SKILL.md", TFile "")])])]); ("tmp", TFile "x")]%string.
Proof. exact c45_no_clobber_ex. Qed.

Example C45_outcome_ex :
  snd (install_bundled_skills ex_src (fun _ => []) None false false ["tmp"]%string false false ex_fs) = Err FileExistsError /\
  snd (install_bundled_skills ex_src (fun _ => []) None false false ["tmp"; "a"]%string false false ex_fs) = Err OSError /\
  (forall t, t = run (fst (install_bundled_skills ex_src (fun _ => []) None false false ["home"]%string false false ex_fs)) ex_fs ->
     snd (install_bundled_skills ex_src (fun _ => []) None false false ["home"]%string false false t) = Err FileExistsError /\
     snd (install_bundled_skills ex_src (fun _ => []) None false false ["home"]%string true false t) = Ok [["home"; "adctoolbox-user-guide"]%string]).
Proof. exact c45_outcome_ex. Qed.

Example C46_synced_ex :
  skill_status ex_src (fun _ => []) (fun p => p) None false false ["home"]%string ex_fs = Ok [mkRow user_guide false Missing false] /\
  skill_status ex_src (fun _ => []) (fun p => p) None false false ["home"]%string (run (fst (install_bundled_skills ex_src (fun _ => []) None false false ["home"]%string false false ex_fs)) ex_fs) = Ok [mkRow user_guide true Copy true] /\
  skill_status ex_src (fun _ => []) (fun p => p) None false false ["home"]%string (TDir [("home", TDir [(user_guide, TDir [("SKILL.md", TFile "old"); ("ref", TDir [])])])]%string) = Ok [mkRow user_guide true Copy false].
Proof. exact c46_synced_ex. Qed.

Example C74_install_exit_ex :
  snd (main ex_src (fun _ => []) (fun p => p) (mkArgs ["user"%string] false false false false (Some ["home"%string]) false false) ex_fs) = Ok 0%Z /\
  snd (main ex_src (fun _ => []) (fun p => p) (mkArgs ["usr"%string] false false false false (Some ["home"%string]) false false) ex_fs) = Ok 1%Z /\
  snd (main ex_src (fun _ => []) (fun p => p) (mkArgs ["user"%string] false false false false (Some ["tmp"%string; "a"%string]) false false) ex_fs) = Err OSError.
Proof. exact c74_install_exit_ex. Qed.

Example C75_complete_when_clear_ex :
  let r := install_bundled_skills ex_src (fun _ => ["src"]%string) None true false ["home"]%string false true ex_fs in
  snd r = Ok [["home"; "adctoolbox-user-guide"]; ["home"; "adctoolbox-contributor-guide"]]%string /\
  lookup ["home"; "adctoolbox-contributor-guide"]%string (run (fst r) ex_fs) = Some (TLink ["src"]%string).
Proof. exact c75_complete_when_clear_ex. Qed.

Example C53_content_ex :
  let r := copy_examples (Some (TDir [("01", TDir [("a.py", TFile "pass"); ("__pycache__", TDir [("a.pyc", TFile "z")])]); ("b.pyc", TFile "z")]%string)) ["home"; "ex"]%string ex_fs in
  snd r = Ok tt /\ run (fst r) ex_fs = TDir [("home", TDir [("notes.txt", TFile "keep"); ("ex", TDir [("01", TDir [("a.py", TFile "pass")])])]); ("tmp", TFile "x")]%string.
Proof. exact c53_content_ex. Qed.
