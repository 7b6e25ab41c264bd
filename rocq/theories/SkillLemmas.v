(** * Algebra of the file-system model. *)
From Verif Require Import Base BaseLemmas SkillModel SkillSpec.
From Coq Require Import String.
Local Open Scope list_scope.

Section TreeInd.
  Context (P : tree -> Prop) (HF : forall c, P (TFile c)) (HL : forall d, P (TLink d)) (HD : forall l, Forall (fun e => P (snd e)) l -> P (TDir l)).
  Fixpoint tree_ind' (t : tree) : P t :=
    match t with
    | TFile c => HF c
    | TLink d => HL d
    | TDir l => HD l ((fix go (l : list (string * tree)) : Forall (fun e => P (snd e)) l :=
                         match l with [] => Forall_nil _ | e :: r => Forall_cons e (tree_ind' (snd e)) (go r) end) l)
    end.
End TreeInd.

Lemma aget_aset_same n v l : aget n (aset n v l) = Some v.
Proof. induction l as [|[m t] l IH]; simpl; [now rewrite String.eqb_refl|]. destruct (String.eqb n m) eqn:E; simpl; rewrite E; auto. Qed.
Lemma aget_aset_other n m v l : n <> m -> aget n (aset m v l) = aget n l.
Proof.
  intro H. induction l as [|[k t] l IH]; simpl; [destruct (String.eqb_spec n m); congruence|].
  destruct (String.eqb_spec m k) as [E|E]; simpl; [subst; destruct (String.eqb_spec n k); congruence|]. destruct (String.eqb n k); auto.
Qed.
Lemma aget_adel_same n l : aget n (adel n l) = None.
Proof. induction l as [|[m t] l IH]; simpl; auto. destruct (String.eqb_spec n m) as [E|E]; simpl; auto. destruct (String.eqb_spec n m); congruence. Qed.
Lemma aget_adel_other n m l : n <> m -> aget n (adel m l) = aget n l.
Proof.
  intro H. induction l as [|[k t] l IH]; simpl; auto.
  destruct (String.eqb_spec m k) as [E|E]; simpl; [subst; destruct (String.eqb_spec n k); congruence|]. destruct (String.eqb n k); auto.
Qed.
Lemma aset_aset n v w l : aset n v (aset n w l) = aset n v l.
Proof. induction l as [|[m t] l IH]; simpl; [now rewrite String.eqb_refl|]. destruct (String.eqb n m) eqn:E; simpl; rewrite E; f_equal; auto. Qed.
Lemma adel_aset n w l : adel n (aset n w l) = adel n l.
Proof. induction l as [|[m t] l IH]; simpl; [now rewrite String.eqb_refl|]. destruct (String.eqb n m) eqn:E; simpl; rewrite E; simpl; f_equal; auto. Qed.
Lemma aset_new n v l : ~ In n (map fst l) -> aset n v l = l ++ [(n, v)].
Proof. induction l as [|[m t] l IH]; simpl; auto. intro H. destruct (String.eqb_spec n m) as [->|E]; [exfalso; auto|]. f_equal; apply IH; auto. Qed.
Lemma aget_in n l : aget n l <> None <-> In n (map fst l).
Proof.
  induction l as [|[m t] l IH]; simpl; [tauto|]. destruct (String.eqb_spec n m) as [->|E]; [split; auto; discriminate|].
  rewrite IH; split; auto. intros [H|H]; congruence.
Qed.
Lemma aget_nodup n t l : NoDup (map fst l) -> In (n, t) l -> aget n l = Some t.
Proof.
  induction l as [|[m u] l IH]; simpl; [tauto|]. intros D [H|H]; inversion D; subst.
  - injection H as -> ->. now rewrite String.eqb_refl.
  - destruct (String.eqb_spec n m) as [->|E]; [exfalso; apply H2; apply in_map_iff; exists (m, t); auto|auto].
Qed.
Lemma aget_in_pair n t l : aget n l = Some t -> In (n, t) l.
Proof. induction l as [|[m u] l IH]; simpl; [discriminate|]. destruct (String.eqb_spec n m) as [->|E]; [intro H; left; congruence|auto]. Qed.

(** ** lookup and put *)
Lemma lookup_app p q t : lookup (p ++ q) t = match lookup p t with Some c => lookup q c | None => None end.
Proof. revert t; induction p as [|n p IH]; intro t; simpl; auto. destruct t; auto. destruct (aget n entries); auto. Qed.
Lemma put_cons2 n m p v t : put (n :: m :: p) v t = match t with TDir l => match aget n l with Some c => TDir (aset n (put (m :: p) v c) l) | None => t end | _ => t end.
Proof. reflexivity. Qed.
Lemma put_cons1 n v t : put [n] v t = match t with TDir l => TDir (match v with Some x => aset n x l | None => adel n l end) | _ => t end.
Proof. reflexivity. Qed.
(** What an observer sees changes only at and below the path written. *)
Lemma stat_put p v t q : p = [] \/ ~ prefix_of p q -> stat (put p v t) q = stat t q.
Proof.
  intros [-> | H]; [reflexivity|]. revert t q H; induction p as [|n p IH]; intros t q H; [reflexivity|].
  destruct t as [c|l|d]; try reflexivity. destruct q as [|m q].
  - unfold stat; simpl. destruct p as [|k p]; [destruct v; reflexivity|]. destruct (aget n l); reflexivity.
  - destruct p as [|k p].
    + assert (m <> n) by (intros ->; apply H; exists q; reflexivity). rewrite put_cons1. unfold stat; simpl.
      destruct v; [rewrite aget_aset_other by auto|rewrite aget_adel_other by auto]; reflexivity.
    + rewrite put_cons2. destruct (aget n l) as [c|] eqn:E; [|reflexivity]. unfold stat; simpl.
      destruct (string_dec m n) as [->|N]; [|rewrite aget_aset_other by auto; reflexivity].
      rewrite aget_aset_same, E. apply (IH c q). intros [r Hr]; apply H; exists r; rewrite Hr; reflexivity.
Qed.
Lemma lookup_put_other p v t q : ~ prefix_of p q -> ~ prefix_of q p -> lookup q (put p v t) = lookup q t.
Proof.
  revert t q; induction p as [|n p IH]; intros t q H1 H2; [exfalso; apply H1; exists q; reflexivity|].
  destruct t as [c|l|d]; try reflexivity. destruct q as [|m q]; [exfalso; apply H2; exists (n :: p); reflexivity|].
  destruct p as [|k p].
  - assert (m <> n) by (intros ->; apply H1; exists q; reflexivity). rewrite put_cons1. simpl.
    destruct v; [rewrite aget_aset_other by auto|rewrite aget_adel_other by auto]; reflexivity.
  - rewrite put_cons2. destruct (aget n l) as [c|] eqn:E; [|reflexivity]. simpl.
    destruct (string_dec m n) as [->|N]; [|rewrite aget_aset_other by auto; reflexivity].
    rewrite aget_aset_same, E. apply (IH c q); [intros [r Hr]; apply H1|intros [r Hr]; apply H2]; exists r; rewrite Hr; reflexivity.
Qed.
(** The parent of a path is a directory. *)
Definition parent_ok (t : tree) (p : path) : Prop := exists d n l, p = d ++ [n] /\ lookup d t = Some (TDir l).
Lemma parent_ok_cons2 t n m p : parent_ok t (n :: m :: p) <-> exists l c, t = TDir l /\ aget n l = Some c /\ parent_ok c (m :: p).
Proof.
  split.
  - intros (d & k & l & E & L). destruct d as [|x d]; [discriminate|]. injection E as <- E. simpl in L.
    destruct t as [|es|]; try discriminate. destruct (aget n es) as [c|] eqn:A; [|discriminate]. exists es, c; repeat split; auto. now exists d, k, l.
  - intros (l & c & -> & A & d & k & l' & E & L). exists (n :: d), k, l'; split; [simpl; congruence|]. simpl; rewrite A; exact L.
Qed.
Lemma parent_ok_1 t n : parent_ok t [n] <-> exists l, t = TDir l.
Proof.
  split.
  - intros (d & k & l & E & L). destruct d as [|x [|y d]]; try discriminate. injection L as ->. eauto.
  - intros [l ->]. exists [], n, l; auto.
Qed.
Lemma parent_ok_snoc t d n : parent_ok t (d ++ [n]) <-> is_dir t d.
Proof.
  split.
  - intros (d' & n' & l & E & L). apply app_inj_tail in E as [-> ->]. now exists l.
  - intros [l L]. now exists d, n, l.
Qed.
Lemma lookup_put_same p v t : parent_ok t p -> lookup p (put p v t) = v.
Proof.
  revert t; induction p as [|n p IH]; intros t H; [destruct H as (d & k & l & E & _); destruct d; discriminate|].
  destruct p as [|m p].
  - apply parent_ok_1 in H as [l ->]. rewrite put_cons1. simpl. destruct v; [rewrite aget_aset_same; reflexivity|rewrite aget_adel_same; reflexivity].
  - apply parent_ok_cons2 in H as (l & c & -> & A & H). rewrite put_cons2, A. cbn [lookup]. rewrite aget_aset_same. apply IH, H.
Qed.
(** A later write at p hides every earlier write below it. *)
Lemma put_absorb n p r v w t : r <> [] -> put (n :: p) v (put ((n :: p) ++ r) w t) = put (n :: p) v t.
Proof.
  intro Hr. revert n t; induction p as [|m p IH]; intros n t.
  - destruct r as [|k r]; [congruence|]. change ([n] ++ k :: r) with (n :: k :: r). rewrite put_cons2. destruct t as [c|l|d]; try reflexivity.
    destruct (aget n l); [|reflexivity]. rewrite !put_cons1. destruct v; [rewrite aset_aset|rewrite adel_aset]; reflexivity.
  - change ((n :: m :: p) ++ r) with (n :: m :: (p ++ r)). rewrite (put_cons2 n m (p ++ r)). destruct t as [c|l|d]; try reflexivity.
    destruct (aget n l) as [c|] eqn:A; [|reflexivity]. rewrite !put_cons2, A, aget_aset_same, aset_aset.
    change (m :: p ++ r) with ((m :: p) ++ r). rewrite IH. reflexivity.
Qed.
Lemma put_some_same n p v w t : put (n :: p) (Some v) (put (n :: p) (Some w) t) = put (n :: p) (Some v) t.
Proof.
  revert n t; induction p as [|m p IH]; intros n t.
  - rewrite !put_cons1. destruct t; try reflexivity. now rewrite aset_aset.
  - rewrite (put_cons2 n m p (Some w)). destruct t as [c|l|d]; try reflexivity. destruct (aget n l) as [c|] eqn:A; [|reflexivity].
    rewrite !put_cons2, A, aget_aset_same, aset_aset, IH. reflexivity.
Qed.
Lemma put_some_none n p v t : put (n :: p) None (put (n :: p) (Some v) t) = put (n :: p) None t.
Proof.
  revert n t; induction p as [|m p IH]; intros n t.
  - rewrite !put_cons1. destruct t; try reflexivity. now rewrite adel_aset.
  - rewrite (put_cons2 n m p (Some v)). destruct t as [c|l|d]; try reflexivity. destruct (aget n l) as [c|] eqn:A; [|reflexivity].
    rewrite !put_cons2, A, aget_aset_same, aset_aset, IH. reflexivity.
Qed.
Lemma put_child p n c l t : parent_ok t p -> put (p ++ [n]) (Some c) (put p (Some (TDir l)) t) = put p (Some (TDir (aset n c l))) t.
Proof.
  revert t; induction p as [|m p IH]; intros t H; [destruct H as (d & k & l' & E & _); destruct d; discriminate|].
  destruct p as [|k p].
  - apply parent_ok_1 in H as [es ->]. change ([m] ++ [n]) with [m; n]. rewrite !put_cons1, put_cons2, aget_aset_same, put_cons1, aset_aset. reflexivity.
  - apply parent_ok_cons2 in H as (es & d & -> & A & H). change ((m :: k :: p) ++ [n]) with (m :: k :: (p ++ [n])).
    rewrite !put_cons2, A, aget_aset_same, aset_aset. change (k :: p ++ [n]) with ((k :: p) ++ [n]). rewrite IH by exact H. reflexivity.
Qed.

(** ** Step lists *)
Definition step_path (s : step) : path := match s with SMkdir p | SCreate p | SWrite p _ | SLink p _ | SRemove p => p end.
Definition step_val (s : step) : option tree := match s with SMkdir p => Some (TDir []) | SCreate p => Some (TFile "") | SWrite p c => Some (TFile c) | SLink p d => Some (TLink d) | SRemove p => None end.
Lemma do_step_put s t : do_step s t = put (step_path s) (step_val s) t.
Proof. destruct s; reflexivity. Qed.
Lemma run_app a b t : run (a ++ b) t = run b (run a t).
Proof. unfold run; apply fold_left_app. Qed.
Lemma run_cons s a t : run (s :: a) t = run a (do_step s t).
Proof. reflexivity. Qed.
Lemma run_stat ss t q : Forall (fun s => step_path s = [] \/ ~ prefix_of (step_path s) q) ss -> stat (run ss t) q = stat t q.
Proof. intro H. revert t; induction H as [|s ss Hs H IH]; intro t; [reflexivity|]. rewrite run_cons, IH, do_step_put. now apply stat_put. Qed.
Lemma run_lookup_other ss t q : Forall (fun s => ~ prefix_of (step_path s) q /\ ~ prefix_of q (step_path s)) ss -> lookup q (run ss t) = lookup q t.
Proof. intro H. revert t; induction H as [|s ss [H1 H2] H IH]; intro t; [reflexivity|]. rewrite run_cons, IH, do_step_put. now apply lookup_put_other. Qed.
Lemma sub_Forall {A} (P : A -> Prop) a b : sub a b -> Forall P b -> Forall P a.
Proof. induction 1; auto; intro F; inversion F; subst; auto. Qed.
Lemma sub_refl {A} (l : list A) : sub l l.
Proof. induction l; constructor; auto. Qed.
Lemma sub_nil_l {A} (l : list A) : sub [] l.
Proof. induction l; constructor; auto. Qed.
Lemma prefix_refl p : prefix_of p p. Proof. exists []; now rewrite app_nil_r. Qed.
Lemma prefix_trans a b c : prefix_of a b -> prefix_of b c -> prefix_of a c.
Proof. intros [r ->] [s ->]. exists (r ++ s). now rewrite app_assoc. Qed.
Lemma prefix_app p r : prefix_of p (p ++ r). Proof. now exists r. Qed.
Lemma prefix_none p q t : prefix_of p q -> lookup p t = None -> lookup q t = None.
Proof. intros [r ->] H. now rewrite lookup_app, H. Qed.
Lemma prefix_snoc_split p d n : prefix_of p (d ++ [n]) -> p = d ++ [n] \/ prefix_of p d.
Proof.
  intros [r E]. destruct r as [|x r] using rev_ind; [left; rewrite app_nil_r in E; auto|].
  right. rewrite app_assoc in E. apply app_inj_tail in E as [-> _]. apply prefix_app.
Qed.
Lemma stat_none t q : stat t q = None <-> lookup q t = None.
Proof. unfold stat. destruct (lookup q t); simpl; split; congruence. Qed.
Lemma stat_dir t q : stat t q = Some KDir <-> is_dir t q.
Proof.
  unfold stat, is_dir. destruct (lookup q t) as [[c|l|d]|]; simpl; split; try congruence; try (intros [l' H]; congruence); eauto.
Qed.

(** ** What the step lists do *)
Lemma copy_steps_dir l p : copy_steps (TDir l) p = SMkdir p :: flat_map (fun e => copy_steps (snd e) (p ++ [fst e])) l.
Proof. simpl. f_equal. induction l as [|[n t] l IH]; simpl; auto. now rewrite IH. Qed.
Lemma remove_steps_dir l p : remove_steps (TDir l) p = flat_map (fun e => remove_steps (snd e) (p ++ [fst e])) l ++ [SRemove p].
Proof. simpl. f_equal. induction l as [|[n t] l IH]; simpl; auto. now rewrite IH. Qed.
Lemma copy_under src : forall p, Forall (fun s => prefix_of p (step_path s)) (copy_steps src p).
Proof.
  induction src as [c|d|l IH] using tree_ind'; intro p; [repeat constructor; apply prefix_refl|constructor|].
  rewrite copy_steps_dir. constructor; [apply prefix_refl|]. induction IH as [|[n t] l H _ IH]; simpl; [constructor|].
  apply Forall_app; split; [|exact IH]. eapply Forall_impl; [|apply (H (p ++ [n]))]. intros s Hs. eapply prefix_trans; [apply prefix_app|exact Hs].
Qed.
Lemma remove_under src : forall p, Forall (fun s => prefix_of p (step_path s)) (remove_steps src p).
Proof.
  induction src as [c|d|l IH] using tree_ind'; intro p; [repeat constructor; apply prefix_refl..|].
  rewrite remove_steps_dir. apply Forall_app; split; [|repeat constructor; apply prefix_refl]. induction IH as [|[n t] l H _ IH]; simpl; [constructor|].
  apply Forall_app; split; [|exact IH]. eapply Forall_impl; [|apply (H (p ++ [n]))]. intros s Hs. eapply prefix_trans; [apply prefix_app|exact Hs].
Qed.
Lemma run_absorb n p v ss t : Forall (fun s => exists r, r <> [] /\ step_path s = (n :: p) ++ r) ss -> put (n :: p) v (run ss t) = put (n :: p) v t.
Proof. intro H. revert t; induction H as [|s ss (r & Hr & E) H IH]; intro t; [reflexivity|]. rewrite run_cons, IH, do_step_put, E. now apply put_absorb. Qed.
(** Removing a tree deletes its node and nothing else. *)
Lemma remove_run src n p t : run (remove_steps src (n :: p)) t = put (n :: p) None t.
Proof.
  destruct src as [c|l|d]; try reflexivity. rewrite remove_steps_dir, run_app. unfold run at 1. cbn [fold_left]. rewrite do_step_put. cbn [step_path step_val].
  apply run_absorb. apply Forall_forall. intros s Hs. apply in_flat_map in Hs as ([m c] & _ & Hs). cbn [fst snd] in Hs.
  destruct (proj1 (Forall_forall _ _) (remove_under c _) s Hs) as [r E]. exists ([m] ++ r). split; [discriminate|]. now rewrite E, app_assoc.
Qed.
(** Copying a plain tree writes exactly that tree. *)
Lemma copy_run src : plain src -> forall p t, parent_ok t p -> run (copy_steps src p) t = put p (Some src) t.
Proof.
  induction src as [c|d|l IH] using tree_ind'; intros HP p t Hp.
  - unfold run; simpl. destruct p as [|n p]; [reflexivity|]. apply put_some_same.
  - inversion HP.
  - inversion HP as [|l' ND FP]; subst. rewrite copy_steps_dir, run_cons. cbn [do_step].
    assert (G : forall done todo, done ++ todo = l -> run (flat_map (fun e => copy_steps (snd e) (p ++ [fst e])) todo) (put p (Some (TDir done)) t) = put p (Some (TDir l)) t).
    { intros done todo; revert done; induction todo as [|[n c] todo IHt]; intros done E.
      - rewrite app_nil_r in E; subst; reflexivity.
      - cbn [flat_map fst snd]. rewrite run_app.
        assert (In (n, c) l) by (rewrite <- E; apply in_or_app; right; left; reflexivity).
        rewrite (proj1 (Forall_forall _ _) IH (n, c) H (proj1 (Forall_forall _ _) FP (n, c) H)).
        + rewrite put_child by exact Hp. rewrite aset_new.
          * apply IHt. now rewrite <- app_assoc.
          * rewrite <- E, map_app in ND. simpl in ND. apply NoDup_remove_2 in ND. intro I; apply ND, in_or_app; now left.
        + apply parent_ok_snoc. exists done. now apply lookup_put_same. }
    apply (G [] l). reflexivity.
Qed.
(** Path.mkdir creates the missing directories and nothing else. *)
Lemma mkdir_sound p : forall pre cur t ss, cur = lookup pre t -> mkdir_steps pre p cur = Ok ss ->
  Forall (fun s => exists q, s = SMkdir q /\ prefix_of pre q /\ prefix_of q (pre ++ p) /\ lookup q t = None) ss.
Proof.
  induction p as [|n p IH]; intros pre cur t ss E H; simpl in H.
  - destruct cur as [[c|l|d]|]; try discriminate; apply (f_equal (fun r => match r with Ok x => x | Err _ => [] end)) in H; subst ss; constructor; auto.
    exists pre. rewrite app_nil_r. repeat split; auto using prefix_refl.
  - destruct cur as [[c|l|d]|]; try discriminate.
    + specialize (IH (pre ++ [n]) (aget n l) t ss). rewrite lookup_app, <- E in IH. simpl in IH.
      assert (Q : aget n l = match aget n l with Some c => Some c | None => None end) by (destruct (aget n l); reflexivity).
      specialize (IH Q H). eapply Forall_impl; [|exact IH]. intros s (q & -> & P1 & P2 & L). exists q; repeat split; auto.
      * eapply prefix_trans; [apply prefix_app|exact P1].
      * now rewrite <- app_assoc in P2.
    + destruct (mkdir_steps (pre ++ [n]) p None) as [r|e] eqn:M; [|discriminate]. simpl in H. injection H as <-.
      assert (N : lookup (pre ++ [n]) t = None) by (rewrite lookup_app, <- E; reflexivity).
      constructor; [exists pre; repeat split; auto using prefix_refl, prefix_app|].
      eapply Forall_impl; [|apply (IH (pre ++ [n]) None t r (eq_sym N) M)]. intros s (q & -> & P1 & P2 & L). exists q; repeat split; auto.
      * eapply prefix_trans; [apply prefix_app|exact P1].
      * now rewrite <- app_assoc in P2.
Qed.
(** Below a freshly created chain there is nothing. *)
Lemma mkdir_none_run p : forall pre t ss, parent_ok t pre -> mkdir_steps pre p None = Ok ss -> exists c, run ss t = put pre (Some c) t /\ lookup p c = Some (TDir []).
Proof.
  induction p as [|n p IH]; intros pre t ss Hp H; simpl in H.
  - injection H as <-. exists (TDir []). split; reflexivity.
  - destruct (mkdir_steps (pre ++ [n]) p None) as [r|e] eqn:M; [|discriminate]. simpl in H. injection H as <-. rewrite run_cons. cbn [do_step].
    destruct (IH (pre ++ [n]) (put pre (Some (TDir [])) t) r) as (c & R & L); auto.
    { apply parent_ok_snoc. exists []. now apply lookup_put_same. }
    exists (TDir (aset n c [])). split; [rewrite R; now apply put_child|]. simpl. now rewrite String.eqb_refl.
Qed.
Lemma mkdir_run p : forall pre t ss, (pre <> [] -> parent_ok t pre) -> (pre = [] -> lookup pre t <> None) -> mkdir_steps pre p (lookup pre t) = Ok ss ->
  (ss = [] /\ is_dir t (pre ++ p)) \/ (lookup (pre ++ p) t = None /\ lookup (pre ++ p) (run ss t) = Some (TDir [])).
Proof.
  induction p as [|n p IH]; intros pre t ss Hp H0 H.
  - rewrite app_nil_r. simpl in H. destruct (lookup pre t) as [[c|l|d]|] eqn:L; try discriminate; injection H as <-.
    + left; split; auto. now exists l.
    + right; split; auto. cbn [run fold_left do_step]. unfold run; simpl. destruct pre; [simpl in L; discriminate|]. apply lookup_put_same, Hp; discriminate.
  - assert (A : pre ++ n :: p = (pre ++ [n]) ++ p) by now rewrite <- app_assoc. rewrite A.
    destruct (lookup pre t) as [[c|l|d]|] eqn:L; try (simpl in H; discriminate).
    + simpl in H. assert (L2 : lookup (pre ++ [n]) t = aget n l) by (rewrite lookup_app, L; simpl; destruct (aget n l); reflexivity).
      rewrite <- L2 in H. apply IH; auto.
      * intros _. apply parent_ok_snoc. now exists l.
      * intro E; destruct pre; discriminate.
    + right. rewrite <- A. assert (N : pre <> []) by (intros ->; apply H0; auto).
      split; [rewrite lookup_app, L; reflexivity|].
      destruct (mkdir_none_run (n :: p) pre t ss (Hp N) H) as (c & R & Lc). rewrite R, lookup_app, lookup_put_same by auto. exact Lc.
Qed.
