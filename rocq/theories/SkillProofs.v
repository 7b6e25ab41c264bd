(** * Proofs about the skill installer and the example copier. *)
From Verif Require Import Base BaseLemmas SkillModel SkillSpec SkillLemmas.
From Coq Require Import String.
Local Open Scope list_scope.

(** ** C44 *)
Lemma mem_in s l : mem s l = true <-> In s l.
Proof. unfold mem. rewrite existsb_exists. split; [intros (x & H & E); apply String.eqb_eq in E; congruence|intro H; exists s; rewrite String.eqb_refl; auto]. Qed.
Lemma mem_notin s l : mem s l = false <-> ~ In s l.
Proof. rewrite <- mem_in. destruct (mem s l); split; congruence. Qed.
Lemma means_alias n m : means n m -> alias n = m /\ mem m AVAILABLE_SKILLS = true.
Proof. destruct 1; split; reflexivity. Qed.
Lemma alias_means n : mem (alias n) AVAILABLE_SKILLS = true -> means n (alias n).
Proof.
  unfold alias.
  repeat match goal with |- context [String.eqb n ?s] => destruct (String.eqb_spec n s) as [->|]; [intros _; constructor|] end.
  intro H. apply mem_in in H. simpl in H. unfold user_guide, contributor_guide in H. intuition congruence.
Qed.
Lemma resolve_loop_spec names : forall acc seen, first_mentions seen acc ->
  (exists ms l, Forall2 means names ms /\ resolve_loop names acc = Ok l /\ first_mentions (seen ++ ms) l) \/
  ((exists n, In n names /\ forall m, ~ means n m) /\ resolve_loop names acc = Err ValueError).
Proof.
  induction names as [|n names IH]; intros acc seen I; cbn [resolve_loop].
  - left. exists [], acc. rewrite app_nil_r. auto.
  - destruct (mem (alias n) AVAILABLE_SKILLS) eqn:A; cbn [negb].
    + pose proof (alias_means _ A) as M.
      destruct (IH (if mem (alias n) acc then acc else acc ++ [alias n]) (seen ++ [alias n])) as [(ms & l & F & R & I') | [(k & K & N) R]].
      * destruct I as (I1 & I2 & I3). destruct (mem (alias n) acc) eqn:Q; [apply mem_in in Q|apply mem_notin in Q].
        -- split; [auto|split].
           ++ intro m; rewrite I2, in_app_iff; simpl. rewrite I2 in Q. split; [auto|]. intros [H|[<-|[]]]; auto.
           ++ intros x y l1 l2 l3 E. destruct (I3 _ _ _ _ _ E) as (pre & post & -> & N). exists pre, (post ++ [alias n]). rewrite <- app_assoc; auto.
        -- split; [|split].
           ++ rewrite <- (rev_involutive (acc ++ [alias n])). apply NoDup_rev. rewrite rev_app_distr. simpl. constructor; [now rewrite <- in_rev|now apply NoDup_rev].
           ++ intro m; rewrite !in_app_iff, I2; tauto.
           ++ intros x y l1 l2 l3 E. destruct l3 as [|z l3] using rev_ind.
              ** assert (E2 : acc ++ [alias n] = (l1 ++ x :: l2) ++ [y]) by (rewrite E, <- app_assoc; reflexivity).
                 apply app_inj_tail in E2 as [E2 E3]. subst y.
                 assert (X : In x acc) by (rewrite E2; apply in_or_app; right; left; reflexivity). rewrite I2 in X.
                 apply in_split in X as (p & q & ->). exists p, (q ++ [alias n]). rewrite <- app_assoc; split; auto.
                 intro Y. apply Q, I2, in_or_app. now left.
              ** clear IHl3. assert (E2 : acc ++ [alias n] = (l1 ++ x :: l2 ++ y :: l3) ++ [z]) by (rewrite E, <- !app_assoc; simpl; rewrite <- !app_assoc; reflexivity).
                 apply app_inj_tail in E2 as [E2 E3]. destruct (I3 _ _ _ _ _ E2) as (pre & post & -> & N). exists pre, (post ++ [alias n]). rewrite <- app_assoc; auto.
      * left. exists (alias n :: ms), l. rewrite <- app_assoc in I'. repeat split; auto; apply I'.
      * right. split; auto. exists k; split; [right; auto|auto].
    + right. split; auto. exists n; split; [left; auto|]. intros m M. apply means_alias in M as [E B]. congruence.
Qed.
Lemma first_mentions_nil : first_mentions [] [].
Proof. split; [constructor|]. split; [tauto|]. intros x y [|? ?] l2 l3 E; discriminate. Qed.
(** --all wins over everything, --dev over names, and an empty request is the default skill. *)
Lemma c44_flags names dev :
  resolve_skill_names names dev true = Ok ["adctoolbox-user-guide"; "adctoolbox-contributor-guide"]%string /\
  resolve_skill_names names true false = Ok ["adctoolbox-user-guide"; "adctoolbox-contributor-guide"]%string /\
  resolve_skill_names None false false = Ok ["adctoolbox-user-guide"]%string /\
  resolve_skill_names (Some []) false false = Ok ["adctoolbox-user-guide"]%string.
Proof. repeat split. Qed.
(** A non-empty request succeeds exactly when every name has a meaning, and then yields the
    meanings without repetition in the order of first mention. *)
Lemma c44_names names l : names <> [] ->
  resolve_skill_names (Some names) false false = Ok l <-> exists ms, Forall2 means names ms /\ first_mentions ms l.
Proof.
  intro H. unfold resolve_skill_names. destruct names as [|n0 ns0]; [congruence|]. set (names := n0 :: ns0).
  destruct (resolve_loop_spec names [] [] first_mentions_nil) as [(ms & l' & F & R & I) | [(k & K & N) R]]; rewrite R.
  - split; [intro E; injection E as <-; eauto|]. intros (ms' & F' & I').
    assert (ms' = ms).
    { clear -F F'. revert ms F; induction F' as [|a b la lb M F' IH]; intros ms F; inversion F; subst; auto. f_equal; auto.
      apply means_alias in M as [<- _]. apply means_alias in H1 as [<- _]. reflexivity. }
    subst ms'. f_equal. clear -I I'. simpl in I.
    (* two duplicate-free lists of first mentions agree *)
    assert (G : forall a b, first_mentions ms (a) -> first_mentions ms b -> forall n, firstn n a = firstn n b).
    { intros a b (A1 & A2 & A3) (B1 & B2 & B3). induction n as [|n IH]; [reflexivity|].
      assert (LE : forall u v, first_mentions ms u -> first_mentions ms v -> List.length u = List.length v).
      { intros u v (U1 & U2 & _) (V1 & V2 & _). apply Nat.le_antisymm; apply NoDup_incl_length; auto; intros m Hm; [apply V2, U2|apply U2, V2]; auto. }
      assert (L : List.length a = List.length b) by (apply LE; split; auto).
      destruct (le_lt_dec (List.length a) n) as [Hn|Hn].
      - rewrite !firstn_all2 by lia. rewrite !firstn_all2 in IH by lia. exact IH.
      - destruct (nth_error a n) as [x|] eqn:NA; [|apply nth_error_None in NA; lia].
        destruct (nth_error b n) as [y|] eqn:NB; [|apply nth_error_None in NB; lia].
        apply nth_error_split in NA as (a1 & a2 & EA & LA). apply nth_error_split in NB as (b1 & b2 & EB & LB).
        assert (FA : firstn n a = a1) by (rewrite EA, firstn_app, LA, Nat.sub_diag, firstn_O, app_nil_r, <- LA; apply firstn_all).
        assert (FB : firstn n b = b1) by (rewrite EB, firstn_app, LB, Nat.sub_diag, firstn_O, app_nil_r, <- LB; apply firstn_all).
        assert (AB : b1 = a1) by congruence. clear FB. subst b1.
        assert (x = y).
        { destruct (string_dec x y) as [E|NE]; auto. exfalso.
          assert (Xb : In x b) by (apply B2, A2; rewrite EA; apply in_or_app; right; left; auto).
          assert (Ya : In y a) by (apply A2, B2; rewrite EB; apply in_or_app; right; left; auto).
          rewrite EB in Xb. rewrite EA in Ya. apply in_app_or in Xb. apply in_app_or in Ya.
          assert (~ In x a1) by (rewrite EA in A1; apply NoDup_remove_2 in A1; intro X1; apply A1, in_or_app; left; exact X1).
          assert (~ In y a1) by (rewrite EB in B1; apply NoDup_remove_2 in B1; intro X1; apply B1, in_or_app; left; exact X1).
          destruct Xb as [|[|Xb]]; [tauto|congruence|]. destruct Ya as [|[|Ya]]; [tauto|congruence|].
          apply in_split in Xb as (c1 & c2 & ->). apply in_split in Ya as (d1 & d2 & ->).
          destruct (B3 y x _ _ _ EB) as (p1 & q1 & E1 & N1). destruct (A3 x y _ _ _ EA) as (p2 & q2 & E2 & N2).
          rewrite E1 in E2. clear -E2 N1 N2 NE. revert p2 E2 N2; induction p1 as [|z p1 IH]; intros p2 E2 N2.
          - destruct p2; injection E2 as -> E2; [congruence|]. apply N2; left; reflexivity.
          - destruct p2 as [|w p2]; injection E2 as -> E2; [apply N1; left; reflexivity|]. apply (IH ltac:(intro; apply N1; right; auto) p2 E2). intro; apply N2; right; auto. }
        subst y. rewrite EA, EB. rewrite !firstn_app, LA. replace (S n - n)%nat with 1%nat by lia. reflexivity. }
    specialize (G l' l I I' (Nat.max (List.length l') (List.length l))). rewrite !firstn_all2 in G by lia. exact G.
  - split; [discriminate|]. intros (ms & F & _). exfalso. clear -F K N. induction F as [|a b la lb M F IH]; [destruct K|]. destruct K as [<-|K]; [exact (N _ M)|auto].
Qed.
(** The only failure is ValueError, exactly when some name of a plain request has no meaning. *)
Lemma c44_fails names dev all e :
  resolve_skill_names names dev all = Err e <-> e = ValueError /\ dev = false /\ all = false /\ exists l n, names = Some l /\ In n l /\ forall m, ~ means n m.
Proof.
  unfold resolve_skill_names. destruct all; [split; [discriminate|intros (_ & _ & ? & _); discriminate]|]. destruct dev; [split; [discriminate|intros (_ & ? & _); discriminate]|].
  destruct names as [[|n0 ns0]|]; [split; [discriminate|intros (_ & _ & _ & l & n & E & I & _); injection E as <-; destruct I]| |split; [discriminate|intros (_ & _ & _ & l & n & E & _); discriminate]].
  set (names := n0 :: ns0).
  destruct (resolve_loop_spec names [] [] first_mentions_nil) as [(ms & l' & F & R & I) | [(k & K & N) R]]; rewrite R.
  - split; [discriminate|]. intros (_ & _ & _ & l & n & E & K & N). injection E as <-. exfalso.
    revert K N. clear -F. induction F as [|a b la lb M F IH]; intros K N; [destruct K|]. destruct K as [<-|K]; [exact (N _ M)|auto].
  - split; [intro E; injection E as <-; eauto 10|]. intros (-> & _); reflexivity.
Qed.
Lemma c44_names_ex :
  resolve_skill_names (Some ["dev"; "user"; "contributor"]%string) false false = Ok ["adctoolbox-contributor-guide"; "adctoolbox-user-guide"]%string /\
  resolve_skill_names (Some ["dev"; "usr"]%string) false false = Err ValueError.
Proof. split; reflexivity. Qed.
Lemma resolve_nodup names dev all l : resolve_skill_names names dev all = Ok l -> NoDup l /\ l <> [] /\ forall n, In n l -> bundled n.
Proof.
  assert (B : NoDup AVAILABLE_SKILLS) by (constructor; [intros [H|[]]; discriminate|constructor; [intros []|constructor]]).
  assert (B2 : forall n, In n AVAILABLE_SKILLS -> bundled n) by (intros n [H|[H|[]]]; subst; [left|right]; reflexivity).
  unfold resolve_skill_names. destruct all; [intro H; injection H as <-; repeat split; auto; discriminate|]. destruct dev; [intro H; injection H as <-; repeat split; auto; discriminate|].
  assert (D : NoDup DEFAULT_SKILLS /\ DEFAULT_SKILLS <> [] /\ forall n, In n DEFAULT_SKILLS -> bundled n).
  { repeat split; [constructor; [intros []|constructor]|discriminate|]. intros n [H|[]]; subst; left; reflexivity. }
  destruct names as [[|n0 ns0]|]; [intro H; injection H as <-; exact D| |intro H; injection H as <-; exact D].
  set (names := n0 :: ns0). destruct (resolve_loop_spec names [] [] first_mentions_nil) as [(ms & l' & F & R & I) | [_ R]]; rewrite R; intro H; [injection H as <-|discriminate].
  destruct I as (I1 & I2 & _). simpl in I2. split; auto. inversion F; subst. split.
  - intros ->. apply (I2 y). left; reflexivity.
  - intros n Hn. apply I2 in Hn. clear -F Hn. induction F as [|a b la lb M F IH]; [destruct Hn|]. destruct Hn as [<-|Hn]; [|auto]. destruct M; [left|left|left|right..]; reflexivity.
Qed.

(** ** C45 *)
Lemma snoc_prefix_inj root n m q : prefix_of (root ++ [n]) q -> prefix_of (root ++ [m]) q -> n = m.
Proof.
  intros [r ->] [s E]. rewrite <- !app_assoc in E. apply app_inv_head in E. simpl in E. congruence.
Qed.
Lemma target_not_prefix_root root n : ~ prefix_of (root ++ [n]) root.
Proof. intros [r E]. apply (f_equal (@List.length _)) in E. rewrite !app_length in E. simpl in E. lia. Qed.
Section Install.
  Context (src : string -> option tree) (src_path : string -> path) (root : path) (overwrite editable : bool).
  Notation loop := (install_loop src src_path root overwrite editable).
  Notation target n := (root ++ [n]).
  (** What one iteration writes, if it gets that far. *)
  Definition make_steps (n : string) : result (list step) :=
    if editable then Ok [SLink (target n) (src_path n)]
    else match src n with Some (TDir l) => Ok (copy_steps (TDir l) (target n)) | Some _ => Err OSError | None => Err FileNotFoundError end.
  Definition clear_steps (n : string) (t : tree) : list step := match lookup (target n) t with Some old => remove_steps old (target n) | None => [] end.
  Lemma loop_cons n rest t :
    loop (n :: rest) t =
    match lookup (target n) t, overwrite with
    | Some _, false => ([], Err FileExistsError)
    | _, _ => match make_steps n with
              | Err e => (clear_steps n t, Err e)
              | Ok mk => let ss := clear_steps n t ++ mk in let r := loop rest (run ss t) in (ss ++ fst r, match snd r with Ok ps => Ok (target n :: ps) | Err e => Err e end)
              end
    end.
  Proof. cbn [install_loop]. unfold make_steps, clear_steps. destruct (lookup (target n) t), overwrite, editable; try reflexivity; destruct (src n) as [[| |]|]; reflexivity. Qed.
  Lemma make_under n mk : make_steps n = Ok mk -> Forall (fun s => prefix_of (target n) (step_path s)) mk.
  Proof.
    unfold make_steps. destruct editable; [intro H; injection H as <-; repeat constructor; apply prefix_refl|].
    destruct (src n) as [[| |]|]; try discriminate. intro H; apply (f_equal (fun r => match r with Ok x => x | Err _ => [] end)) in H; subst mk. apply (copy_under (TDir entries)).
  Qed.
  Lemma clear_under n t : Forall (fun s => prefix_of (target n) (step_path s)) (clear_steps n t).
  Proof. unfold clear_steps. destruct (lookup (target n) t); [apply remove_under|constructor]. Qed.
  Lemma loop_touch names : forall t, Forall (fun s => exists n, In n names /\ prefix_of (target n) (step_path s)) (fst (loop names t)).
  Proof.
    induction names as [|n names IH]; intro t; [constructor|]. rewrite loop_cons.
    assert (C : forall ss, Forall (fun s => prefix_of (target n) (step_path s)) ss -> Forall (fun s => exists m, In m (n :: names) /\ prefix_of (target m) (step_path s)) ss).
    { intros ss H. eapply Forall_impl; [|exact H]. intros s P. exists n; split; [left|]; auto. }
    assert (G : Forall (fun s => exists m, In m (n :: names) /\ prefix_of (target m) (step_path s))
      (fst (match make_steps n with Err e => (clear_steps n t, Err e)
            | Ok mk => let ss := clear_steps n t ++ mk in let r := loop names (run ss t) in (ss ++ fst r, match snd r with Ok ps => Ok (target n :: ps) | Err e => Err e end) end))).
    { destruct (make_steps n) as [mk|e] eqn:M; cbn zeta; cbn [fst]; [|apply C, clear_under].
      apply Forall_app; split; [apply C, Forall_app; split; [apply clear_under|apply make_under, M]|].
      eapply Forall_impl; [|apply IH]. intros s (m & I & P). exists m; split; [right|]; auto. }
    destruct (lookup (target n) t); [destruct overwrite; [exact G|constructor]|exact G].
  Qed.
  (** Targets of other skills are untouched. *)
  Lemma other_target ss n m t : n <> m -> Forall (fun s => prefix_of (target n) (step_path s)) ss -> lookup (target m) (run ss t) = lookup (target m) t.
  Proof.
    intros NE F. apply run_lookup_other. eapply Forall_impl; [|exact F]. intros s' P'. split; intro Q; apply NE.
    - apply (snoc_prefix_inj root n m (target m)); [eapply prefix_trans; [exact P'|exact Q]|apply prefix_refl].
    - apply (snoc_prefix_inj root n m (step_path s')); [exact P'|exact Q].
  Qed.
  Lemma loop_fresh names : overwrite = false -> forall t, Forall (fun s => exists n, In n names /\ lookup (target n) t = None /\ prefix_of (target n) (step_path s)) (fst (loop names t)).
  Proof.
    intro O. induction names as [|n names IH]; intro t; [constructor|]. rewrite loop_cons. rewrite O in IH. rewrite O. destruct (lookup (target n) t) as [old|] eqn:L; [constructor|].
    unfold clear_steps; rewrite L. destruct (make_steps n) as [mk|e] eqn:M; [|constructor]. cbn [app fst]. cbn zeta. cbn [fst].
    pose proof (make_under _ _ M) as MU. apply Forall_app; split.
    - eapply Forall_impl; [|exact MU]. intros s P. exists n; repeat split; auto. left; auto.
    - eapply Forall_impl; [|apply IH]. intros s (m & I & Lm & P). exists m; repeat split; auto; [right; auto|].
      destruct (string_dec n m) as [->|NE]; auto. rewrite <- Lm. symmetry. now apply (other_target mk n).
  Qed.
  Lemma root_stays ss n t : is_dir t root -> Forall (fun s => prefix_of (target n) (step_path s)) ss -> is_dir (run ss t) root.
  Proof.
    intros D F. apply stat_dir. rewrite run_stat; [now apply stat_dir|]. eapply Forall_impl; [|exact F]. intros s P. right. intro Q.
    apply (target_not_prefix_root root n). eapply prefix_trans; [exact P|exact Q].
  Qed.
  Lemma loop_result names : overwrite = false -> NoDup names -> (forall n, In n names -> editable = true \/ exists l, src n = Some (TDir l)) -> forall t,
    ((exists n, In n names /\ lookup (target n) t <> None) -> snd (loop names t) = Err FileExistsError) /\
    ((forall n, In n names -> lookup (target n) t = None) -> snd (loop names t) = Ok (map (fun n => target n) names)).
  Proof.
    intros O ND HS. induction names as [|n names IH]; intro t; [split; [intros (n & [] & _)|reflexivity]|].
    apply NoDup_cons_iff in ND as [NI ND']. specialize (IH ND' (fun m Hm => HS m (or_intror Hm))). rewrite loop_cons. rewrite O in IH. rewrite O.
    destruct (lookup (target n) t) as [old|] eqn:L.
    - split; [reflexivity|]. intro A. rewrite A in L by (left; auto). discriminate.
    - unfold clear_steps; rewrite L. cbn [app].
      assert (M : exists mk, make_steps n = Ok mk) by (unfold make_steps; destruct (HS n (or_introl eq_refl)) as [-> | [l ->]]; [eauto|destruct editable; eauto]).
      destruct M as [mk M]. rewrite M. cbn zeta. cbn [snd]. destruct (IH (run mk t)) as [I1 I2].
      assert (S : forall m, In m names -> lookup (target m) (run mk t) = lookup (target m) t).
      { intros m Hm. apply (other_target mk n); [intros ->; contradiction|]. now apply make_under. }
      split.
      + intros (m & [<-|Hm] & Q); [congruence|]. rewrite I1; [reflexivity|]. exists m; rewrite S; auto.
      + intro A. rewrite I2; [reflexivity|]. intros m Hm. rewrite S by auto. apply A; right; auto.
  Qed.
  Definition installed_tree (n : string) : option tree := if editable then Some (TLink (src_path n)) else src n.
  Lemma remove_run' old p t : p <> [] -> run (remove_steps old p) t = put p None t.
  Proof. destruct p; [congruence|]. intros _. apply remove_run. Qed.
  Lemma one_install n t mk : is_dir t root -> (forall s, src n = Some s -> plain s) -> make_steps n = Ok mk ->
    lookup (target n) (run (clear_steps n t ++ mk) t) = installed_tree n.
  Proof.
    intros D HP M. rewrite run_app. set (t1 := run (clear_steps n t) t).
    assert (D1 : parent_ok t1 (target n)) by (apply parent_ok_snoc, (root_stays _ n); auto; apply clear_under).
    unfold make_steps in M. unfold installed_tree. destruct editable.
    - injection M as <-. unfold run; cbn [fold_left do_step]. now apply lookup_put_same.
    - destruct (src n) as [[c|l|d]|] eqn:Sn; try discriminate. apply (f_equal (fun r => match r with Ok x => x | Err _ => [] end)) in M. rewrite <- M.
      rewrite copy_run; auto. now apply lookup_put_same.
  Qed.
  Lemma loop_ok names : NoDup names -> (forall n s, In n names -> src n = Some s -> plain s) -> forall t ps, is_dir t root -> snd (loop names t) = Ok ps ->
    ps = map (fun n => target n) names /\ (forall n, In n names -> lookup (target n) (run (fst (loop names t)) t) = installed_tree n) /\
    (forall n, In n names -> editable = false -> exists l, src n = Some (TDir l)).
  Proof.
    intros ND HP. induction names as [|n names IH]; intros t ps D H; [injection H as <-; repeat split; intros n []|].
    apply NoDup_cons_iff in ND as [NI ND']. specialize (IH ND' (fun m s Hm => HP m s (or_intror Hm))). rewrite loop_cons in *.
    assert (X : match lookup (target n) t, overwrite with Some _, false => false | _, _ => true end = true) by (destruct (lookup (target n) t), overwrite; try reflexivity; discriminate).
    assert (Y : forall A (a b : A), match lookup (target n) t, overwrite with Some _, false => a | _, _ => b end = b) by (intros; destruct (lookup (target n) t), overwrite; try reflexivity; discriminate).
    rewrite Y in *. destruct (make_steps n) as [mk|e] eqn:M; [|discriminate]. cbn zeta in *. cbn [fst snd] in *.
    set (ss := clear_steps n t ++ mk) in *.
    assert (U : Forall (fun s => prefix_of (target n) (step_path s)) ss) by (apply Forall_app; split; [apply clear_under|now apply make_under]).
    destruct (snd (loop names (run ss t))) as [ps'|e] eqn:R; [|discriminate]. injection H as <-.
    destruct (IH (run ss t) ps') as (E1 & E2 & E3); auto. { now apply (root_stays ss n). }
    split; [simpl; congruence|]. split.
    - intros m [<-|Hm]; [|rewrite run_app; auto]. rewrite run_app. rewrite run_lookup_other.
      + apply one_install; auto. intros s Hs. eapply HP; eauto. left; auto.
      + eapply Forall_impl; [|apply loop_touch]. intros s (m & Hm & P). assert (NE : m <> n) by congruence. split; intro Q; apply NE.
        * apply (snoc_prefix_inj root m n (target n)); [eapply prefix_trans; [exact P|exact Q]|apply prefix_refl].
        * apply (snoc_prefix_inj root m n (step_path s)); [exact P|exact Q].
    - intros m [<-|Hm] Ed; [|auto]. unfold make_steps in M. rewrite Ed in M. destruct (src n) as [[| |]|]; try discriminate. eauto.
  Qed.
  Lemma loop_no_value names : forall t, snd (loop names t) <> Err ValueError.
  Proof.
    induction names as [|n names IH]; intro t; [discriminate|]. rewrite loop_cons.
    assert (MV : make_steps n <> Err ValueError) by (unfold make_steps; destruct editable; [discriminate|destruct (src n) as [[| |]|]; discriminate]).
    assert (G : snd (match make_steps n with Err e => (clear_steps n t, Err e)
       | Ok mk => let ss := clear_steps n t ++ mk in let r := loop names (run ss t) in (ss ++ fst r, match snd r with Ok ps => Ok (target n :: ps) | Err e => Err e end) end) <> Err ValueError).
    { destruct (make_steps n) as [mk|e]; cbn zeta; cbn [snd]; [|intro X; apply MV; congruence].
      specialize (IH (run (clear_steps n t ++ mk) t)). destruct (snd (loop names (run (clear_steps n t ++ mk) t))); [discriminate|intro X; apply IH; congruence]. }
    destruct (lookup (target n) t); [destruct overwrite; [exact G|discriminate]|exact G].
  Qed.
End Install.

Lemma leaf_put p v t q : q <> p -> lookup q t = None -> (forall n r, match v with Some x => lookup (n :: r) x = None | None => True end) -> lookup q (put p v t) = None.
Proof.
  intros H L HV. revert t q H L; induction p as [|n p IH]; intros t q H L; [exact L|].
  destruct t as [c|l|d]; try exact L. destruct q as [|m q]; [discriminate|].
  destruct p as [|k p].
  - rewrite put_cons1. simpl in L |- *. destruct (string_dec m n) as [->|N].
    + destruct v as [x|]; [rewrite aget_aset_same|rewrite aget_adel_same; reflexivity]. destruct q as [|y q]; [congruence|]. apply (HV y q).
    + destruct v; [rewrite aget_aset_other by auto|rewrite aget_adel_other by auto]; exact L.
  - rewrite put_cons2. destruct (aget n l) as [c|] eqn:A; [|exact L]. simpl in L |- *. destruct (string_dec m n) as [->|N]; [|rewrite aget_aset_other by auto; exact L].
    rewrite aget_aset_same. rewrite A in L. apply IH; auto. congruence.
Qed.
Lemma run_none ss t q : Forall (fun s => step_path s <> q) ss -> lookup q t = None -> lookup q (run ss t) = None.
Proof.
  intro F. revert t; induction F as [|s ss Hs F IH]; intros t L; [exact L|]. rewrite run_cons. apply IH. rewrite do_step_put. apply leaf_put; auto.
  intros n r. destruct s; simpl; auto.
Qed.
Section InstallAll.
  Context (src : string -> option tree) (src_path : string -> path) (names : option (list string)) (dev all : bool) (dest : path).
  Notation install ov ed := (install_bundled_skills src src_path names dev all dest ov ed).
  (** Without --force nothing that existed before is changed, at any point of an interrupted or
      partly failing run. *)
  Lemma s45_no_clobber editable t t' q : crash_state (fst (install false editable t)) t t' -> lookup q t <> None -> stat t' q = stat t q.
  Proof.
    intros (ss & S & ->) L. apply run_stat. eapply sub_Forall; [exact S|]. clear S. unfold install_bundled_skills.
    destruct (resolve_skill_names names dev all) as [l|e]; [|constructor]. destruct (mkdir_steps [] dest (Some t)) as [mk|e] eqn:M; [|constructor]. cbn [fst].
    pose proof (mkdir_sound dest [] (Some t) t mk eq_refl M) as MS.
    assert (MF : Forall (fun s => step_path s = [] \/ ~ prefix_of (step_path s) q) mk).
    { eapply Forall_impl; [|exact MS]. intros s (p & -> & _ & _ & N). right. intro P. apply L. eapply prefix_none; eauto. }
    apply Forall_app; split; [exact MF|].
    eapply Forall_impl; [|apply (loop_fresh src src_path dest false editable l eq_refl (run mk t))].
    intros s (n & _ & N & P). right. intro Q. assert (R : prefix_of (dest ++ [n]) q) by (eapply prefix_trans; [exact P|exact Q]).
    apply L. rewrite <- stat_none. rewrite <- (run_stat mk t q MF). apply stat_none. eapply prefix_none; eauto.
  Qed.
  (** With or without --force, only the requested targets change, apart from creating the missing
      directories of the destination path. *)
  Lemma s45_only_targets overwrite editable t t' q l : resolve_skill_names names dev all = Ok l -> crash_state (fst (install overwrite editable t)) t t' ->
    (forall n, In n l -> ~ prefix_of (dest ++ [n]) q) -> ~ (prefix_of q dest /\ lookup q t = None) -> stat t' q = stat t q.
  Proof.
    intros E (ss & S & ->) NT NP. unfold install_bundled_skills in S. rewrite E in S. destruct (mkdir_steps [] dest (Some t)) as [mk|e] eqn:M; [|inversion S; reflexivity]. cbn [fst] in S.
    pose proof (mkdir_sound dest [] (Some t) t mk eq_refl M) as MS.
    pose proof (loop_touch src src_path dest overwrite editable l (run mk t)) as LT.
    destruct (lookup q t) as [x|] eqn:L.
    - apply run_stat. eapply sub_Forall; [exact S|]. apply Forall_app; split.
      + eapply Forall_impl; [|exact MS]. intros s (p & -> & _ & _ & N). right. intro P. rewrite (prefix_none _ _ _ P N) in L. discriminate.
      + eapply Forall_impl; [|exact LT]. intros s (n & I & P). right. intro Q. apply (NT n I). eapply prefix_trans; [exact P|exact Q].
    - transitivity (@None kind); [|symmetry; now apply stat_none]. apply stat_none. apply run_none; auto. eapply sub_Forall; [exact S|]. apply Forall_app; split.
      + eapply Forall_impl; [|exact MS]. intros s (p & -> & _ & P & N) Q. simpl in Q; subst p. apply NP; auto.
      + eapply Forall_impl; [|exact LT]. intros s (n & I & P) Q. subst q. apply (NT n I P).
  Qed.
End InstallAll.
(** Without --force nothing that existed before is changed, at any point of an interrupted or
    partly failing run. *)
Lemma c45_no_clobber src src_path names dev all dest editable t t' q :
  crash_state (fst (install_bundled_skills src src_path names dev all dest false editable t)) t t' -> lookup q t <> None -> stat t' q = stat t q.
Proof. apply s45_no_clobber. Qed.
(** With or without --force, only the requested targets change, apart from creating the missing
    directories of the destination path. *)
Lemma c45_only_targets src src_path names dev all dest overwrite editable t t' q l :
  resolve_skill_names names dev all = Ok l -> crash_state (fst (install_bundled_skills src src_path names dev all dest overwrite editable t)) t t' ->
  (forall n, In n l -> ~ prefix_of (dest ++ [n]) q) -> ~ (prefix_of q dest /\ lookup q t = None) -> stat t' q = stat t q.
Proof. apply s45_only_targets. Qed.
(** An unknown name is reported before anything is touched. *)
Lemma c45_unknown_untouched src src_path names dev all dest overwrite editable t e :
  resolve_skill_names names dev all = Err e -> install_bundled_skills src src_path names dev all dest overwrite editable t = ([], Err e).
Proof. unfold install_bundled_skills. now intros ->. Qed.
Lemma mkdir_err p : forall pre t, (blocked t (pre ++ p) -> mkdir_steps pre p (lookup pre t) = Err FileExistsError) /\
  ((exists q n r, p = q ++ n :: r /\ blocked t (pre ++ q)) -> mkdir_steps pre p (lookup pre t) = Err OSError) /\
  (~ blocked t (pre ++ p) -> (forall q n r, p = q ++ n :: r -> ~ blocked t (pre ++ q)) -> exists ss, mkdir_steps pre p (lookup pre t) = Ok ss).
Proof.
  induction p as [|n p IH]; intros pre t.
  - rewrite app_nil_r. simpl. split; [|split].
    + intros (x & L & N). rewrite L. destruct x; auto. exfalso; apply (N entries); auto.
    + intros ([|? ?] & n & r & E & _); discriminate.
    + intros NB _. destruct (lookup pre t) as [[c|l|d]|] eqn:L; eauto; exfalso; apply NB; eexists; split; eauto; discriminate.
  - assert (A : pre ++ n :: p = (pre ++ [n]) ++ p) by now rewrite <- app_assoc.
    assert (ST : forall l, lookup pre t = Some (TDir l) -> mkdir_steps pre (n :: p) (lookup pre t) = mkdir_steps (pre ++ [n]) p (lookup (pre ++ [n]) t)).
    { intros l L. rewrite lookup_app, L. simpl. destruct (aget n l); reflexivity. }
    assert (NN : forall p' pre', exists ss, mkdir_steps pre' p' None = Ok ss).
    { induction p' as [|k p' IHp]; intro pre'; simpl; eauto. destruct (IHp (pre' ++ [k])) as [ss ->]. simpl; eauto. }
    destruct (IH (pre ++ [n]) t) as (I1 & I2 & I3). split; [|split].
    + rewrite A. intros B. destruct B as (x & L & N). destruct (lookup pre t) as [[c|l|d]|] eqn:P;
        try (exfalso; rewrite <- A, lookup_app, P in L; simpl in L; discriminate). rewrite (ST l eq_refl). apply I1. exists x; auto.
    + intros (q & m & r & E & B). destruct q as [|k q].
      * rewrite app_nil_r in B. destruct B as (x & L & N). rewrite L. destruct x; try reflexivity. exfalso; apply (N entries); auto.
      * injection E as <- E. assert (A2 : pre ++ n :: q = (pre ++ [n]) ++ q) by now rewrite <- app_assoc. destruct (lookup pre t) as [[c|l|d]|] eqn:P.
        -- reflexivity.
        -- rewrite (ST l eq_refl). apply I2. exists q, m, r; split; auto. now rewrite <- A2.
        -- reflexivity.
        -- exfalso. destruct B as (x & L & _). rewrite lookup_app, P in L. discriminate.
    + intros NB NA. destruct (lookup pre t) as [[c|l|d]|] eqn:P.
      * exfalso. apply (NA [] n p eq_refl). rewrite app_nil_r. exists (TFile c); split; auto; discriminate.
      * rewrite (ST l eq_refl). apply I3; [now rewrite <- A|]. intros q m r E B. apply (NA (n :: q) m r); [simpl; congruence|]. rewrite <- app_assoc in B. exact B.
      * exfalso. apply (NA [] n p eq_refl). rewrite app_nil_r. exists (TLink d); split; auto; discriminate.
      * apply NN.
Qed.
Section Outcome.
  Context (src : string -> option tree) (src_path : string -> path) (names : option (list string)) (dev all : bool) (dest : path) (l : list string).
  Notation install ov ed := (install_bundled_skills src src_path names dev all dest ov ed).
  Lemma mkdir_dest t mk : mkdir_steps [] dest (Some t) = Ok mk -> is_dir (run mk t) dest /\ forall n, lookup (dest ++ [n]) (run mk t) = lookup (dest ++ [n]) t.
  Proof.
    intro M. destruct (mkdir_run dest [] t mk) as [[-> D] | [N D]]; [congruence|intros _; discriminate|exact M| |].
    - split; auto.
    - simpl in N, D. split; [now exists []|]. intro n. rewrite !lookup_app, D, N. reflexivity.
  Qed.
  (** Without --force, with the bundled directories present: the outcome is decided by what is at
      the destination, its ancestors and the requested targets. *)
  Lemma s45_outcome editable t : resolve_skill_names names dev all = Ok l -> (forall n, In n l -> editable = true \/ exists es, src n = Some (TDir es)) ->
    ((exists q, strictly_above q dest /\ blocked t q) -> snd (install false editable t) = Err OSError) /\
    (blocked t dest -> snd (install false editable t) = Err FileExistsError) /\
    ((exists n, In n l /\ lookup (dest ++ [n]) t <> None) -> snd (install false editable t) = Err FileExistsError) /\
    (~ blocked t dest -> (forall q, strictly_above q dest -> ~ blocked t q) -> (forall n, In n l -> lookup (dest ++ [n]) t = None) ->
       snd (install false editable t) = Ok (map (fun n => dest ++ [n]) l)).
  Proof.
    intros E HS. destruct (resolve_nodup _ _ _ _ E) as (ND & _ & _). unfold install_bundled_skills. rewrite E.
    destruct (mkdir_err dest [] t) as (E1 & E2 & E3). cbn [lookup] in E1, E2, E3. repeat split.
    - intros (q & (n & r & EQ) & B). rewrite E2; [reflexivity|]. exists q, n, r; auto.
    - intro B. rewrite E1 by exact B. reflexivity.
    - intros (n & I & L). destruct (mkdir_steps [] dest (Some t)) as [mk|e] eqn:M.
      + cbn [snd]. destruct (mkdir_dest t mk M) as [_ Q]. apply (loop_result src src_path dest false editable l eq_refl ND HS). exists n. now rewrite Q.
      + exfalso. destruct E3 as [ss E3]; [| |congruence].
        * intros (x & Lx & N). rewrite lookup_app in L. simpl in Lx. rewrite Lx in L. destruct x as [|es|]; try (apply L; reflexivity). apply (N es); reflexivity.
        * intros q m r EQ (x & Lx & N). simpl in Lx. rewrite EQ, <- app_assoc, lookup_app, Lx in L. destruct x as [|es|]; try (apply L; reflexivity). apply (N es); reflexivity.
    - intros NB NA NT. destruct E3 as [mk M]; auto.
      { intros q m r EQ B. apply (NA q); [exists m, r; auto|exact B]. }
      rewrite M. cbn [snd]. destruct (mkdir_dest t mk M) as [_ Q]. apply (loop_result src src_path dest false editable l eq_refl ND HS). intros n I. rewrite Q; auto.
  Qed.

  (** ** C46 *)
  Lemma install_ok overwrite editable t ps : resolve_skill_names names dev all = Ok l -> (forall n s, In n l -> src n = Some s -> plain s) ->
    snd (install overwrite editable t) = Ok ps ->
    ps = map (fun n => dest ++ [n]) l /\ (forall n, In n l -> lookup (dest ++ [n]) (run (fst (install overwrite editable t)) t) = if editable then Some (TLink (src_path n)) else src n) /\
    (forall n, In n l -> editable = false -> exists es, src n = Some (TDir es)).
  Proof.
    intros E HP. destruct (resolve_nodup _ _ _ _ E) as (ND & _ & _). unfold install_bundled_skills. rewrite E.
    destruct (mkdir_steps [] dest (Some t)) as [mk|e] eqn:M; [|discriminate]. cbn [fst snd]. intro H. destruct (mkdir_dest t mk M) as [D _].
    destruct (loop_ok src src_path dest overwrite editable l ND HP (run mk t) ps D H) as (A & B & C). repeat split; auto.
    intros n I. rewrite run_app. apply (B n I).
  Qed.
  (** A successful install returns the target paths, and each then holds exactly the bundled tree
      (or, with --editable, a link to it). *)
  Lemma s46_installed_content overwrite editable t ps : resolve_skill_names names dev all = Ok l -> (forall n s, In n l -> src n = Some s -> plain s) ->
    snd (install overwrite editable t) = Ok ps ->
    ps = map (fun n => dest ++ [n]) l /\ forall n, In n l -> lookup (dest ++ [n]) (run (fst (install overwrite editable t)) t) = if editable then Some (TLink (src_path n)) else src n.
  Proof. intros E HP H. destruct (install_ok _ _ _ _ E HP H) as (A & B & _). auto. Qed.
End Outcome.
(** Without --force, with the bundled directories present: the outcome is decided by what is at
    the destination, its ancestors and the requested targets. *)
Lemma c45_outcome src src_path names dev all dest l editable t :
  resolve_skill_names names dev all = Ok l -> (forall n, In n l -> editable = true \/ exists es, src n = Some (TDir es)) ->
  let outcome := snd (install_bundled_skills src src_path names dev all dest false editable t) in
  ((exists q, strictly_above q dest /\ blocked t q) -> outcome = Err OSError) /\
  (blocked t dest -> outcome = Err FileExistsError) /\
  ((exists n, In n l /\ lookup (dest ++ [n]) t <> None) -> outcome = Err FileExistsError) /\
  (~ blocked t dest -> (forall q, strictly_above q dest -> ~ blocked t q) -> (forall n, In n l -> lookup (dest ++ [n]) t = None) ->
     outcome = Ok (map (fun n => dest ++ [n]) l)).
Proof. apply s45_outcome. Qed.
(** A successful install returns the target paths, and each then holds exactly the bundled tree
    (or, with --editable, a link to it). *)
Lemma c46_installed_content src src_path names dev all dest l overwrite editable t ps :
  resolve_skill_names names dev all = Ok l -> (forall n s, In n l -> src n = Some s -> plain s) ->
  snd (install_bundled_skills src src_path names dev all dest overwrite editable t) = Ok ps ->
  ps = map (fun n => dest ++ [n]) l /\
  forall n, In n l -> lookup (dest ++ [n]) (run (fst (install_bundled_skills src src_path names dev all dest overwrite editable t)) t) = if editable then Some (TLink (src_path n)) else src n.
Proof. apply s46_installed_content. Qed.
Lemma dirs_equal_dir l r : dirs_equal (TDir l) (TDir r) =
  (forallb (fun e => match aget (fst e) l with Some _ => true | None => false end) (visible r) &&
   forallb (fun e => if mem (fst e) DEFAULT_IGNORES then true
      else match aget (fst e) r with None => false | Some d => match snd e, d with TFile a, TFile b => String.eqb a b | TDir _, TDir _ => dirs_equal (snd e) d | _, _ => true end end) l)%bool.
Proof.
  cbn [dirs_equal]. f_equal. induction l as [|[n c] l IH]; [reflexivity|]. cbn [forallb fst snd]. rewrite <- IH. reflexivity.
Qed.
Lemma dirs_equal_refl t : plain t -> dirs_equal t t = true.
Proof.
  induction t as [c|d|l IH] using tree_ind'; intro HP; try reflexivity. inversion HP as [|l' ND FP]; subst. rewrite dirs_equal_dir. apply andb_true_intro; split.
  - apply forallb_forall. intros [n c] I. apply filter_In in I as [I _]. cbn [fst]. rewrite (aget_nodup _ _ _ ND I). reflexivity.
  - apply forallb_forall. intros [n c] I. cbn [fst snd]. destruct (mem n DEFAULT_IGNORES); auto. rewrite (aget_nodup _ _ _ ND I).
    pose proof (proj1 (Forall_forall _ _) IH _ I (proj1 (Forall_forall _ _) FP _ I)) as Q. cbn [snd] in Q. destruct c; auto. apply String.eqb_refl.
Qed.
Lemma all_ok_map {A B} (f : A -> result B) (g : A -> B) l : (forall x, In x l -> f x = Ok (g x)) -> all_ok f l = Ok (map g l).
Proof. induction l as [|x l IH]; intro H; [reflexivity|]. simpl. rewrite H by (left; auto). simpl. rewrite IH by (intros; apply H; right; auto). reflexivity. Qed.
(** After a successful install, the status of the same request shows every skill installed and
    synced, in the mode that was asked for. *)
Lemma c46_synced src src_path resolve names dev all dest l overwrite editable t ps :
  resolve_skill_names names dev all = Ok l -> (forall n s, In n l -> src n = Some s -> plain s) ->
  snd (install_bundled_skills src src_path names dev all dest overwrite editable t) = Ok ps ->
  skill_status src src_path resolve names dev all dest (run (fst (install_bundled_skills src src_path names dev all dest overwrite editable t)) t) =
  Ok (map (fun n => mkRow n true (if editable then EditableLink else Copy) true) l).
Proof.
  intros E HP H. unfold skill_status. rewrite E. cbn [bind]. destruct (install_ok _ _ _ _ _ _ l _ _ _ _ E HP H) as (_ & B & C).
  apply all_ok_map. intros n I. unfold status_of. rewrite B by auto. destruct editable.
  - unfold path_eqb. destruct (list_eq_dec string_dec _ _); congruence.
  - destruct (C n I eq_refl) as [es Es]. rewrite Es. rewrite dirs_equal_refl; [reflexivity|]. eapply HP; eauto.
Qed.
(** A row says installed exactly when something is there; a missing target is never synced. *)
Lemma c46_row src src_path resolve dest t n row : status_of src src_path resolve dest t n = Ok row ->
  s_name row = n /\ (s_installed row = true <-> lookup (dest ++ [n]) t <> None) /\ (s_mode row = Missing <-> lookup (dest ++ [n]) t = None) /\
  (s_synced row = true -> s_mode row = Copy \/ s_mode row = EditableLink) /\ (s_mode row = Copy <-> is_dir t (dest ++ [n])).
Proof.
  unfold status_of, is_dir. destruct (lookup (dest ++ [n]) t) as [[c|es|d]|]; [| destruct (src n)| |]; intro H; try discriminate; injection H as <-; simpl; repeat split; try congruence; auto;
    try (intros [x X]; congruence); eauto.
Qed.

(** What "synced" means in a row: a link must resolve to where the bundled skill resolves, a copy must compare
    equal to the bundled directory; a plain file is reported as such and never synced. *)
Lemma c46_row_synced src src_path resolve dest t n row : status_of src src_path resolve dest t n = Ok row ->
  (s_mode row = EditableLink <-> exists d, lookup (dest ++ [n]) t = Some (TLink d)) /\
  (s_mode row = NonDirectory <-> exists c, lookup (dest ++ [n]) t = Some (TFile c)) /\
  (forall d, lookup (dest ++ [n]) t = Some (TLink d) -> (s_synced row = true <-> resolve d = resolve (src_path n))) /\
  (forall l, lookup (dest ++ [n]) t = Some (TDir l) -> exists s, src n = Some s /\ s_synced row = dirs_equal s (TDir l)).
Proof.
  unfold status_of. destruct (lookup (dest ++ [n]) t) as [[c|es|d]|]; [| destruct (src n) as [b|] | |]; intro H; try discriminate; injection H as <-; cbn [s_mode s_synced].
  - split; [split; [discriminate | intros [x X]; discriminate X] |]. split; [split; eauto |]. split; intros x X; discriminate X.
  - split; [split; [discriminate | intros [x X]; discriminate X] |]. split; [split; [discriminate | intros [x X]; discriminate X] |]. split; intros x X; [discriminate X |]. injection X as ->. exists b. split; reflexivity.
  - split; [split; eauto |]. split; [split; [discriminate | intros [x X]; discriminate X] |]. split; intros x X; [| discriminate X]. injection X as ->. unfold path_eqb. destruct (list_eq_dec string_dec (resolve x) (resolve (src_path n))); split; auto; try discriminate; contradiction.
  - split; [split; [discriminate | intros [x X]; discriminate X] |]. split; [split; [discriminate | intros [x X]; discriminate X] |]. split; intros x X; discriminate X.
Qed.
(** A bundled directory that is missing cannot be compared with an installed copy. *)
Lemma c46_missing_source src src_path resolve dest t n : (exists e, status_of src src_path resolve dest t n = Err e) <-> is_dir t (dest ++ [n]) /\ src n = None.
Proof.
  unfold status_of, is_dir. destruct (lookup (dest ++ [n]) t) as [[c|es|d]|]; [| destruct (src n) as [b|] | |]; split; try (intros [e E]; discriminate E); try (intros [[l L] Q]; discriminate); eauto.
Qed.

(** ** C73 *)
Lemma lookup_cons n q t : lookup (n :: q) t = match t with TDir l => match aget n l with Some c => lookup q c | None => None end | _ => None end.
Proof. reflexivity. Qed.
Lemma agree_child l r n c d : agree (TDir l) (TDir r) -> ~ In n DEFAULT_IGNORES -> aget n l = Some c -> aget n r = Some d -> (exists x, c = TDir x) -> (exists y, d = TDir y) -> agree c d.
Proof.
  intros A V L R [x ->] [y ->] q m C D. specialize (A (n :: q) m). change ((n :: q) ++ [m]) with (n :: (q ++ [m])) in A. rewrite !lookup_cons, L, R in A. apply A.
  - constructor; auto.
  - intros q' [s Hs]. destruct q' as [|k q']; [split; [now exists l|now exists r]|]. injection Hs as <- Hs. unfold is_dir. rewrite !lookup_cons, L, R. apply D. now exists s.
Qed.
(** The comparison used for "synced" is exactly agreement where filecmp looks. *)
Lemma c73_synced_meaning a b : plain a -> plain b -> is_dir a [] -> is_dir b [] -> dirs_equal a b = true <-> agree a b.
Proof.
  intros PA PB [l0 A0] [r0 B0]. injection A0 as ->. injection B0 as ->. revert r0 PA PB.
  enough (G : forall a, plain a -> forall l, a = TDir l -> forall r, plain (TDir r) -> dirs_equal (TDir l) (TDir r) = true <-> agree (TDir l) (TDir r)) by (intros r PA PB; apply (G (TDir l0) PA l0 eq_refl r PB)).
  clear l0. induction a as [c|d|es IH] using tree_ind'; intros PA l EL r PB; try discriminate. injection EL as ->.
  inversion PA as [|l' ND FP]; subst. inversion PB as [|r' NR FR]; subst. rewrite dirs_equal_dir, andb_true_iff, !forallb_forall.
  assert (VI : forall n, mem n DEFAULT_IGNORES = false <-> ~ In n ["RCS"; "CVS"; "tags"; ".git"; ".hg"; ".bzr"; "_darcs"; "__pycache__"]%string) by (intro n; apply mem_notin).
  split.
  - intros [H1 H2] q n C D. destruct q as [|k q].
    + cbn [app] in *. rewrite !lookup_cons. cbn [lookup]. inversion C as [|x y Cn _]; subst. apply VI in Cn. split.
      * split; intro N.
        -- destruct (aget n l) as [c|] eqn:Gl; [discriminate|]. destruct (aget n r) as [d|] eqn:Gr; [|reflexivity]. exfalso.
           apply aget_in_pair in Gr. specialize (H1 (n, d)). cbn [fst] in H1. rewrite Gl in H1. assert (false = true); [|discriminate]. apply H1. apply filter_In; cbn [fst]; rewrite Cn; auto.
        -- destruct (aget n r) as [d|] eqn:Gr; [discriminate|]. destruct (aget n l) as [c|] eqn:Gl; [|reflexivity]. exfalso.
           apply aget_in_pair in Gl. specialize (H2 (n, c) Gl). cbn [fst snd] in H2. rewrite Cn, Gr in H2. discriminate.
      * intros x y X Y. destruct (aget n l) as [c|] eqn:Gl; [|discriminate]. destruct (aget n r) as [d|] eqn:Gr; [|discriminate]. injection X as ->. injection Y as ->.
        apply aget_in_pair in Gl. specialize (H2 _ Gl). cbn [fst snd] in H2. rewrite Cn, Gr in H2. now apply String.eqb_eq.
    + inversion C as [|x y Cn Cq]; subst. apply VI in Cn. destruct (D [k] ltac:(now exists q)) as [[lc Lc] [rc Rc]]. rewrite lookup_cons in Lc, Rc.
      destruct (aget k l) as [c|] eqn:Gl; [|discriminate]. destruct (aget k r) as [d|] eqn:Gr; [|discriminate]. injection Lc as ->. injection Rc as ->.
      change ((k :: q) ++ [n]) with (k :: (q ++ [n])). rewrite !lookup_cons, Gl, Gr. apply aget_in_pair in Gl as Il. apply aget_in_pair in Gr as Ir.
      pose proof (H2 _ Il) as Q. cbn [fst snd] in Q. rewrite Cn, Gr in Q.
      apply (proj1 (Forall_forall _ _) IH _ Il (proj1 (Forall_forall _ _) FP _ Il) lc eq_refl rc (proj1 (Forall_forall _ _) FR _ Ir)) in Q. apply Q; auto.
      intros q' [s Hs]. destruct (D (k :: q')) as [D1 D2]; [exists s; simpl; congruence|]. unfold is_dir in *. rewrite lookup_cons, Gl in D1. rewrite lookup_cons, Gr in D2. auto.
  - intro A. split.
    + intros [n d] I. apply filter_In in I as [I V]. cbn [fst] in *. apply negb_true_iff in V. apply VI in V. destruct (aget n l) as [c|] eqn:Gl; [reflexivity|]. exfalso.
      destruct (A [] n) as [[A1 _] _]; [constructor; auto|intros q' [s Hs]; destruct q'; [split; eexists; reflexivity|discriminate]|].
      cbn [app] in A1. rewrite !lookup_cons in A1. rewrite Gl, (aget_nodup _ _ _ NR I) in A1. specialize (A1 eq_refl). discriminate.
    + intros [n c] I. cbn [fst snd]. destruct (mem n DEFAULT_IGNORES) eqn:V; [reflexivity|]. apply VI in V. pose proof (aget_nodup _ _ _ ND I) as Gl.
      destruct (A [] n) as [[_ A1] A2]; [constructor; auto|intros q' [s Hs]; destruct q'; [split; eexists; reflexivity|discriminate]|]. cbn [app] in A1, A2. rewrite !lookup_cons, Gl in A1, A2. cbn [lookup] in A1, A2.
      destruct (aget n r) as [d|] eqn:Gr; [|specialize (A1 eq_refl); discriminate].
      destruct c as [x|ls|x], d as [y|rs|y]; auto.
      * apply String.eqb_eq. now apply A2.
      * apply (proj1 (Forall_forall _ _) IH _ I (proj1 (Forall_forall _ _) FP _ I) ls eq_refl rs).
        -- apply aget_in_pair in Gr. exact (proj1 (Forall_forall _ _) FR _ Gr).
        -- eapply agree_child; eauto.
Qed.
(** If moreover neither side uses a skipped name and no path is a file on one side and a directory
    on the other, then agreement is equality of everything visible. *)
Lemma c73_synced_identical a b : plain a -> plain b -> is_dir a [] -> is_dir b [] ->
  (forall q, (lookup q a <> None \/ lookup q b <> None) -> compared_path q) -> (forall q, is_dir a q -> lookup q b <> None -> is_dir b q) -> (forall q, is_dir b q -> lookup q a <> None -> is_dir a q) ->
  dirs_equal a b = true <-> forall q, stat a q = stat b q.
Proof.
  intros PA PB DA DB C K1 K2. rewrite c73_synced_meaning by auto. split.
  - intros A q. induction q as [|n q IH] using rev_ind; [apply stat_dir in DA, DB; congruence|].
    assert (NL : forall p t, plain t -> forall d, lookup p t <> Some (TLink d)).
    { induction p as [|m p IHp]; intros t P d L; [simpl in L; injection L as ->; inversion P|]. rewrite lookup_cons in L. destruct t as [|es|]; try discriminate. destruct (aget m es) as [c|] eqn:G; [|discriminate].
      inversion P as [|? ? F]; subst. apply aget_in_pair in G. apply (IHp c (proj1 (Forall_forall _ _) F _ G) d L). }
    assert (NF : forall t, ~ is_dir t q -> lookup (q ++ [n]) t = None).
    { intros t N. rewrite lookup_app. destruct (lookup q t) as [[x|es|x]|] eqn:L; auto. exfalso; apply N; now exists es. }
    destruct (stat a q) as [k|] eqn:SA.
    2:{ symmetry in IH. apply stat_none in IH, SA. assert (lookup (q ++ [n]) a = None /\ lookup (q ++ [n]) b = None) as [X Y] by (rewrite !lookup_app, IH, SA; auto). apply stat_none in X, Y. congruence. }
    destruct k as [x| |x].
    + assert (lookup (q ++ [n]) a = None /\ lookup (q ++ [n]) b = None) as [X Y].
      { split; apply NF; intro D; apply stat_dir in D; congruence. } apply stat_none in X, Y. congruence.
    + assert (D : forall q', prefix_of q' q -> is_dir a q' /\ is_dir b q').
      { intros q' [s ->]. assert (Da : is_dir a (q' ++ s)) by (apply stat_dir; auto). assert (Db : is_dir b (q' ++ s)) by (apply stat_dir; auto).
        assert (H : forall t, is_dir t (q' ++ s) -> is_dir t q').
        { intros t [es L]. rewrite lookup_app in L. unfold is_dir. destruct (lookup q' t) as [[x|es'|x]|]; try discriminate; [destruct s; discriminate|eauto|destruct s; discriminate]. } auto. }
      destruct (lookup (q ++ [n]) a) as [u|] eqn:U.
      * destruct (A q n) as [[A0 A1] A2]; [apply C; left; congruence|exact D|]. rewrite U in A1, A2. destruct (lookup (q ++ [n]) b) as [v|] eqn:W; [|specialize (A1 eq_refl); discriminate].
        unfold stat. rewrite U, W. simpl. f_equal. pose proof (fun p => NL p _ PA) as NLa. pose proof (fun p => NL p _ PB) as NLb. destruct u as [x|es|x], v as [y|rs|y]; simpl; auto; try (exfalso; eapply NLa; exact U); try (exfalso; eapply NLb; exact W).
        -- f_equal; now apply A2.
        -- exfalso. destruct (K2 (q ++ [n])) as [z Z]; [now exists rs|congruence|congruence].
        -- exfalso. destruct (K1 (q ++ [n])) as [z Z]; [now exists es|congruence|congruence].
      * destruct (lookup (q ++ [n]) b) as [v|] eqn:W; [|apply stat_none in U, W; congruence].
        destruct (A q n) as [[A0 _] _]; [apply C; right; congruence|exact D|]. rewrite W in A0. specialize (A0 U). discriminate.
    + exfalso. unfold stat in SA. destruct (lookup q a) as [[y|y|y]|] eqn:L; try discriminate. eapply (NL _ _ PA); exact L.
  - intros H q n _ _. split; [rewrite <- !stat_none, H; tauto|]. intros x y X Y. specialize (H (q ++ [n])). unfold stat in H. rewrite X, Y in H. simpl in H. congruence.
Qed.
(** "synced" can be reported for a copy that differs: a skipped directory name is not compared,
    and neither is a path that is a file on one side and a directory on the other. *)
Lemma c73_synced_identical_refuted : exists src t1 t2 dest n,
  (exists row, status_of src (fun _ => []) (fun p => p) dest t1 n = Ok row /\ s_synced row = true) /\
  (exists row, status_of src (fun _ => []) (fun p => p) dest t2 n = Ok row /\ s_synced row = true) /\
  (exists s, src n = Some s /\ plain s /\ plain t1 /\ plain t2 /\
     (exists q, stat s q <> stat t1 (dest ++ n :: q) /\ stat s q <> None) /\ (exists q, stat s q <> stat t2 (dest ++ n :: q) /\ stat s q <> None)).
Proof.
  set (s := TDir [("SKILL.md", TFile "guide"); ("tags", TDir [("a.md", TFile "one")])]%string).
  exists (fun _ => Some s), (TDir [("d", TDir [("k", TDir [("SKILL.md", TFile "guide"); ("tags", TDir [("a.md", TFile "two")])])])]%string),
    (TDir [("d", TDir [("k", TDir [("SKILL.md", TDir []); ("tags", TDir [("a.md", TFile "one")])])])]%string), ["d"]%string, "k"%string.
  split; [eexists; split; reflexivity|]. split; [eexists; split; reflexivity|]. exists s. split; [reflexivity|].
  repeat match goal with |- _ /\ _ => split end.
  1-3: repeat (constructor; simpl; try (intros [E|[]]; discriminate); try (intros [])).
  - exists ["tags"; "a.md"]%string. split; discriminate.
  - exists ["SKILL.md"]%string. split; discriminate.
Qed.

(** ** C74 *)
(** --list and --status never change anything, and no destination is a usage error. *)
Lemma c74_read_only src src_path resolve a t : a_list a = true \/ a_status a = true \/ a_dest a = None -> fst (main src src_path resolve a t) = [].
Proof. unfold main. destruct (a_list a); [reflexivity|]. destruct (a_dest a); [|reflexivity]. destruct (a_status a); [reflexivity|]. intros [H|[H|H]]; discriminate. Qed.
Lemma c74_no_dest src src_path resolve a t : a_list a = false -> a_dest a = None -> snd (main src src_path resolve a t) = Err SystemExit.
Proof. unfold main. now intros -> ->. Qed.
(** An install request exits 0 exactly when all skills were installed, 1 on an unknown name or an
    existing target; an unknown name leaves the file system alone. *)
Lemma c74_install_exit src src_path resolve a t dest : a_list a = false -> a_status a = false -> a_dest a = Some dest ->
  let r := install_bundled_skills src src_path (Some (a_skills a)) (a_dev a) (a_all a) dest (a_force a) (a_editable a) t in
  fst (main src src_path resolve a t) = fst r /\
  (snd (main src src_path resolve a t) = Ok 0%Z <-> exists ps, snd r = Ok ps) /\
  (snd (main src src_path resolve a t) = Ok 1%Z <-> snd r = Err ValueError \/ snd r = Err FileExistsError) /\
  (snd r = Err ValueError -> fst r = []).
Proof.
  intros H1 H2 H3 r. unfold main. rewrite H1, H2, H3. fold r. cbn [fst snd]. split; [reflexivity|]. split; [|split].
  - destruct (snd r) as [ps|[]]; split; try discriminate; eauto; intros [? ?]; discriminate.
  - destruct (snd r) as [ps|[]]; split; try discriminate; auto; intros [?|?]; discriminate.
  - unfold r, install_bundled_skills. destruct (resolve_skill_names (Some (a_skills a)) (a_dev a) (a_all a)) as [l|e]; [|reflexivity].
    destruct (mkdir_steps [] dest (Some t)) as [mk|e]; [|reflexivity]. cbn [fst snd]. intro H. exfalso.
    exact (loop_no_value _ _ _ _ _ _ _ H).
Qed.
(** --status does not turn an unknown name into an exit code: the ValueError escapes. *)
Lemma c74_status_exit_refuted src src_path resolve dest t : exists a, a_status a = true /\ a_dest a = Some dest /\ snd (main src src_path resolve a t) = Err ValueError /\
  snd (main src src_path resolve (mkArgs (a_skills a) false false (a_dev a) (a_all a) (a_dest a) (a_force a) (a_editable a)) t) = Ok 1%Z.
Proof. exists (mkArgs ["usr"%string] false true false false (Some dest) false false). repeat split. Qed.

(** ** C75 *)
(** An install that fails can leave some of the requested skills installed. *)
Lemma c75_atomic_refuted : exists src t dest n1 n2, let r := install_bundled_skills src (fun _ => []) None true false dest false false t in
  plain t /\ snd r = Err FileExistsError /\ n1 <> n2 /\ lookup (dest ++ [n1]) t = None /\ lookup (dest ++ [n1]) (run (fst r) t) = src n1 /\ src n1 <> None /\ lookup (dest ++ [n2]) t <> None.
Proof.
  exists (fun _ => Some (TDir [("SKILL.md", TFile "new")]%string)), (TDir [("d", TDir [("adctoolbox-contributor-guide", TDir [("notes", TFile "mine")])])]%string), ["d"]%string, user_guide, contributor_guide.
  cbn zeta. repeat split; try discriminate. repeat (constructor; simpl; try (intros [])).
Qed.
(** With --force the old copy is deleted before the new one is known to be available: a missing
    bundled directory leaves neither. *)
Lemma c75_force_keeps_old_refuted : exists src t dest, let r := install_bundled_skills src (fun _ => []) None false false dest true false t in
  plain t /\ snd r = Err FileNotFoundError /\ lookup (dest ++ [user_guide]) t <> None /\ lookup (dest ++ [user_guide]) (run (fst r) t) = None.
Proof.
  exists (fun _ => None), (TDir [("d", TDir [("adctoolbox-user-guide", TDir [("notes", TFile "mine")])])]%string), ["d"]%string.
  cbn zeta. repeat split; try discriminate. repeat (constructor; simpl; try (intros [])).
Qed.
(** What does hold: with every bundled directory present, no target in the way and a usable
    destination, the complete request is installed. *)
Lemma c75_complete_when_clear src src_path names dev all dest l editable t :
  resolve_skill_names names dev all = Ok l -> (forall n, In n l -> exists es, src n = Some (TDir es) /\ plain (TDir es)) ->
  ~ blocked t dest -> (forall q, strictly_above q dest -> ~ blocked t q) -> (forall n, In n l -> lookup (dest ++ [n]) t = None) ->
  let r := install_bundled_skills src src_path names dev all dest false editable t in
  (exists ps, snd r = Ok ps) /\ forall n, In n l -> lookup (dest ++ [n]) (run (fst r) t) = if editable then Some (TLink (src_path n)) else src n.
Proof.
  intros E HS NB NA NT r.
  assert (O : snd r = Ok (map (fun n => dest ++ [n]) l)).
  { apply (s45_outcome src src_path names dev all dest l editable t E); auto. intros n I. right. destruct (HS n I) as (es & Q & _). eauto. }
  split; [eauto|]. apply (s46_installed_content src src_path names dev all dest l false editable t (map (fun n => dest ++ [n]) l) E); auto.
  intros n s I Q. destruct (HS n I) as (es & Q' & P). congruence.
Qed.

(** ** C53 *)
Lemma prune_dir l : prune (TDir l) = TDir (map (fun e => (fst e, prune (snd e))) (filter (fun e => negb (ignored_example (fst e))) l)).
Proof. simpl. f_equal. induction l as [|[n c] l IH]; simpl; auto. destruct (ignored_example n); simpl; rewrite IH; reflexivity. Qed.
Lemma prune_plain t : plain t -> plain (prune t).
Proof.
  induction t as [c|d|l IH] using tree_ind'; intro P; auto. inversion P as [|l' ND FP]; subst. rewrite prune_dir. constructor.
  - rewrite map_map. cbn [fst]. clear -ND. induction l as [|[n c] l IHl]; simpl; [constructor|]. simpl in ND. apply NoDup_cons_iff in ND as [NI ND]. destruct (ignored_example n); simpl; auto. constructor; auto.
    intro I. apply NI. apply in_map_iff in I as (e & <- & I). apply filter_In in I as [I _]. apply in_map, I.
  - apply Forall_forall. intros e I. apply in_map_iff in I as (e' & <- & I). apply filter_In in I as [I _]. cbn [snd]. apply (proj1 (Forall_forall _ _) IH _ I). exact (proj1 (Forall_forall _ _) FP _ I).
Qed.
Lemma ends_with_spec suf s : ends_with suf s = true <-> exists p, s = (p ++ suf)%string.
Proof.
  split.
  - induction s as [|a s IH]; simpl; match goal with |- context [String.eqb suf ?x] => destruct (String.eqb_spec suf x) as [E|E] end; intro H.
    + exists ""%string; simpl; auto.
    + discriminate.
    + exists ""%string; simpl; auto.
    + destruct (IH H) as [p ->]. exists (String a p). reflexivity.
  - intros [p ->]. induction p as [|a p IH]; simpl.
    + destruct suf; simpl; [reflexivity|]. rewrite Ascii.eqb_refl, String.eqb_refl. reflexivity.
    + rewrite IH. destruct (String.eqb _ _); reflexivity.
Qed.
Lemma ignored_spec n : ignored_example n = true <-> left_out n.
Proof. unfold ignored_example, left_out. rewrite orb_true_iff, String.eqb_eq, ends_with_spec. tauto. Qed.
(** The copier refuses when the destination exists or the examples are missing, without touching
    anything. *)
Lemma c53_refuses ex dest t : ex = None \/ lookup dest t <> None -> copy_examples ex dest t = ([], Err SystemExit).
Proof. unfold copy_examples. destruct ex; [|reflexivity]. intros [H|H]; [discriminate|]. destruct (lookup dest t); [reflexivity|congruence]. Qed.
Lemma copy_examples_ok ex dest t : snd (copy_examples ex dest t) = Ok tt -> exists e mk, ex = Some e /\ lookup dest t = None /\ mkdir_steps [] (removelast dest) (Some t) = Ok mk /\ fst (copy_examples ex dest t) = mk ++ copy_steps (prune e) dest.
Proof.
  unfold copy_examples. destruct ex as [e|]; [|discriminate]. destruct (lookup dest t); [discriminate|]. destruct (mkdir_steps [] (removelast dest) (Some t)) as [mk|]; [|discriminate].
  intros _. exists e, mk. auto.
Qed.
(** It succeeds exactly when the destination is free and no ancestor is in the way. *)
Lemma c53_succeeds ex dest t : snd (copy_examples ex dest t) = Ok tt <-> ex <> None /\ lookup dest t = None /\ forall q, strictly_above q dest -> ~ blocked t q.
Proof.
  unfold copy_examples. destruct ex as [e|]; [|split; [discriminate|intros [? _]; congruence]]. destruct (lookup dest t) as [x|] eqn:L; [split; [discriminate|intros (_ & ? & _); congruence]|].
  destruct dest as [|n0 dest0]; [discriminate|]. set (dest := n0 :: dest0) in *. assert (ND : dest <> []) by discriminate.
  pose proof (app_removelast_last ""%string ND) as E. set (d := removelast dest) in *. set (z := last dest ""%string) in *.
  destruct (mkdir_err d [] t) as (E1 & E2 & E3). cbn [lookup] in *.
  assert (SA : forall q, strictly_above q dest <-> q = d \/ strictly_above q d).
  { intro q. rewrite E. split.
    - intros (n & r & H). destruct r as [|y r _] using rev_ind; [apply app_inj_tail in H as [<- _]; auto|]. right. exists n, r.
      change (n :: r ++ [y]) with ((n :: r) ++ [y]) in H. rewrite app_assoc in H. now apply app_inj_tail in H as [-> _].
    - intros [-> | (n & r & ->)]; [exists z, []; reflexivity|exists n, (r ++ [z])]. now rewrite <- app_assoc. }
  destruct (mkdir_steps [] d (Some t)) as [mk|e'] eqn:M; cbn [snd].
  - split; [intros _|reflexivity]. split; [discriminate|]. split; [reflexivity|]. intros q S B. apply SA in S as [-> | S].
    + specialize (E1 B). discriminate.
    + destruct S as (n & r & S). assert (X : exists q' n r, d = q' ++ n :: r /\ blocked t ([] ++ q')) by (exists q, n, r; auto). specialize (E2 X). discriminate.
  - split; [discriminate|]. intros (_ & _ & NB). destruct E3 as [ss E3]; [apply NB, SA; auto| |discriminate]. intros q n r S. apply NB, SA. right. now exists n, r.
Qed.
(** After success the destination is the bundled tree without the left-out names: it has exactly
    the paths of the bundled tree that avoid them, with the same kind and content. *)
Lemma c53_content ex e dest t q : ex = Some e -> plain e -> snd (copy_examples ex dest t) = Ok tt ->
  let t' := run (fst (copy_examples ex dest t)) t in
  (Forall (fun n => ~ left_out n) q -> stat t' (dest ++ q) = stat e q) /\ (Exists left_out q -> stat t' (dest ++ q) = None).
Proof.
  intros -> HP H t'. destruct (copy_examples_ok _ _ _ H) as (e0 & mk & E & L & M & F). injection E as <-.
  destruct dest as [|n0 dest0]; [discriminate|]. set (dest := n0 :: dest0) in *. assert (ND : dest <> []) by discriminate.
  pose proof (app_removelast_last ""%string ND) as E. set (d := removelast dest) in *. set (z := last dest ""%string) in *.
  assert (LD : lookup dest t' = Some (prune e)).
  { unfold t'. rewrite F, run_app. rewrite copy_run; [|now apply prune_plain|].
    - apply lookup_put_same. rewrite E. apply parent_ok_snoc. destruct (mkdir_run d [] t mk) as [[-> D] | [_ D]]; [congruence|intros _; discriminate|exact M|exact D|now exists []].
    - rewrite E. apply parent_ok_snoc. destruct (mkdir_run d [] t mk) as [[-> D] | [_ D]]; [congruence|intros _; discriminate|exact M|exact D|now exists []]. }
  assert (ST : stat t' (dest ++ q) = stat (prune e) q) by (unfold stat; rewrite lookup_app, LD; reflexivity). rewrite ST. clear -HP. revert e HP.
  induction q as [|n q IH]; intros e HP; [split; [intros _; destruct e; reflexivity|intro X; inversion X]|].
  destruct e as [c|l|x]; [split; [reflexivity|intros _; reflexivity]| |split; [reflexivity|intros _; reflexivity]].
  assert (AG : aget n (map (fun e => (fst e, prune (snd e))) (filter (fun e => negb (ignored_example (fst e))) l)) = if ignored_example n then None else option_map prune (aget n l)).
  { clear. induction l as [|[m c] l IH]; [simpl; destruct (ignored_example n); reflexivity|]. simpl. destruct (ignored_example m) eqn:Im; simpl; destruct (String.eqb_spec n m) as [->|NE]; rewrite ?Im; auto. rewrite IH, Im; auto. }
  unfold stat in *. rewrite prune_dir. rewrite !lookup_cons, AG. inversion HP as [|l' NDl FP]; subst. split.
  - intro FA. inversion FA as [|a b A B]; subst. destruct (ignored_example n) eqn:I; [exfalso; apply A, ignored_spec; auto|]. destruct (aget n l) as [c|] eqn:G; simpl; [|reflexivity].
    apply aget_in_pair in G. apply IH; auto. exact (proj1 (Forall_forall _ _) FP _ G).
  - intro EX. destruct (ignored_example n) eqn:I; [reflexivity|]. destruct (aget n l) as [c|] eqn:G; simpl; [|reflexivity]. apply aget_in_pair in G. apply IH; [exact (proj1 (Forall_forall _ _) FP _ G)|].
    inversion EX as [a b A|a b A]; subst; auto. apply ignored_spec in A. congruence.
Qed.
(** Whatever happens, nothing that existed before is changed, at any point. *)
Lemma c53_no_clobber ex dest t t' q : crash_state (fst (copy_examples ex dest t)) t t' -> lookup q t <> None -> stat t' q = stat t q.
Proof.
  intros (ss & S & ->) L. apply run_stat. eapply sub_Forall; [exact S|]. clear S. unfold copy_examples. destruct ex as [e|]; [|constructor]. destruct (lookup dest t) eqn:D; [constructor|].
  destruct (mkdir_steps [] (removelast dest) (Some t)) as [mk|] eqn:M; [|constructor]. cbn [fst]. apply Forall_app; split.
  - eapply Forall_impl; [|exact (mkdir_sound _ [] (Some t) t mk eq_refl M)]. intros s (p & -> & _ & _ & N). right. intro P. apply L. eapply prefix_none; eauto.
  - eapply Forall_impl; [|apply copy_under]. intros s P. right. intro Q. apply L. apply (prefix_none dest); auto. eapply prefix_trans; [exact P|exact Q].
Qed.

(** ** Examples *)
Lemma c73_synced_meaning_ex :
  dirs_equal (TDir [("a", TFile "1"); ("b", TDir [("c", TFile "2")])]%string) (TDir [("b", TDir [("c", TFile "2")]); ("a", TFile "1")]%string) = true /\
  dirs_equal (TDir [("a", TFile "1"); ("b", TDir [("c", TFile "2")])]%string) (TDir [("b", TDir [("c", TFile "3")]); ("a", TFile "1")]%string) = false /\
  dirs_equal (TDir [("a", TFile "1")]%string) (TDir [("a", TFile "1"); ("extra", TFile "")]%string) = false.
Proof. repeat split. Qed.
Definition ex_src (n : string) : option tree := Some (TDir [("SKILL.md", TFile "guide"); ("ref", TDir [("a.md", TFile "A")])]%string).
Definition ex_fs : tree := TDir [("home", TDir [("notes.txt", TFile "keep")]); ("tmp", TFile "x")]%string.
(** Installing the default skill into a missing directory below home. *)
Lemma c45_no_clobber_ex :
  let r := install_bundled_skills ex_src (fun _ => []) None false false ["home"; "skills"]%string false false ex_fs in
  snd r = Ok [["home"; "skills"; "adctoolbox-user-guide"]%string] /\ List.length (fst r) = 7%nat /\
  run (fst r) ex_fs = TDir [("home", TDir [("notes.txt", TFile "keep"); ("skills", TDir [("adctoolbox-user-guide", TDir [("SKILL.md", TFile "guide"); ("ref", TDir [("a.md", TFile "A")])])])]); ("tmp", TFile "x")]%string /\
  run (firstn 3 (fst r)) ex_fs = TDir [("home", TDir [("notes.txt", TFile "keep"); ("skills", TDir [("adctoolbox-user-guide", TDir [("SKILL.md", TFile "")])])]); ("tmp", TFile "x")]%string.
Proof. repeat split. Qed.
Lemma c45_outcome_ex :
  snd (install_bundled_skills ex_src (fun _ => []) None false false ["tmp"]%string false false ex_fs) = Err FileExistsError /\
  snd (install_bundled_skills ex_src (fun _ => []) None false false ["tmp"; "a"]%string false false ex_fs) = Err OSError /\
  (forall t, t = run (fst (install_bundled_skills ex_src (fun _ => []) None false false ["home"]%string false false ex_fs)) ex_fs ->
     snd (install_bundled_skills ex_src (fun _ => []) None false false ["home"]%string false false t) = Err FileExistsError /\
     snd (install_bundled_skills ex_src (fun _ => []) None false false ["home"]%string true false t) = Ok [["home"; "adctoolbox-user-guide"]%string]).
Proof. split; [reflexivity|]. split; [reflexivity|]. intros t ->. split; reflexivity. Qed.
Lemma c46_synced_ex :
  skill_status ex_src (fun _ => []) (fun p => p) None false false ["home"]%string ex_fs = Ok [mkRow user_guide false Missing false] /\
  skill_status ex_src (fun _ => []) (fun p => p) None false false ["home"]%string (run (fst (install_bundled_skills ex_src (fun _ => []) None false false ["home"]%string false false ex_fs)) ex_fs) = Ok [mkRow user_guide true Copy true] /\
  skill_status ex_src (fun _ => []) (fun p => p) None false false ["home"]%string (TDir [("home", TDir [(user_guide, TDir [("SKILL.md", TFile "old"); ("ref", TDir [])])])]%string) = Ok [mkRow user_guide true Copy false].
Proof. repeat split. Qed.
Lemma c74_install_exit_ex :
  snd (main ex_src (fun _ => []) (fun p => p) (mkArgs ["user"%string] false false false false (Some ["home"%string]) false false) ex_fs) = Ok 0%Z /\
  snd (main ex_src (fun _ => []) (fun p => p) (mkArgs ["usr"%string] false false false false (Some ["home"%string]) false false) ex_fs) = Ok 1%Z /\
  snd (main ex_src (fun _ => []) (fun p => p) (mkArgs ["user"%string] false false false false (Some ["tmp"%string; "a"%string]) false false) ex_fs) = Err OSError.
Proof. repeat split. Qed.
Lemma c75_complete_when_clear_ex :
  let r := install_bundled_skills ex_src (fun _ => ["src"]%string) None true false ["home"]%string false true ex_fs in
  snd r = Ok [["home"; "adctoolbox-user-guide"]; ["home"; "adctoolbox-contributor-guide"]]%string /\
  lookup ["home"; "adctoolbox-contributor-guide"]%string (run (fst r) ex_fs) = Some (TLink ["src"]%string).
Proof. split; reflexivity. Qed.
Lemma c53_content_ex :
  let r := copy_examples (Some (TDir [("01", TDir [("a.py", TFile "pass"); ("__pycache__", TDir [("a.pyc", TFile "z")])]); ("b.pyc", TFile "z")]%string)) ["home"; "ex"]%string ex_fs in
  snd r = Ok tt /\ run (fst r) ex_fs = TDir [("home", TDir [("notes.txt", TFile "keep"); ("ex", TDir [("01", TDir [("a.py", TFile "pass")])])]); ("tmp", TFile "x")]%string.
Proof. split; reflexivity. Qed.
