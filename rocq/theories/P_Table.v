(** Proofs for property C113. *)
From Verif Require Import Base P_Base M_Util M_RoleManager M_Model M_Persist M_Eval M_Evaluator M_Enforcer
  S_Policy S_History S_Roles S_Sync S_Rbac S_Safe S_Table
  P_Store P_Api P_Group P_History P_Roles P_Sync P_Ready T_Rbac.

(** ** Tables *)
Lemma selects_unique : forall P l l1 l2, selects P l l1 -> selects P l l2 -> l1 = l2.
Proof.
  intros P l l1 l2 S. revert l2. induction S; intros l2 S2; inversion S2; subst; auto; try tauto. f_equal. auto.
Qed.
Lemma first_unique : forall (r : rule) pre pre' post post', pre ++ r :: post = pre' ++ r :: post' -> ~ In r pre -> ~ In r pre' -> pre = pre' /\ post = post'.
Proof.
  intros r pre. induction pre as [|x pre IH]; intros [|y pre'] post post' E N N'; simpl in E; inversion E; subst.
  - auto.
  - exfalso. apply N'. simpl. auto.
  - exfalso. apply N. simpl. auto.
  - destruct (IH pre' post post') as [-> ->]; auto; intros I; [apply N|apply N']; simpl; auto.
Qed.
Lemma part_dec : forall s s' : part, {s = s'} + {s <> s'}.
Proof. decide equality. Qed.
Lemma becomes_same : forall T T2 s pt l T' T2', untouched T T2 -> becomes T s pt l T' -> becomes T2 s pt l T2' -> untouched T' T2'.
Proof.
  intros T T2 s pt l T' T2' U [A B] [A2 B2] s' pt'.
  destruct (part_dec s' s) as [->|N1]; [destruct (string_dec pt' pt) as [->|N2]|].
  - congruence.
  - rewrite B, B2 by congruence. apply U.
  - rewrite B, B2 by congruence. apply U.
Qed.
Lemma untouched_same : forall T T2 T' T2', untouched T T2 -> untouched T T' -> untouched T2 T2' -> untouched T' T2'.
Proof. intros T T2 T' T2' U A B s pt. rewrite B, A. apply U. Qed.
Lemma bool_same : forall (b b' : bool) (P : Prop), (b = true <-> P) -> (b' = true <-> P) -> b = b'.
Proof. intros [] [] P H H'; auto; intuition congruence. Qed.

Lemma step_unique : forall q T a T', table_step q T a T' -> forall T2 a2 T2', untouched T T2 -> table_step q T2 a2 T2' -> a2 = a /\ untouched T' T2'.
Proof.
  intros q T a T' S T2 a2 T2' U S2. pose proof U as US.
  destruct S; inversion S2; subst;
    repeat match goal with H : context [T2 ?x ?y] |- _ => rewrite (US x y) in H end;
    try (match goal with A : ?x = ?p ++ ?r :: ?q, N : ~ In ?r ?x |- _ => exfalso; apply N; rewrite A; apply in_elt end);
    try (match goal with A : ?x = ?p ++ ?r :: ?q, B : ?x = ?p' ++ ?r :: ?q', N : ~ In ?r ?p, N' : ~ In ?r ?p' |- _ =>
      destruct (first_unique r p p' q q') as [<- <-]; [congruence|exact N|exact N'|] end);
    try (match goal with A : selects ?P ?x ?l, B : selects ?P ?x ?l' |- _ => pose proof (selects_unique _ _ _ _ A B); subst l' end);
    try tauto;
    try (match goal with A : ?b = true <-> ?P, B : ?b' = true <-> ?P |- _ => pose proof (bool_same _ _ _ A B); subst b' end);
    try (match goal with A : In ?r ?l, B : In ?r ?x, N : forall y, In y ?l -> ~ In y ?x |- _ => exfalso; exact (N r A B) end);
    (split; [rewrite ?US; reflexivity|first [eapply becomes_same; eassumption|apply (untouched_same T T2); assumption]]).
Qed.
Lemma run_unique : forall qs T l T', table_run qs T l T' -> forall T2 l2 T2', untouched T T2 -> table_run qs T2 l2 T2' -> l2 = l /\ untouched T' T2'.
Proof.
  intros qs T l T' R. induction R; intros T3 l3 T3' U R3; inversion R3; subst.
  - split; auto. apply (untouched_same T T3); auto.
  - destruct (step_unique _ _ _ _ H _ _ _ U H2) as [-> U1]. destruct (IHR _ _ _ U1 H6) as [-> U2]. auto.
Qed.

(** ** The calls *)
Lemma calm_fine : forall e c, calm_adapter (e_adapter e) -> is_batch_call c = false -> save_fine e c.
Proof.
  intros e c C B. unfold save_fine. destruct (e_adapter e) as [a|]; auto. right.
  destruct a as [b p|l|p fd|u]; simpl in *; rewrite ?B; simpl; auto.
  - destruct c; simpl in *; auto; discriminate.
  - destruct (C (ua_log u) c) as [->| ->]; auto.
Qed.
Lemma drop_said : forall (x : M bool) e e' b, x e = (e', Ok b) -> drop_value x e = (e', Ok tt).
Proof. intros x e e' b H. unfold drop_value, mbind. rewrite H. reflexivity. Qed.
Lemma said_ok : forall (x : M bool) e e' b, x e = (e', Ok b) -> said x e = (e', Ok (Said b)).
Proof. intros x e e' b H. unfold said, mbind. rewrite H. reflexivity. Qed.
Lemma listed_ok : forall (x : M (list rule)) e e' l, x e = (e', Ok l) -> listed x e = (e', Ok (Listed l)).
Proof. intros x e e' b H. unfold listed, mbind. rewrite H. reflexivity. Qed.

(** Whether rules can be put together stays. *)
Definition batch_kept (e e' : enforcer) : Prop := batch_saveable e -> batch_saveable e'.
Lemma bk_refl : forall e, batch_kept e e.
Proof. intros e. unfold batch_kept. auto. Qed.
Lemma bk_trans : forall a b c, batch_kept a b -> batch_kept b c -> batch_kept a c.
Proof. unfold batch_kept. auto. Qed.
Lemma bk_incremental : forall op pt rs, keeps batch_kept (e_BuildIncrementalRoleLinks op pt rs).
Proof. apply parts_incremental; [exact bk_trans|intros m e H; exact H|intros h e H; exact H]. Qed.
Lemma bk_rebuild : keeps batch_kept rebuild_if_auto.
Proof. apply parts_rebuild_if; [exact bk_refl|exact bk_trans|intros m e H; exact H|intros h e H; exact H]. Qed.
Lemma bk_notify : keeps batch_kept notify.
Proof. apply parts_notify; [exact bk_refl|intros w e H; exact H]. Qed.
Lemma bk_autosave : forall c, keeps batch_kept (autosave c).
Proof.
  intros c e. unfold autosave, batch_kept, batch_saveable. destruct (e_adapter e) as [a|] eqn:E; cbn [fst]; [|rewrite E; auto].
  destruct (e_auto_save e) eqn:S; cbn [fst]; [|rewrite E; auto].
  assert (K : is_batch_adapter (fst (adapter_call a c)) = is_batch_adapter a).
  { destruct a as [b p|t|p fd|u]; cbn; auto.
    - destruct c; reflexivity.
    - destruct (is_batch_call c && negb (ua_batch u)); auto. }
  destruct (adapter_call a c) as [a' out]. cbn in K. destruct out as [v|[]|]; cbn; rewrite ?S, K; auto.
Qed.
Lemma bk_block : forall A (f : model -> res (model * A)) B (k : A -> M B), (forall a, keeps batch_kept (k a)) -> keeps batch_kept (mbind (on_model f) k).
Proof. intros. apply keeps_bind; [exact bk_trans| |auto]. apply keeps_on_model; [exact bk_refl|]. intros e m a _ X. exact X. Qed.
Lemma bk_tail : forall sec pt op rs c, keeps batch_kept (when_g sec (e_BuildIncrementalRoleLinks op pt rs) ;;; autosave c ;;; notify ;;; ret true).
Proof.
  intros. apply keeps_bind; [exact bk_trans|apply keeps_when; [exact bk_refl|intros; apply bk_incremental]|].
  intros. apply keeps_bind; [exact bk_trans|apply bk_autosave|]. intros. apply keeps_bind; [exact bk_trans|apply bk_notify|]. intros. apply keeps_ret. exact bk_refl.
Qed.
Ltac bk := intros; apply bk_block; first [intros [[] eff]|intros []]; cbn [negb]; [apply bk_tail|apply keeps_ret; exact bk_refl].
Lemma bk_add : forall sec pt r, keeps batch_kept (i_addPolicy sec pt r).
Proof. bk. Qed.
Lemma bk_add_many : forall sec pt r, keeps batch_kept (i_addPolicies sec pt r).
Proof. bk. Qed.
Lemma bk_remove : forall sec pt r, keeps batch_kept (i_removePolicy sec pt r).
Proof. bk. Qed.
Lemma bk_remove_filtered : forall sec pt i vals, keeps batch_kept (i_removeFilteredPolicy sec pt i vals).
Proof. bk. Qed.
Lemma bk_update : forall sec pt a b, keeps batch_kept (i_updatePolicy sec pt a b).
Proof.
  intros. apply bk_block. intros []; cbn [negb]; [|apply keeps_ret; exact bk_refl].
  apply keeps_bind; [exact bk_trans|apply keeps_when; [exact bk_refl|intros; apply keeps_bind; [exact bk_trans|apply bk_incremental|intros; apply bk_incremental]]|].
  intros. apply keeps_bind; [exact bk_trans|apply bk_notify|]. intros. apply keeps_ret. exact bk_refl.
Qed.
Lemma bk_then : forall (c : M bool) (t : M unit), keeps batch_kept c -> keeps batch_kept t -> keeps batch_kept (b <- c ;; t ;;; ret b).
Proof. intros c t C S. apply keeps_bind; [exact bk_trans|exact C|]. intros. apply keeps_bind; [exact bk_trans|exact S|]. intros. apply keeps_ret. exact bk_refl. Qed.
Lemma bk_said : forall c, keeps batch_kept c -> keeps batch_kept (said c).
Proof. intros c C. apply keeps_bind; [exact bk_trans|exact C|]. intros. apply keeps_ret. exact bk_refl. Qed.
Lemma bk_read : forall A (f : model -> res A), keeps batch_kept (read_model f).
Proof. intros A f e. unfold read_model. destruct (f (e_model e)); apply bk_refl. Qed.
Lemma bk_listed : forall c, keeps batch_kept c -> keeps batch_kept (listed c).
Proof. intros c C. apply keeps_bind; [exact bk_trans|exact C|]. intros. apply keeps_ret. exact bk_refl. Qed.
Lemma bk_policy : forall sec pt, keeps batch_kept (read_policy sec pt).
Proof. intros sec pt. unfold read_policy. repeat first [apply bk_read|apply keeps_bind; [exact bk_trans|apply bk_read|intros]|apply keeps_ret; exact bk_refl]. Qed.
Lemma bk_links_if : forall pt r, keeps batch_kept (fun e => if e_auto_build e then e_BuildIncrementalRoleLinks policy_add pt [r] e else (e, Ok tt)).
Proof. intros pt r e. cbv beta. destruct (e_auto_build e); [apply bk_incremental|apply bk_refl]. Qed.
Lemma bk_perform : forall q, keeps batch_kept (perform q).
Proof.
  intros [[] pt r|[] pt rs|[] pt r|[] pt i vals|pt old new|[] pt r|[] pt|[] pt i vals]; cbn [perform];
    first [apply bk_said|apply bk_listed]; try apply bk_read; try apply bk_policy;
    first [apply bk_add|apply bk_add_many|apply bk_remove|apply bk_remove_filtered|apply bk_update
      |apply bk_then; [apply bk_add|apply bk_links_if]|apply bk_then; [first [apply bk_remove|apply bk_remove_filtered]|apply bk_rebuild]].
Qed.
Lemma batch_fine : forall e c, calm_adapter (e_adapter e) -> batch_saveable e -> save_fine e c.
Proof.
  intros e c C B. unfold save_fine, batch_saveable in *. destruct (e_adapter e) as [a|]; auto. destruct B as [B|B]; auto. right.
  destruct a as [b p|l|p fd|u]; simpl in *; try discriminate; rewrite B, ?andb_false_r; simpl; auto.
  destruct (C (ua_log u) c) as [->| ->]; auto.
Qed.
Lemma autosave_fine : forall e c, save_fine e c -> snd (autosave c e) = Ok tt.
Proof.
  intros e c S. unfold autosave, save_fine in *. destruct (e_adapter e) as [a|]; auto. destruct (e_auto_save e); auto.
  destruct S as [S|S]; [discriminate|]. destruct (adapter_call a c) as [a' out]. simpl in S. destruct S as [->| ->]; reflexivity.
Qed.
Lemma notify_ok : forall e, snd ((notify ;;; ret true) e) = Ok true.
Proof. intros e. unfold mbind, notify. destruct (e_watcher e); [destruct (e_notify e)|]; reflexivity. Qed.

Section Calls.
  Context (o : oracle) (names : node -> Prop) (k n : nat) (prules rules : rule -> Prop).
  Hypothesis T : tidy names n rules.
  Hypothesis DR : distinct_rules k prules.
  Let ord := in_order o names k n prules rules.

  Lemma rebuild_if_ok : forall lvl L e, linked_by names n rules lvl L e -> snd (rebuild_if_auto e) = Ok tt.
  Proof.
    intros lvl L e LB. unfold rebuild_if_auto. rewrite (lb_build _ _ _ _ _ _ LB). destruct (rebuild_mirror _ _ _ T _ _ _ LB) as [e' [-> _]]. auto.
  Qed.
  Lemma add_grouping_ok : forall e pt r, managed o names n rules e -> declared e "g" pt -> rules r -> exists b, snd (AddNamedGroupingPolicy pt r e) = Ok b.
  Proof.
    intros e pt r M D Rr. pose proof (managed_mirror names n rules T o e M) as Mi. set (lvl := level_of e) in *.
    destruct (step_add names n rules T lvl e pt r Mi Rr) as [M1 A].
    assert (X : exists b, snd (i_addPolicy "g" pt r e) = Ok b).
    { unfold i_addPolicy. unfold mbind at 1, on_model, AddPolicy. destruct D as [a G]. rewrite G. cbn [bind].
      destruct (has_rule (rules_of (a_policy a)) r) eqn:X. { exists false. reflexivity. }
      cbn [negb]. pose proof (ok_rules _ _ _ _ _ _ _ _ Mi G) as FR.
      assert (FE : Forall rules (rules_of (emplace (a_policy a) r))).
      { rewrite Forall_forall in *. intros x I. apply emplace_in in I. destruct I; subst; auto. }
      destruct (edit_linked _ _ _ T _ _ _ _ _ _ Mi G FE) as [LB [S D]].
      unfold when_g. simpl. unfold mbind at 1.
      destruct (incremental_add _ _ _ T _ _ _ pt [r] LB D) as [e2 [-> [LB2 [S2 _]]]]; auto.
      rewrite (tail_ok (CAdd "g" pt r) e2 (lb_calm _ _ _ _ _ _ LB2) eq_refl). eauto. }
    unfold AddNamedGroupingPolicy. unfold mbind at 1. destruct X as [b X].
    destruct (i_addPolicy "g" pt r e) as [e1 out]. simpl in *. subst out. destruct (A b eq_refl) as [D1 I].
    unfold mbind. rewrite (lb_build _ _ _ _ _ _ M1). destruct (incremental_add _ _ _ T _ _ _ pt [r] M1 D1) as [e2 [-> _]]; auto.
    simpl. eauto.
  Qed.
  Lemma add_groupings_ok : forall e pt rs, managed o names n rules e -> declared e "g" pt -> Forall rules rs -> batch_saveable e ->
    exists b, snd (AddNamedGroupingPolicies pt rs e) = Ok b.
  Proof.
    intros e pt rs M D F BS. pose proof (managed_mirror names n rules T o e M) as Mi. set (lvl := level_of e) in *.
    assert (TAIL : forall e1, linked_by names n rules lvl (assigned e) e1 -> declared e1 "g" pt -> batch_saveable e1 ->
      snd ((when_g "g" (e_BuildIncrementalRoleLinks policy_add pt rs) ;;; autosave (CAddMany "g" pt rs) ;;; notify ;;; ret true) e1) = Ok true).
    { intros e1 LB D1 B1. unfold when_g. simpl. unfold mbind at 1.
      destruct (incremental_add _ _ _ T _ _ _ pt rs LB D1 F) as [e2 [E2 [LB2 _]]]. rewrite E2.
      pose proof (bk_incremental policy_add pt rs e1 B1) as B2. rewrite E2 in B2. cbn [fst] in B2.
      pose proof (autosave_fine e2 (CAddMany "g" pt rs) (batch_fine _ _ (lb_calm _ _ _ _ _ _ LB2) B2)) as S.
      unfold mbind at 1. destruct (autosave (CAddMany "g" pt rs) e2) as [e3 out]. simpl in S. subst out. apply notify_ok. }
    unfold AddNamedGroupingPolicies, i_addPolicies. unfold mbind at 1, on_model, AddPolicies. destruct D as [a G]. destruct rs as [|r0 rs0].
    - rewrite set_model_id. cbn [negb]. exists true. apply TAIL; auto. exists a. auto.
    - rewrite G. cbn [bind]. destruct (existsb (has_rule (rules_of (a_policy a))) (r0 :: rs0)) eqn:X. { exists false. reflexivity. }
      cbn [negb]. exists true. pose proof (ok_rules _ _ _ _ _ _ _ _ Mi G) as FR.
      assert (FE : Forall rules (rules_of (fold_left emplace (r0 :: rs0) (a_policy a)))).
      { rewrite Forall_forall in *. intros x I. apply fold_emplace_in in I. destruct I; auto. }
      destruct (edit_linked _ _ _ T _ _ _ _ _ _ Mi G FE) as [LB [S D]]. apply TAIL; auto.
  Qed.
  Lemma remove_grouping_ok : forall e pt r, managed o names n rules e -> declared e "g" pt -> rules r -> exists b, snd (RemoveNamedGroupingPolicy pt r e) = Ok b.
  Proof.
    intros e pt r M D Rr. pose proof (managed_mirror names n rules T o e M) as Mi. set (lvl := level_of e) in *.
    unfold RemoveNamedGroupingPolicy.
    assert (H : exists e1 b L, i_removePolicy "g" pt r e = (e1, Ok b) /\ linked_by names n rules lvl L e1).
    { remember (i_removePolicy "g" pt r e) as q eqn:Q. unfold i_removePolicy in Q. unfold mbind at 1, on_model, RemovePolicy in Q.
      destruct D as [a G]. rewrite G in Q; cbn [bind] in Q. pose proof (ok_rules _ _ _ _ _ _ _ _ Mi G) as FR.
      destruct (erase_first r (rules_of (a_policy a))) as [l|] eqn:X.
      2:{ rewrite set_model_id in Q. subst q. exists e, false, (assigned e). auto. }
      assert (FE : Forall rules (rules_of (with_rules (a_policy a) l))).
      { rewrite rules_with. rewrite Forall_forall in *. intros x I. apply erase_first_some in X.
        destruct X as [pre [y [post [E1 [E2 _]]]]]. apply FR. subst l. rewrite E1. rewrite in_app_iff in *. simpl. tauto. }
      destruct (edit_linked _ _ _ T _ _ _ _ _ _ Mi G FE) as [LB [S D]]. cbn [negb] in Q.
      unfold when_g in Q. simpl in Q. unfold mbind at 1 in Q.
      destruct (incremental_add _ _ _ T _ _ _ pt [r] LB D) as [e2 [IA [LB2 [S2 _]]]]; auto. rewrite IA in Q.
      pose proof (tail_frame (CRemove "g" pt r) e2) as TF. pose proof (tail_ok (CRemove "g" pt r) e2 (lb_calm _ _ _ _ _ _ LB2) eq_refl) as TO.
      destruct ((autosave (CRemove "g" pt r) ;;; notify ;;; ret true) e2) as [e3 out]. simpl in *. subst out.
      subst q. eexists e3, true, _. split; [reflexivity|]. eapply frame_linked; eauto. }
    unfold mbind at 1. destruct H as [e1 [b [L [-> LB]]]].
    pose proof (rebuild_if_ok _ _ _ LB) as RB. unfold mbind. destruct (rebuild_if_auto e1) as [e2 out]. simpl in RB. subst. simpl. eauto.
  Qed.
  Lemma remove_filtered_grouping_ok : forall e pt i vals, managed o names n rules e -> declared e "g" pt -> i + List.length vals <= n ->
    exists b, snd (RemoveFilteredNamedGroupingPolicy pt i vals e) = Ok b.
  Proof.
    intros e pt i vals M D LE. pose proof (managed_mirror names n rules T o e M) as Mi. set (lvl := level_of e) in *.
    unfold RemoveFilteredNamedGroupingPolicy.
    assert (H : exists e1 b L, i_removeFilteredPolicy "g" pt i vals e = (e1, Ok b) /\ linked_by names n rules lvl L e1).
    { remember (i_removeFilteredPolicy "g" pt i vals e) as q eqn:Q. unfold i_removeFilteredPolicy in Q. unfold mbind at 1, on_model, RemoveFilteredPolicy in Q.
      destruct D as [a G]. rewrite G in Q. cbn [bind] in Q. pose proof (ok_rules _ _ _ _ _ _ _ _ Mi G) as FR. rewrite Forall_forall in FR.
      assert (PR : exists eff tmp, partition_rules i vals (rules_of (a_policy a)) = Ok (eff, tmp)).
      { assert (F : forall r, In r (rules_of (a_policy a)) -> i + List.length vals <= List.length r).
        { intros r I. rewrite (proj1 (t_rule _ _ _ T r (FR r I))). auto. }
        revert F. generalize (rules_of (a_policy a)). clear. induction l as [|r l IH]; intros F; [simpl; eauto|].
        destruct IH as [eff [tmp E]]. { intros x I. apply F. simpl. auto. }
        assert (FM : exists b, field_match r i vals = Ok b).
        { assert (F1 : i + List.length vals <= List.length r) by (apply F; simpl; auto). clear - F1. revert i F1.
          induction vals as [|v vals IH]; intros i F1; simpl in *; [eauto|]. destruct (String.eqb v ""). { apply IH. lia. }
          destruct (nth_error r i) as [x|] eqn:N. 2:{ apply nth_error_None in N. lia. }
          destruct (String.eqb x v); eauto. apply IH. lia. }
        destruct FM as [b FM]. simpl. rewrite FM, E. simpl. destruct b; eauto. }
      destruct PR as [eff [tmp P]]. rewrite P in Q. cbn [bind] in Q.
      assert (FE : Forall rules tmp) by (rewrite Forall_forall; intros x I; apply FR; eapply partition_effects; eauto).
      assert (FF : Forall rules eff) by (rewrite Forall_forall; intros x I; apply FR; eapply partition_effects; eauto).
      destruct (edit_linked _ _ _ T _ _ _ _ _ (Vec tmp) Mi G FE) as [LB [S D]]. destruct eff as [|x0 eff]. { cbn in Q. subst q. eexists _, false, _. split; [reflexivity|exact LB]. }
      cbn [negb] in Q. unfold when_g in Q. simpl in Q. unfold mbind at 1 in Q.
      destruct (incremental_remove _ _ _ T _ _ _ pt (x0 :: eff) LB D FF) as [e2 [IA [LB2 [S2 _]]]].
      { intros x l I E. exists pt, x. split; auto. unfold stored. rewrite (rules_in_get _ _ _ _ G). eapply partition_effects; eauto. }
      rewrite IA in Q. set (c := CRemoveFiltered "g" pt i vals).
      fold c in Q. pose proof (tail_frame c e2) as TF. pose proof (tail_ok c e2 (lb_calm _ _ _ _ _ _ LB2) eq_refl) as TO.
      destruct ((autosave c ;;; notify ;;; ret true) e2) as [e3 out]. simpl in *. subst out.
      subst q. eexists e3, true, _. split; [reflexivity|]. eapply frame_linked; eauto. }
    unfold mbind at 1. destruct H as [e1 [b [L [-> LB]]]].
    pose proof (rebuild_if_ok _ _ _ LB) as RB. unfold mbind. destruct (rebuild_if_auto e1) as [e2 out]. simpl in RB. subst. simpl. eauto.
  Qed.

  Lemma g_rules : forall e pt r, ord e -> In r (stored e "g" pt) -> rules r.
  Proof.
    intros e pt r [M _ _] I. pose proof (managed_mirror names n rules T o e M) as Mi. unfold stored in I.
    destruct (get_ast_cases (e_model e) "g" pt) as [[a G]|G].
    - rewrite (rules_in_get _ _ _ _ G) in I. pose proof (ok_rules _ _ _ _ _ _ _ _ Mi G) as F. rewrite Forall_forall in F. auto.
    - unfold rules_in in I. rewrite G in I. contradiction.
  Qed.
  Lemma g_distinct : forall e pt r, ord e -> rules r -> no_anagram r (stored e "g" pt).
  Proof. intros e pt r O R. apply (rules_no_anagram names n rules T); auto. apply Forall_forall. intros x I. eapply g_rules; eauto. Qed.
  Lemma p_distinct : forall (l : list rule) r, (forall x, In x l -> prules x) -> prules r -> no_anagram r l.
  Proof. intros l r O R x I P. symmetry. apply (proj2 DR); auto. Qed.
  Lemma p_range : forall e pt i vals, ord e -> i + List.length vals <= k -> filter_in_range i vals (stored e "p" pt).
  Proof. intros e pt i vals O L r I. rewrite (proj1 DR r); auto. eapply io_rules; eauto. Qed.
  Lemma g_range : forall e pt i vals, ord e -> i + List.length vals <= n -> filter_in_range i vals (stored e "g" pt).
  Proof. intros e pt i vals O L r I. rewrite (proj1 (t_rule _ _ _ T r (g_rules _ _ _ O I))). auto. Qed.
  Lemma calm : forall e c, ord e -> is_batch_call c = false -> save_fine e c.
  Proof. intros e c [M _ _] B. apply calm_fine; auto. eapply lb_calm. eapply managed_mirror; eauto. Qed.

  Lemma has_in : forall e sec pt r, declared e sec pt -> no_anagram r (stored e sec pt) ->
    exists b, read_model (fun m => HasPolicy m sec pt r) e = (e, Ok b) /\ (b = true <-> In r (stored e sec pt)).
  Proof.
    intros e sec pt r [a A] NA. unfold read_model, HasPolicy. rewrite A. cbn [bind].
    unfold stored in *. rewrite (rules_in_get _ _ _ _ A) in *. eexists. split; [reflexivity|]. apply has_rule_in. auto.
  Qed.
  Lemma query_in : forall e sec pt i vals l, GetFilteredPolicy (e_model e) sec pt i vals = Ok l ->
    read_model (fun m => GetFilteredPolicy m sec pt i vals) e = (e, Ok l).
  Proof. intros e sec pt i vals l G. unfold read_model. rewrite G. auto. Qed.
  Lemma get_in : forall e sec pt, declared e sec pt -> read_policy sec pt e = (e, Ok (stored e sec pt)).
  Proof.
    intros e sec pt [a A]. unfold read_policy, read_model, mbind, GetPolicy, stored, rules_in. rewrite A. cbn. rewrite ?A. reflexivity.
  Qed.

  (** How an enforcer stays in order. *)
  Lemma order_kept : forall s pt c e e' out, run o c e = (e', out) -> ord e -> safe_call rules c -> (forall u, out <> UB u) ->
    others_kept (section_name s) pt e e' -> NoDup (stored e' (section_name s) pt) ->
    (s = Rules -> forall r, In r (stored e' "p" pt) -> prules r) -> ord e'.
  Proof.
    intros s pt c e e' out E [M R N] S U K N' R'. split.
    - eapply managed_call; eauto.
    - intros q r I. destruct s.
      + destruct (string_dec q pt) as [->|D]; [auto|]. rewrite K in I by congruence. eauto.
      + rewrite K in I by discriminate. eauto.
    - intros s2 q. destruct (string_dec (section_name s2) (section_name s)) as [E1|E1]; [destruct (string_dec q pt) as [->|E2]|].
      + rewrite E1. auto.
      + rewrite K by congruence. auto.
      + rewrite K by congruence. auto.
  Qed.
  Lemma nodup_selects : forall P (l l' : list rule), selects P l l' -> NoDup l -> NoDup l'.
  Proof.
    intros P l l' S. induction S as [|y l l' Hy S IH|y l l' Hy S IH]; intros N; auto; inversion N; subst; auto. constructor; auto. rewrite (selects_in _ _ _ y S). tauto.
  Qed.
  Lemma nodup_snoc : forall (l : list rule) r, NoDup l -> ~ In r l -> NoDup (l ++ [r]).
  Proof. intros l r N I. apply (Permutation.Permutation_NoDup (l := r :: l)). { apply Permutation.Permutation_cons_append. } constructor; auto. Qed.

  (** The enforcer after is the enforcer before, or is so after one call of S_History that keeps it in order. *)
  Definition by_call (e e' : enforcer) : Prop :=
    e' = e \/ exists c, safe_call rules c /\ shaped_call k c /\ run o c e = (e', Ok tt).
  Definition goes (q : op) (e : enforcer) : Prop :=
    exists a e', perform q e = (e', Ok a) /\ table_step q (table_of e) a (table_of e') /\ ord e' /\ by_call e e'.
  Lemma by_one : forall c e e', safe_call rules c -> shaped_call k c -> run o c e = (e', Ok tt) -> by_call e e'.
  Proof. intros c e e' S C R. right. eauto. Qed.
  Lemma call_keeps : forall e e', by_call e e' -> forall sec pt, declared e sec pt -> declared e' sec pt.
  Proof. intros e e' [->|[c [S [C R]]]] sec pt D; auto. pose proof (declared_run o rules c e sec pt S D) as X. rewrite R in X. auto. Qed.
  Lemma kept_becomes : forall s pt e e' l, others_kept (section_name s) pt e e' -> stored e' (section_name s) pt = l -> becomes (table_of e) s pt l (table_of e').
  Proof.
    intros s pt e e' l K E. split; auto. intros s2 q N. apply K. destruct s, s2; simpl; congruence.
  Qed.
  Lemma kept_untouched : forall s pt e e', others_kept (section_name s) pt e e' -> stored e' (section_name s) pt = stored e (section_name s) pt ->
    untouched (table_of e) (table_of e').
  Proof.
    intros s pt e e' K E s2 q. unfold table_of. destruct (part_dec s2 s) as [->|N]; [destruct (string_dec q pt) as [->|N2]|]; auto; apply K.
    - congruence.
    - destruct s, s2; simpl; congruence.
  Qed.
  Lemma same_goes : forall q e a, ord e -> perform q e = (e, Ok a) -> table_step q (table_of e) a (table_of e) -> goes q e.
  Proof. intros q e a O P S. exists a, e. unfold by_call. auto. Qed.
  Lemma still : forall T0 : table, untouched T0 T0.
  Proof. intros T0 s pt. auto. Qed.
  Local Hint Resolve still : core.

  Lemma put_p : forall e pt r, ord e -> declared e "p" pt -> prules r -> goes (Put Rules pt r) e.
  Proof.
    intros e pt r O D P. pose proof (add_named e pt r D (p_distinct _ _ (io_rules _ _ _ _ _ _ _ O pt) P)) as A.
    destruct (AddNamedPolicy pt r e) as [e' out] eqn:E. destruct A as [K [A1 A2]].
    destruct (in_dec (list_eq_dec string_dec) r (stored e "p" pt)) as [I|I].
    - destruct (A1 I) as [-> ->]. apply (same_goes _ _ (Said false)); auto. { apply said_ok. auto. } apply put_again; auto.
    - destruct (A2 I) as [S F]. assert (F2 := F ltac:(apply calm; auto)). clear F. subst out.
      assert (R : run o (KAddPolicy pt r) e = (e', Ok tt)) by (eapply drop_said; exact E).
      exists (Said true), e'. split; [|split; [|split]].
      + apply said_ok; auto.
      + apply put_new; auto. apply kept_becomes; auto.
      + apply (order_kept Rules pt _ _ _ _ R O Logic.I); auto; try discriminate.
        * simpl. rewrite S. apply nodup_snoc; auto. apply (io_once _ _ _ _ _ _ _ O Rules).
        * intros _ x X. rewrite S, in_app_iff in X. destruct X as [X|[<-|[]]]; auto. eapply io_rules; eauto.
      + apply (by_one (KAddPolicy pt r)); cbn [safe_call shaped_call]; auto; intros _; apply (proj1 DR); auto.
  Qed.
  Lemma put_g : forall e pt r, ord e -> declared e "g" pt -> rules r -> goes (Put Groupings pt r) e.
  Proof.
    intros e pt r O D P. pose proof (add_grouping e pt r D (g_distinct _ _ _ O P)) as A.
    destruct (add_grouping_ok e pt r (io_managed _ _ _ _ _ _ _ O) D P) as [b B].
    destruct (AddNamedGroupingPolicy pt r e) as [e' out] eqn:E. simpl in B. subst out. destruct A as [K [A1 [A2 A3]]]. specialize (A3 b eq_refl).
    assert (R : run o (KAddGrouping pt r) e = (e', Ok tt)) by (eapply drop_said; exact E).
    exists (Said b), e'. split; [apply said_ok; auto|].
    destruct (in_dec (list_eq_dec string_dec) r (stored e "g" pt)) as [I|I].
    - assert (b = false) as -> by (destruct b; tauto). split; [|split].
      + apply put_again; auto. eapply (kept_untouched Groupings); eauto.
      + apply (order_kept Groupings pt _ _ _ _ R O P); auto; try discriminate.
        simpl. rewrite A1 by auto. apply (io_once _ _ _ _ _ _ _ O Groupings).
      + apply (by_one (KAddGrouping pt r)); cbn [safe_call shaped_call]; auto; intros _; apply (proj1 DR); auto.
    - assert (b = true) as -> by tauto. split; [|split].
      + apply put_new; auto. apply kept_becomes; auto.
      + apply (order_kept Groupings pt _ _ _ _ R O P); auto; try discriminate.
        simpl. rewrite A2 by auto. apply nodup_snoc; auto. apply (io_once _ _ _ _ _ _ _ O Groupings).
      + apply (by_one (KAddGrouping pt r)); cbn [safe_call shaped_call]; auto; intros _; apply (proj1 DR); auto.
  Qed.
  Lemma nodup_app : forall l rs : list rule, NoDup l -> NoDup rs -> (forall r, In r rs -> ~ In r l) -> NoDup (l ++ rs).
  Proof.
    intros l rs N N2. revert l N. induction N2 as [|x rs X N2 IH]; intros l N D; [rewrite app_nil_r; auto|].
    replace (l ++ x :: rs) with ((l ++ [x]) ++ rs) by (rewrite <- app_assoc; reflexivity). apply IH.
    - apply nodup_snoc; auto. apply D. simpl. auto.
    - intros r I C. rewrite in_app_iff in C. destruct C as [C|[<-|[]]]; [|tauto]. revert C. apply D. simpl. auto.
  Qed.
  Lemma some_there : forall rs l : list rule, (exists r, In r rs /\ In r l) \/ (forall r, In r rs -> ~ In r l).
  Proof.
    intros rs l. destruct (Exists_dec (fun r => In r l) rs) as [E|E]. { intros r. apply in_dec. apply list_eq_dec, string_dec. }
    - left. apply Exists_exists in E. auto.
    - right. intros r I C. apply E. apply Exists_exists. eauto.
  Qed.
  Lemma put_all_p : forall e pt rs, ord e -> declared e "p" pt -> Forall prules rs -> NoDup rs -> batch_saveable e -> goes (PutAll Rules pt rs) e.
  Proof.
    intros e pt rs O D P ND BS. rewrite Forall_forall in P.
    pose proof (add_many e pt rs D (fun r I => p_distinct _ _ (io_rules _ _ _ _ _ _ _ O pt) (P r I))) as A.
    destruct (AddNamedPolicies pt rs e) as [e' out] eqn:E. destruct A as [K [A1 A2]].
    destruct (some_there rs (stored e "p" pt)) as [I|I].
    - destruct (A1 I) as [-> ->]. destruct I as [r [I J]]. apply (same_goes _ _ (Said false)); auto. { apply said_ok. auto. } eapply put_all_again; eauto.
    - destruct (A2 I) as [_ [S F]]. specialize (S ND). assert (F2 := F ltac:(apply batch_fine; auto; eapply lb_calm; eapply managed_mirror; eauto; apply (io_managed _ _ _ _ _ _ _ O))). clear F. subst out.
      assert (R : run o (KAddPolicies pt rs) e = (e', Ok tt)) by (eapply drop_said; exact E).
      exists (Said true), e'. split; [|split; [|split]].
      + apply said_ok; auto.
      + apply put_all_new; auto. apply kept_becomes; auto.
      + apply (order_kept Rules pt _ _ _ _ R O Logic.I); auto; try discriminate.
        * simpl. rewrite S. apply nodup_app; auto. apply (io_once _ _ _ _ _ _ _ O Rules).
        * intros _ x X. rewrite S, in_app_iff in X. destruct X as [X|X]; auto. eapply io_rules; eauto.
      + apply (by_one (KAddPolicies pt rs)); cbn [safe_call shaped_call]; auto. intros _. apply Forall_forall. intros r I0. apply (proj1 DR); auto.
  Qed.
  Lemma put_all_g : forall e pt rs, ord e -> declared e "g" pt -> Forall rules rs -> NoDup rs -> batch_saveable e -> goes (PutAll Groupings pt rs) e.
  Proof.
    intros e pt rs O D P ND BS. destruct (add_groupings_ok e pt rs (io_managed _ _ _ _ _ _ _ O) D P BS) as [b B].
    pose proof (edit_add_many "g" pt rs e) as A. fold (AddNamedGroupingPolicies pt rs) in A.
    destruct (AddNamedGroupingPolicies pt rs e) as [e' out] eqn:E. simpl in B. subst out.
    assert (R : run o (KAddGroupings pt rs) e = (e', Ok tt)) by (eapply drop_said; exact E).
    assert (X : others_kept "g" pt e e' /\ ((b = true /\ (forall r, In r rs -> ~ In r (stored e "g" pt)) /\ stored e' "g" pt = stored e "g" pt ++ rs) \/
      (b = false /\ (exists r, In r rs /\ In r (stored e "g" pt)) /\ stored e' "g" pt = stored e "g" pt))).
    { unfold after_edit in A. cbn [fst snd] in A. pose proof (writes_add_many (e_model e) "g" pt rs) as W. destruct D as [a G].
      assert (NA : forall r, In r rs -> no_anagram r (stored e "g" pt)). { intros r I. apply g_distinct; auto. rewrite Forall_forall in P. auto. }
      assert (A1 : stored e "g" pt = rules_of (a_policy a)) by (apply rules_in_get; auto). rewrite A1 in *.
      unfold AddPolicies in *. destruct rs as [|r0 rs0].
      - destruct A as [S Q]. split; [eapply others_asts; eauto|]. left. rewrite (Q b eq_refl), (stored_asts _ _ _ _ _ S), (rules_in_get _ _ _ _ G), app_nil_r.
        split; auto.
      - rewrite G in *. cbn [bind] in *. set (rs := r0 :: rs0) in *. clearbody rs.
        destruct (existsb (has_rule (rules_of (a_policy a))) rs) eqn:H; destruct A as [S Q]; (split; [eapply others_asts; eauto|]).
        + right. rewrite (Q b eq_refl), (stored_asts _ _ _ _ _ S), (rules_in_get _ _ _ _ G). split; auto. split; auto.
          apply existsb_exists in H. destruct H as [r [I H]]. exists r. split; auto. apply has_rule_in in H; auto.
        + left. rewrite (Q b eq_refl), (stored_asts _ _ _ _ _ S), rules_in_put. split; auto.
          assert (H0 : forall r, In r rs -> ~ In r (rules_of (a_policy a))).
          { intros r I C. assert (existsb (has_rule (rules_of (a_policy a))) rs = true); [|congruence].
            apply existsb_exists. exists r. split; auto. apply has_rule_in; auto. }
          split; auto. destruct (a_policy a) as [l|l].
          * rewrite fold_emplace_vec. reflexivity.
          * rewrite fold_emplace_hash; auto. }
    destruct X as [K X]. exists (Said b), e'. split; [apply said_ok; auto|].
    assert (BY : by_call e e') by (apply (by_one (KAddGroupings pt rs)); cbn [safe_call shaped_call]; auto).
    destruct X as [[-> [N S]]|[-> [[r [I J]] S]]]; (split; [|split; auto]).
    - apply put_all_new; auto. apply kept_becomes; auto.
    - apply (order_kept Groupings pt _ _ _ _ R O P); auto; try discriminate.
      simpl. rewrite S. apply nodup_app; auto. apply (io_once _ _ _ _ _ _ _ O Groupings).
    - eapply put_all_again; eauto. eapply (kept_untouched Groupings); eauto.
    - apply (order_kept Groupings pt _ _ _ _ R O P); auto; try discriminate. simpl. rewrite S. apply (io_once _ _ _ _ _ _ _ O Groupings).
  Qed.
  Lemma drop_p : forall e pt r, ord e -> declared e "p" pt -> prules r -> goes (Drop Rules pt r) e.
  Proof.
    intros e pt r O D P. pose proof (io_once _ _ _ _ _ _ _ O Rules pt) as N. simpl in N.
    pose proof (remove_named e pt r D (p_distinct _ _ (io_rules _ _ _ _ _ _ _ O pt) P) N) as A.
    destruct (RemoveNamedPolicy pt r e) as [e' out] eqn:E. destruct A as [K [A1 A2]].
    destruct (in_dec (list_eq_dec string_dec) r (stored e "p" pt)) as [I|I].
    - destruct (A2 I) as [F [NI [pre [post [S1 S2]]]]]. assert (F2 := F ltac:(apply calm; auto)). clear F. subst out.
      assert (R : run o (KRemovePolicy pt r) e = (e', Ok tt)) by (eapply drop_said; exact E).
      pose proof N as N2. rewrite S1 in N2. apply NoDup_remove in N2. destruct N2 as [N2 N3]. rewrite in_app_iff in N3.
      exists (Said true), e'. split; [|split; [|split]].
      + apply said_ok; auto.
      + eapply drop_there; eauto. apply kept_becomes; auto.
      + apply (order_kept Rules pt _ _ _ _ R O Logic.I); auto; try discriminate.
        * simpl. rewrite S2. auto.
        * intros _ x X. eapply io_rules; eauto. rewrite S1, in_app_iff. rewrite S2, in_app_iff in X. simpl. tauto.
      + apply (by_one (KRemovePolicy pt r)); cbn [safe_call shaped_call]; auto; intros _; apply (proj1 DR); auto.
    - destruct (A1 I) as [-> ->]. apply (same_goes _ _ (Said false)); auto. { apply said_ok. auto. } apply drop_missing; auto.
  Qed.
  Lemma drop_g : forall e pt r, ord e -> declared e "g" pt -> rules r -> goes (Drop Groupings pt r) e.
  Proof.
    intros e pt r O D P. pose proof (io_once _ _ _ _ _ _ _ O Groupings pt) as N. simpl in N.
    pose proof (remove_grouping e pt r D (g_distinct _ _ _ O P) N) as A.
    destruct (remove_grouping_ok e pt r (io_managed _ _ _ _ _ _ _ O) D P) as [b B].
    destruct (RemoveNamedGroupingPolicy pt r e) as [e' out] eqn:E. simpl in B. subst out. destruct A as [K [A1 [A2 A3]]]. specialize (A3 b eq_refl).
    assert (R : run o (KRemoveGrouping pt r) e = (e', Ok tt)) by (eapply drop_said; exact E).
    exists (Said b), e'. split; [apply said_ok; auto|].
    destruct (in_dec (list_eq_dec string_dec) r (stored e "g" pt)) as [I|I].
    - assert (b = true) as -> by tauto. destruct (A2 I) as [NI [pre [post [S1 S2]]]].
      pose proof N as N2. rewrite S1 in N2. apply NoDup_remove in N2. destruct N2 as [N2 N3]. rewrite in_app_iff in N3. split; [|split].
      + eapply drop_there; eauto. apply kept_becomes; auto.
      + apply (order_kept Groupings pt _ _ _ _ R O P); auto; try discriminate. simpl. rewrite S2. auto.
      + apply (by_one (KRemoveGrouping pt r)); cbn [safe_call shaped_call]; auto; intros _; apply (proj1 DR); auto.
    - assert (b = false) as -> by (destruct b; tauto). split; [|split].
      + apply drop_missing; auto. eapply (kept_untouched Groupings); eauto.
      + apply (order_kept Groupings pt _ _ _ _ R O P); auto; try discriminate. simpl. rewrite A1 by auto. auto.
      + apply (by_one (KRemoveGrouping pt r)); cbn [safe_call shaped_call]; auto; intros _; apply (proj1 DR); auto.
  Qed.
  Lemma some_selected : forall P (l l' : list rule), selects P l l' -> (l' <> [] <-> exists r, In r l /\ P r).
  Proof.
    intros P l l' S. split.
    - intros N. destruct l' as [|x l']; [congruence|]. exists x. apply (selects_in _ _ _ x S). simpl. auto.
    - intros [r R] N. subst. apply (selects_in _ _ _ r S) in R. contradiction.
  Qed.
  Lemma drop_matching_p : forall e pt i vals, ord e -> declared e "p" pt -> i + List.length vals <= k -> goes (DropMatching Rules pt i vals) e.
  Proof.
    intros e pt i vals O D L. pose proof (io_once _ _ _ _ _ _ _ O Rules pt) as N. simpl in N.
    destruct (filtered_ok e "p" pt i vals D (p_range _ _ _ _ O L)) as [l [G SL]].
    pose proof (remove_filtered e pt i vals l D G) as A.
    destruct (RemoveFilteredNamedPolicy pt i vals e) as [e' out] eqn:E. destruct A as [K [A1 [A2 A3]]].
    assert (B : exists b, out = Ok b /\ (b = true <-> l <> [])).
    { destruct l as [|x l]; [exists false|exists true]; (split; [|split; congruence || auto]); auto.
      apply (proj1 (A3 ltac:(discriminate))). apply calm; auto. }
    destruct B as [b [-> B]].
    assert (R : run o (KRemoveFiltered pt i vals) e = (e', Ok tt)) by (eapply drop_said; exact E).
    exists (Said b), e'. split; [|split; [|split]].
    - apply said_ok; auto.
    - eapply drop_matching; eauto. { rewrite B. apply some_selected. auto. } apply kept_becomes; auto.
    - apply (order_kept Rules pt _ _ _ _ R O Logic.I); auto; try discriminate.
      + eapply nodup_selects; eauto.
      + intros _ x X. apply (selects_in _ _ _ x A1) in X. eapply io_rules; eauto. apply X.
    - apply (by_one (KRemoveFiltered pt i vals)); cbn [safe_call shaped_call]; auto; intros _; apply (proj1 DR); auto.
  Qed.
  Lemma drop_matching_g : forall e pt i vals, ord e -> declared e "g" pt -> i + List.length vals <= n -> goes (DropMatching Groupings pt i vals) e.
  Proof.
    intros e pt i vals O D L. pose proof (io_once _ _ _ _ _ _ _ O Groupings pt) as N. simpl in N.
    destruct (filtered_ok e "g" pt i vals D (g_range _ _ _ _ O L)) as [l [G SL]].
    pose proof (remove_filtered_grouping e pt i vals l D G) as A.
    destruct (remove_filtered_grouping_ok e pt i vals (io_managed _ _ _ _ _ _ _ O) D L) as [b B].
    destruct (RemoveFilteredNamedGroupingPolicy pt i vals e) as [e' out] eqn:E. simpl in B. subst out. destruct A as [K [A1 A2]].
    specialize (A2 b eq_refl).
    assert (R : run o (KRemoveFilteredGrouping pt i vals) e = (e', Ok tt)) by (eapply drop_said; exact E).
    exists (Said b), e'. split; [|split; [|split]].
    - apply said_ok; auto.
    - eapply drop_matching; eauto. { rewrite A2. apply some_selected. auto. } apply kept_becomes; auto.
    - apply (order_kept Groupings pt _ _ _ _ R O Logic.I); auto; try discriminate. eapply nodup_selects; eauto.
    - apply (by_one (KRemoveFilteredGrouping pt i vals)); cbn [safe_call shaped_call]; auto; intros _; apply (proj1 DR); auto.
  Qed.
  Lemma swap_p : forall e pt old new, ord e -> declared e "p" pt -> prules old -> prules new -> goes (Swap pt old new) e.
  Proof.
    intros e pt old new O D P P'. pose proof (io_once _ _ _ _ _ _ _ O Rules pt) as N. simpl in N.
    pose proof (io_rules _ _ _ _ _ _ _ O pt) as PR.
    pose proof (update_named e pt old new D (p_distinct _ _ PR P) N) as A.
    destruct (UpdateNamedPolicy pt old new e) as [e' out] eqn:E. destruct A as [K [A1 [A2 A3]]].
    destruct (in_dec (list_eq_dec string_dec) old (stored e "p" pt)) as [I|I].
    2:{ destruct (A1 I) as [-> ->]. apply (same_goes _ _ (Said false)); auto. { apply said_ok. auto. } apply swap_missing; auto. }
    apply in_split in I. destruct I as [pre [post S]].
    pose proof N as N2. rewrite S in N2. apply NoDup_remove in N2. destruct N2 as [N2 N3]. rewrite in_app_iff in N3.
    assert (PP : forall x, In x (pre ++ post) -> prules x).
    { intros x X. apply PR. rewrite S. rewrite in_app_iff in *. simpl. tauto. }
    destruct (in_dec (list_eq_dec string_dec) new (pre ++ post)) as [I|I].
    - destruct (A3 _ _ S I) as [-> S2].
      assert (R : run o (KUpdatePolicy pt old new) e = (e', Ok tt)) by (eapply drop_said; exact E).
      exists (Said false), e'. split; [|split; [|split]].
      + apply said_ok; auto.
      + eapply swap_onto; eauto. apply kept_becomes; auto.
      + apply (order_kept Rules pt _ _ _ _ R O Logic.I); auto; try discriminate.
        * simpl. rewrite S2. auto.
        * intros _ x X. rewrite S2 in X. auto.
      + apply (by_one (KUpdatePolicy pt old new)); cbn [safe_call shaped_call]; auto; intros _; apply (proj1 DR); auto.
    - destruct (A2 _ _ S (p_distinct _ _ PP P') I) as [-> S2].
      assert (R : run o (KUpdatePolicy pt old new) e = (e', Ok tt)) by (eapply drop_said; exact E).
      exists (Said true), e'. split; [|split; [|split]].
      + apply said_ok; auto.
      + eapply swap_there; eauto. apply kept_becomes; auto.
      + rewrite app_assoc in S2. apply (order_kept Rules pt _ _ _ _ R O Logic.I); auto; try discriminate.
        * simpl. rewrite S2. apply nodup_snoc; auto.
        * intros _ x X. rewrite S2, in_app_iff in X. destruct X as [X|[<-|[]]]; auto.
      + apply (by_one (KUpdatePolicy pt old new)); cbn [safe_call shaped_call]; auto; intros _; apply (proj1 DR); auto.
  Qed.
  Lemma ask_p : forall e pt r, ord e -> declared e "p" pt -> prules r -> goes (Ask Rules pt r) e.
  Proof.
    intros e pt r O D P. destruct (has_named e pt r D (p_distinct _ _ (io_rules _ _ _ _ _ _ _ O pt) P)) as [b [E B]].
    apply (same_goes _ _ (Said b)); auto. { apply said_ok. auto. } apply ask; auto.
  Qed.
  Lemma ask_g : forall e pt r, ord e -> declared e "g" pt -> rules r -> goes (Ask Groupings pt r) e.
  Proof.
    intros e pt r O D P. destruct (has_in e "g" pt r D (g_distinct _ _ _ O P)) as [b [E B]].
    apply (same_goes _ _ (Said b)); auto. { apply said_ok. exact E. } apply ask; auto.
  Qed.
  Lemma op_goes : forall e q, ord e -> op_in k n prules rules e q -> goes q e.
  Proof.
    intros e q O I. destruct q as [[] pt r|[] pt rs|[] pt r|[] pt i vals|pt old new|[] pt r|[] pt|[] pt i vals]; simpl in I.
    - apply put_p; tauto.
    - apply put_g; tauto.
    - apply put_all_p; tauto.
    - apply put_all_g; tauto.
    - apply drop_p; tauto.
    - apply drop_g; tauto.
    - apply drop_matching_p; tauto.
    - apply drop_matching_g; tauto.
    - apply swap_p; tauto.
    - apply ask_p; tauto.
    - apply ask_g; tauto.
    - apply (same_goes _ _ (Listed (stored e "p" pt))); auto. { apply listed_ok. apply get_in. auto. } apply (show Rules); auto.
    - apply (same_goes _ _ (Listed (stored e "g" pt))); auto. { apply listed_ok. apply get_in. auto. } apply (show Groupings); auto.
    - destruct I as [D L]. destruct (filtered_ok e "p" pt i vals D (p_range _ _ _ _ O L)) as [l [G S]].
      apply (same_goes _ _ (Listed l)); auto. { apply listed_ok. apply query_in. auto. } apply (show_matching Rules); auto.
    - destruct I as [D L]. destruct (filtered_ok e "g" pt i vals D (g_range _ _ _ _ O L)) as [l [G S]].
      apply (same_goes _ _ (Listed l)); auto. { apply listed_ok. apply query_in. auto. } apply (show_matching Groupings); auto.
  Qed.
  Lemma op_in_kept : forall e e' q, (forall sec pt, declared e sec pt -> declared e' sec pt) -> batch_kept e e' ->
    op_in k n prules rules e q -> op_in k n prules rules e' q.
  Proof. intros e e' q K BK I. destruct q; simpl in *; intuition. Qed.
  Inductive by_calls : enforcer -> enforcer -> Prop :=
  | bc_nil : forall e, by_calls e e
  | bc_cons : forall e e1 e2, by_call e e1 -> by_calls e1 e2 -> by_calls e e2.
  Lemma all_go : forall qs e, ord e -> Forall (op_in k n prules rules e) qs ->
    exists answers e', perform_all qs e = (e', map Ok answers) /\ table_run qs (table_of e) answers (table_of e') /\ ord e' /\ by_calls e e'.
  Proof.
    induction qs as [|q qs IH]; intros e O F.
    - exists [], e. split; [reflexivity|]. split; [constructor; auto|]. split; auto. constructor.
    - inversion F; subst. destruct (op_goes e q O H1) as [a [e1 [P1 [S1 [O1 D1]]]]].
      destruct (IH e1 O1) as [l [e2 [P2 [S2 [O2 D2]]]]].
      { eapply Forall_impl; [|exact H2]. intros x X. eapply op_in_kept; [| |exact X]; [apply call_keeps; auto|]. pose proof (bk_perform q e) as BK. rewrite P1 in BK. exact BK. }
      exists (a :: l), e2. split. { simpl. rewrite P1, P2. auto. } split; [econstructor; eauto|]. split; auto. econstructor; eauto.
  Qed.
End Calls.
