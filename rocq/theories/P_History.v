(** Relations kept by API calls: a small logic of enforcer methods. *)
From Verif Require Import Base P_Base M_Util M_RoleManager M_Model M_Persist M_Evaluator M_Enforcer S_Policy S_History P_Decide P_Store P_Api.

(** [c] relates the state before and the state after by [R], whatever its outcome. *)
Definition keeps {A} (R : enforcer -> enforcer -> Prop) (c : M A) : Prop := forall e, R e (fst (c e)).

(** An assertion up to its role manager. *)
Definition strip (r : res assertion) : res (string * string * list string * store) :=
  let! a := r in Ok (a_key a, a_value a, a_tokens a, a_policy a).
Definition same_asts (e e' : enforcer) : Prop :=
  forall sec pt, strip (get_ast (e_model e') sec pt) = strip (get_ast (e_model e) sec pt).

Lemma same_asts_refl : forall e, same_asts e e.
Proof. intros e sec pt. reflexivity. Qed.
Lemma same_asts_trans : forall a b c, same_asts a b -> same_asts b c -> same_asts a c.
Proof. intros a b c H1 H2 sec pt. rewrite H2. apply H1. Qed.
Lemma same_asts_stored : forall e e' sec pt, same_asts e e' -> stored e' sec pt = stored e sec pt.
Proof.
  intros e e' sec pt H. specialize (H sec pt). unfold stored, rules_in, strip in *.
  destruct (get_ast (e_model e') sec pt), (get_ast (e_model e) sec pt); simpl in H; congruence.
Qed.
Lemma same_asts_declared : forall e e' sec pt, same_asts e e' -> (declared e' sec pt <-> declared e sec pt).
Proof.
  intros e e' sec pt H. specialize (H sec pt). unfold declared, strip in *.
  destruct (get_ast (e_model e') sec pt), (get_ast (e_model e) sec pt); simpl in H; try discriminate;
    split; intros [x X]; try discriminate; eauto.
Qed.
Lemma same_model_asts : forall e e', e_model e' = e_model e -> same_asts e e'.
Proof. intros e e' H sec pt. rewrite H. reflexivity. Qed.

Lemma get_touch : forall m s sec pt, get_ast (touch m s) sec pt = get_ast m sec pt.
Proof.
  intros. unfold get_ast, touch, sec_of. rewrite aget_ainsert.
  seqb sec s; auto. subst. destruct (aget s m); reflexivity.
Qed.

Section Logic.
  Variable R : enforcer -> enforcer -> Prop.
  Hypothesis R_refl : forall e, R e e.
  Hypothesis R_trans : forall a b c, R a b -> R b c -> R a c.

  Lemma keeps_ret : forall A (a : A), keeps R (ret a).
  Proof. intros A a e. apply R_refl. Qed.
  Lemma keeps_fail : forall A x, keeps R (@fail A x).
  Proof. intros A a e. apply R_refl. Qed.
  Lemma keeps_undef : forall A x, keeps R (@undef A x).
  Proof. intros A a e. apply R_refl. Qed.
  Lemma keeps_lift : forall A (x : res A), keeps R (lift x).
  Proof. intros A a e. apply R_refl. Qed.
  Lemma keeps_read : forall A (f : model -> res A), keeps R (read_model f).
  Proof. intros A a e. apply R_refl. Qed.
  Lemma keeps_bind : forall A B (c : M A) (k : A -> M B), keeps R c -> (forall a, keeps R (k a)) -> keeps R (mbind c k).
  Proof.
    intros A B c k C K e. unfold mbind. specialize (C e). destruct (c e) as [e1 [a|t|u]]; simpl in *; auto.
    eapply R_trans; eauto. apply K.
  Qed.
  Lemma keeps_drop : forall A (c : M A), keeps R c -> keeps R (drop_value c).
  Proof. intros. apply keeps_bind; auto. Qed.
  Lemma keeps_modify : forall f, (forall e, R e (f e)) -> keeps R (modify f).
  Proof. intros f H e. apply H. Qed.
  Lemma keeps_when : forall sec c, (sec = "g" -> keeps R c) -> keeps R (when_g sec c).
  Proof. intros. unfold when_g. seqb sec "g"; auto using keeps_ret. Qed.
  Lemma keeps_on_model : forall A (f : model -> res (model * A)),
    (forall e m a, f (e_model e) = Ok (m, a) -> R e (set_model m e)) -> keeps R (on_model f).
  Proof.
    intros A f H e. unfold on_model. destruct (f (e_model e)) as [[m a]|t|u] eqn:E; simpl; auto. eapply H; eauto.
  Qed.
End Logic.

Ltac kb := intros; apply keeps_bind; [first [exact same_asts_trans|assumption]| |].
Ltac kr := intros; first [apply keeps_ret|apply keeps_fail|apply keeps_undef|apply keeps_lift|apply keeps_read]; first [exact same_asts_refl|assumption].

(** ** What keeps all assertions: links, queries, saving, enforcement *)
Section Quiet.
  Let R := same_asts.
  Let rr := same_asts_refl.
  Let rt := same_asts_trans.

  Lemma quiet_incremental : forall op pt rs, keeps R (e_BuildIncrementalRoleLinks op pt rs).
  Proof.
    intros op pt rs e. unfold e_BuildIncrementalRoleLinks, BuildIncrementalRoleLinks. simpl.
    destruct (get_ast (e_model e) "g" pt) as [a|t|u] eqn:G; simpl; try (apply same_model_asts; reflexivity).
    assert (Q : forall e', e_model e' = put_ast (e_model e) "g" pt (with_rm a (Some (e_rm e))) -> same_asts e e').
    { intros e' E' sec q. rewrite E'. destruct (pair_dec sec q "g" pt) as [V|V].
      - inversion V; subst. rewrite get_put_ast_same, G. reflexivity.
      - rewrite get_put_ast_other by auto. reflexivity. }
    destruct (hget (e_heap e) (e_rm e)) as [r|t|u]; simpl; try (apply Q; reflexivity).
    destruct (ast_links op (a_value a) r rs). simpl. apply Q. reflexivity.
  Qed.

  Lemma build_asts_strip : forall todo h rm k,
    strip (match aget k (fst (fst (build_asts h rm todo))) with Some a => Ok a | None => UB NullDeref end) =
    strip (match aget k todo with Some a => Ok a | None => UB NullDeref end).
  Proof.
    induction todo as [|[k0 a0] rest IH]; simpl; intros; auto.
    destruct (hget h rm) as [r|t|u]; simpl.
    - destruct (ast_links policy_add (a_value a0) r (rules_of (a_policy a0))) as [r' [x|t|u]]; simpl.
      + specialize (IH (hset h rm r') rm k). destruct (build_asts (hset h rm r') rm rest) as [[am h'] out]. simpl in *.
        destruct (String.eqb k k0); auto.
      + destruct (String.eqb k k0); auto.
      + destruct (String.eqb k k0); auto.
    - destruct (String.eqb k k0); auto.
    - destruct (String.eqb k k0); auto.
  Qed.

  Lemma quiet_rebuild : keeps R e_BuildRoleLinks.
  Proof.
    intros e. unfold e_BuildRoleLinks, BuildRoleLinks. destruct (hget (e_heap e) (e_rm e)) as [r|t|u]; simpl; try apply rr.
    set (h := hset (e_heap e) (e_rm e) (Clear r)).
    pose proof (build_asts_strip (sec_of (touch (e_model e) "g") "g") h (e_rm e)) as B.
    destruct (build_asts h (e_rm e) (sec_of (touch (e_model e) "g") "g")) as [[am h'] out]. simpl in *.
    intros sec pt. simpl. rewrite <- (get_touch (e_model e) "g" sec pt). unfold get_ast at 1. unfold sec_of. rewrite aget_aset.
    seqb sec "g"; [subst|reflexivity]. rewrite B. reflexivity.
  Qed.
  Lemma quiet_rebuild_if : keeps R rebuild_if_auto.
  Proof. intros e. unfold rebuild_if_auto. destruct (e_auto_build e); [apply quiet_rebuild|apply rr]. Qed.
  Lemma quiet_autosave : forall c, keeps R (autosave c).
  Proof. intros c e. apply same_model_asts. apply autosave_core. Qed.
  Lemma quiet_notify : keeps R notify.
  Proof. intros e. apply same_model_asts. apply notify_core. Qed.
  Lemma quiet_notify_always : keeps R notify_always.
  Proof. intros e. apply same_model_asts. unfold notify_always. destruct (e_watcher e); reflexivity. Qed.
  Lemma quiet_links_if : forall pt r,
    keeps R (fun e => if e_auto_build e then e_BuildIncrementalRoleLinks policy_add pt [r] e else (e, Ok tt)).
  Proof. intros pt r e. simpl. destruct (e_auto_build e); [apply quiet_incremental|apply rr]. Qed.

  Lemma quiet_all_types : forall sec i, keeps R (all_types sec i).
  Proof.
    intros sec i e. unfold all_types. simpl. intros s pt. simpl. rewrite get_touch. reflexivity.
  Qed.
  Lemma quiet_rm_GetRoles : forall i n d, keeps R (rm_GetRoles i n d).
  Proof.
    intros i n d e. unfold rm_GetRoles. destruct (hget (e_heap e) i); simpl; try apply rr.
    destruct (GetRoles a n d). simpl. apply same_model_asts. reflexivity.
  Qed.
  Lemma quiet_GetRolesForUser : forall n d, keeps R (GetRolesForUser n d).
  Proof. intros n d e. unfold GetRolesForUser. destruct (g_rm e); try apply rr. apply quiet_rm_GetRoles. Qed.
  Lemma quiet_implicit_loop : forall fuel d q seen acc, keeps R (implicit_loop fuel d q seen acc).
  Proof.
    induction fuel as [|n IH]; intros d [|x q] seen acc; simpl; try kr.
    kb; auto. intros e. apply quiet_rm_GetRoles.
  Qed.
  Lemma quiet_implicit_roles : forall n d, keeps R (GetImplicitRolesForUser n d).
  Proof.
    intros n d e. unfold GetImplicitRolesForUser. destruct (hget (e_heap e) (e_rm e)); try apply rr. apply quiet_implicit_loop.
  Qed.
  Lemma quiet_perms_of : forall d roles, keeps R (perms_of d roles).
  Proof.
    induction roles as [|r rs IH]; simpl. { kr. }
    kb. { destruct d; kr. }
    kb; [auto|try kr].
  Qed.
  Lemma quiet_implicit_perms : forall n d, keeps R (GetImplicitPermissionsForUser n d).
  Proof.
    kb. { apply quiet_implicit_roles. }
    intros. destruct (Nat.ltb 1 (List.length d)). { kr. } apply quiet_perms_of.
  Qed.
  Lemma quiet_enforceEx : forall o matcher params, keeps R (EnforceExWithMatcher o matcher params).
  Proof. intros o matcher params e. destruct (EnforceEx_frame o matcher params e) as [ev ->]. apply same_model_asts. reflexivity. Qed.
  Lemma quiet_enforceExMap : forall o matcher params, keeps R (EnforceExWithMatcherMap o matcher params).
  Proof. intros o matcher params e. destruct (EnforceExMap_frame o matcher params e) as [ev ->]. apply same_model_asts. reflexivity. Qed.
  Lemma quiet_enforce : forall o matcher params, keeps R (EnforceWithMatcher o matcher params).
  Proof. kb. { apply quiet_enforceEx. } kr. Qed.
  Lemma quiet_enforceMap : forall o matcher params, keeps R (EnforceWithMatcherMap o matcher params).
  Proof. kb. { apply quiet_enforceExMap. } kr. Qed.
  Lemma quiet_batch : forall o matcher reqs, keeps R (BatchEnforceWithMatcher o matcher reqs).
  Proof.
    induction reqs; simpl. { kr. }
    kb. { apply quiet_enforce. } kb; [auto|try kr].
  Qed.
  Lemma quiet_allowed : forall o perm subs, keeps R (allowed_subjects o perm subs).
  Proof.
    induction subs; simpl. { kr. }
    kb. { kr. } intros.
    kb. { kr. } intros.
    kb. { apply quiet_enforce. } intros.
    kb; [auto|try kr].
  Qed.
  Lemma quiet_implicit_users : forall o perm, keeps R (GetImplicitUsersForPermission o perm).
  Proof.
    intros. unfold GetImplicitUsersForPermission.
    kb. { apply quiet_all_types. } intros.
    kb. { apply quiet_all_types. } intros.
    kb. { apply quiet_all_types. } intros.
    kb. { apply quiet_allowed. } kr.
  Qed.
  Lemma quiet_adapter_save : keeps R adapter_save.
  Proof.
    intros e. unfold adapter_save. destruct (e_adapter e) as [[b p|l|p fd|u]|]; try apply rr.
    - unfold FileAdapter_SavePolicy. destruct (String.eqb p ""). { simpl. apply same_model_asts. reflexivity. }
      destruct (policy_text (touch (touch (e_model e) "p") "g")) as [t|t|t]; simpl.
      + destruct (SavePolicyFile (e_fs e) p t). simpl. intros sec pt. simpl. rewrite !get_touch. reflexivity.
      + intros sec pt. simpl. rewrite !get_touch. reflexivity.
      + intros sec pt. simpl. rewrite !get_touch. reflexivity.
    - unfold StringAdapter_SavePolicy. destruct (String.eqb l ""). { simpl. apply same_model_asts. reflexivity. }
      destruct (policy_text (touch (touch (e_model e) "p") "g")) as [t|t|t]; simpl;
        intros sec pt; simpl; rewrite !get_touch; reflexivity.
  Qed.
  Lemma quiet_save : keeps R SavePolicy.
  Proof.
    kb.
    - intros e. unfold IsFiltered. destruct (e_adapter e); apply rr.
    - intros []. { kr. } kb. { apply quiet_adapter_save. } intros. apply quiet_notify_always.
  Qed.
  Lemma quiet_matching : forall fn, keeps R (AddNamedMatchingFunc fn).
  Proof.
    intros fn e. unfold AddNamedMatchingFunc. destruct (hget (e_heap e) (e_rm e)); try apply rr. apply same_model_asts. reflexivity.
  Qed.
End Quiet.

(** ** A relation containing [same_asts] is kept by a call when it is kept by the model
    operations the call performs. *)
Section Calls.
  Variable R : enforcer -> enforcer -> Prop.
  Hypothesis R_refl : forall e, R e e.
  Hypothesis R_trans : forall a b c, R a b -> R b c -> R a c.
  Hypothesis R_quiet : forall e e', same_asts e e' -> R e e'.

  Lemma quiet : forall A (c : M A), keeps same_asts c -> keeps R c.
  Proof. intros A c H e. apply R_quiet. apply H. Qed.

  Lemma keeps_tail : forall sec pt op rs c,
    keeps R (when_g sec (e_BuildIncrementalRoleLinks op pt rs) ;;; autosave c ;;; notify ;;; ret true).
  Proof.
    kb. { apply quiet. apply keeps_when; auto using same_asts_refl. intros. apply quiet_incremental. }
    kb. { apply quiet, quiet_autosave. }
    kb. { apply quiet, quiet_notify. }
    kr.
  Qed.
  Lemma keeps_update_tail : forall sec pt olds news,
    keeps R (when_g sec (e_BuildIncrementalRoleLinks policy_remove pt olds ;;;
                         e_BuildIncrementalRoleLinks policy_add pt news) ;;; notify ;;; ret true).
  Proof.
    kb.
    { apply quiet. apply keeps_when; auto using same_asts_refl. intros.
      kb; intros; apply quiet_incremental. }
    kb. { apply quiet, quiet_notify. }
    kr.
  Qed.

  Lemma keeps_add : forall sec pt r, keeps R (on_model (fun m => AddPolicy m sec pt r)) -> keeps R (i_addPolicy sec pt r).
  Proof. kb; auto. intros []; simpl. { apply keeps_tail. } kr. Qed.
  Lemma keeps_add_many : forall sec pt r, keeps R (on_model (fun m => AddPolicies m sec pt r)) -> keeps R (i_addPolicies sec pt r).
  Proof. kb; auto. intros []; simpl. { apply keeps_tail. } kr. Qed.
  Lemma keeps_remove : forall sec pt r, keeps R (on_model (fun m => RemovePolicy m sec pt r)) -> keeps R (i_removePolicy sec pt r).
  Proof. kb; auto. intros []; simpl. { apply keeps_tail. } kr. Qed.
  Lemma keeps_remove_many : forall sec pt r, keeps R (on_model (fun m => AddPolicies m sec pt r)) -> keeps R (i_removePolicies sec pt r).
  Proof. kb; auto. intros []; simpl. { apply keeps_tail. } kr. Qed.
  Lemma keeps_remove_filtered : forall sec pt i vals, keeps R (on_model (fun m => RemoveFilteredPolicy m sec pt i vals)) ->
    keeps R (i_removeFilteredPolicy sec pt i vals).
  Proof. kb; auto. intros [[] eff]; simpl. { apply keeps_tail. } kr. Qed.
  Lemma keeps_update : forall sec pt old new, keeps R (on_model (fun m => UpdatePolicy m sec pt old new)) ->
    keeps R (i_updatePolicy sec pt old new).
  Proof. kb; auto. intros []; simpl. { apply keeps_update_tail. } kr. Qed.
  Lemma keeps_update_many : forall sec pt olds news, keeps R (on_model (fun m => UpdatePolicies m sec pt olds news)) ->
    keeps R (i_updatePolicies sec pt olds news).
  Proof. kb; auto. intros []; simpl. { apply keeps_update_tail. } kr. Qed.

  Lemma keeps_add_grouping : forall pt r, keeps R (on_model (fun m => AddPolicy m "g" pt r)) -> keeps R (AddNamedGroupingPolicy pt r).
  Proof.
    kb. { apply keeps_add; auto. }
    kb. { apply quiet, quiet_links_if. } kr.
  Qed.
  Lemma keeps_remove_grouping : forall pt r, keeps R (on_model (fun m => RemovePolicy m "g" pt r)) -> keeps R (RemoveNamedGroupingPolicy pt r).
  Proof.
    kb. { apply keeps_remove; auto. }
    kb. { apply quiet, quiet_rebuild_if. } kr.
  Qed.
  Lemma keeps_remove_filtered_grouping : forall pt i vals, keeps R (on_model (fun m => RemoveFilteredPolicy m "g" pt i vals)) ->
    keeps R (RemoveFilteredNamedGroupingPolicy pt i vals).
  Proof.
    kb. { apply keeps_remove_filtered; auto. }
    kb. { apply quiet, quiet_rebuild_if. } kr.
  Qed.
  Lemma keeps_add_roles : forall user roles f, (forall r, In r roles -> keeps R (on_model (fun m => AddPolicy m "g" "g" [user; r]))) ->
    keeps R (add_roles user roles f).
  Proof.
    induction roles as [|r rs IH]; simpl; intros. { kr. }
    kb. { apply keeps_add_grouping; auto. } intros b. apply IH. auto.
  Qed.
  Lemma keeps_delete_user : forall u, keeps R (on_model (fun m => RemoveFilteredPolicy m "g" "g" 0 [u])) ->
    keeps R (on_model (fun m => RemoveFilteredPolicy m "p" "p" 0 [u])) -> keeps R (DeleteUser u).
  Proof.
    kb. { apply keeps_remove_filtered_grouping; auto. } intros.
    kb. { apply keeps_remove_filtered; auto. } kr.
  Qed.
  Lemma keeps_delete_role : forall u, keeps R (on_model (fun m => RemoveFilteredPolicy m "g" "g" 1 [u])) ->
    keeps R (on_model (fun m => RemoveFilteredPolicy m "p" "p" 0 [u])) -> keeps R (DeleteRole u).
  Proof.
    kb. { apply keeps_remove_filtered_grouping; auto. } intros.
    kb. { apply keeps_remove_filtered; auto. } kr.
  Qed.

  (** The model operations of the calls that edit the policy. *)
  Definition edits_keep (c : call) : Prop :=
    match c with
    | KAddPolicy pt r => keeps R (on_model (fun m => AddPolicy m "p" pt r))
    | KAddPolicies pt rs | KRemovePolicies pt rs => keeps R (on_model (fun m => AddPolicies m "p" pt rs))
    | KRemovePolicy pt r => keeps R (on_model (fun m => RemovePolicy m "p" pt r))
    | KRemoveFiltered pt i vals => keeps R (on_model (fun m => RemoveFilteredPolicy m "p" pt i vals))
    | KUpdatePolicy pt old new => keeps R (on_model (fun m => UpdatePolicy m "p" pt old new))
    | KUpdatePolicies pt olds news => keeps R (on_model (fun m => UpdatePolicies m "p" pt olds news))
    | KAddGrouping pt r => keeps R (on_model (fun m => AddPolicy m "g" pt r))
    | KAddGroupings pt rs | KRemoveGroupings pt rs => keeps R (on_model (fun m => AddPolicies m "g" pt rs))
    | KRemoveGrouping pt r => keeps R (on_model (fun m => RemovePolicy m "g" pt r))
    | KRemoveFilteredGrouping pt i vals => keeps R (on_model (fun m => RemoveFilteredPolicy m "g" pt i vals))
    | KUpdateGrouping pt old new => keeps R (on_model (fun m => UpdatePolicy m "g" pt old new))
    | KAddRolesForUser u roles => forall r, In r roles -> keeps R (on_model (fun m => AddPolicy m "g" "g" [u; r]))
    | KDeleteUser u => keeps R (on_model (fun m => RemoveFilteredPolicy m "g" "g" 0 [u])) /\
                       keeps R (on_model (fun m => RemoveFilteredPolicy m "p" "p" 0 [u]))
    | KDeleteRole u => keeps R (on_model (fun m => RemoveFilteredPolicy m "g" "g" 1 [u])) /\
                       keeps R (on_model (fun m => RemoveFilteredPolicy m "p" "p" 0 [u]))
    | KClearPolicy => keeps R e_ClearPolicy
    | KLoadPolicy => keeps R LoadPolicy
    | KLoadFilteredPolicy flt => keeps R (e_LoadFilteredPolicy flt)
    | KSetModel m => keeps R (SetModel m)
    | _ => True
    end.

  Lemma run_keeps : forall o c, edits_keep c -> keeps R (run o c).
  Proof.
    intros o c E. destruct c; simpl in *; auto; try apply keeps_drop; auto.
    - apply keeps_add; auto.
    - apply keeps_add_many; auto.
    - apply keeps_remove; auto.
    - apply keeps_remove_many; auto.
    - apply keeps_remove_filtered; auto.
    - apply keeps_update; auto.
    - apply keeps_update_many; auto.
    - apply keeps_add_grouping; auto.
    - apply keeps_add_many; auto.
    - apply keeps_remove_grouping; auto.
    - apply keeps_remove_many; auto.
    - apply keeps_remove_filtered_grouping; auto.
    - apply keeps_update; auto.
    - apply keeps_add_roles; auto.
    - apply keeps_delete_user; tauto.
    - apply keeps_delete_role; tauto.
    - apply quiet, quiet_all_types.
    - apply quiet, quiet_GetRolesForUser.
    - apply quiet, quiet_implicit_roles.
    - apply quiet, quiet_implicit_perms.
    - apply quiet, quiet_implicit_users.
    - apply quiet, quiet_enforce.
    - apply quiet, quiet_enforceMap.
    - apply quiet, quiet_batch.
    - apply quiet, quiet_save.
    - apply quiet, quiet_rebuild.
    - intros e. apply R_quiet, same_model_asts. reflexivity.
    - intros e. apply R_quiet, same_model_asts. reflexivity.
    - intros e. apply R_quiet, same_model_asts. reflexivity.
    - intros e. apply R_quiet, same_model_asts. reflexivity.
    - intros e. apply R_quiet, same_model_asts. reflexivity.
    - intros e. apply R_quiet, same_model_asts. reflexivity.
    - intros e. apply R_quiet, same_model_asts. reflexivity.
    - intros e. apply R_quiet, same_model_asts. reflexivity.
    - apply quiet, quiet_matching.
  Qed.

  Lemma reaches_keeps : forall o cs e e', Forall edits_keep cs -> reaches o e cs e' -> R e e'.
  Proof.
    intros o cs e e' F H. induction H; auto. inversion F; subst.
    eapply R_trans; [|apply IHreaches; auto]. pose proof (run_keeps o c H4 e) as K. rewrite H in K. exact K.
  Qed.
End Calls.

(** Every model operation writes one assertion's rules. *)
Definition writes (m m' : model) (sec pt : string) : Prop :=
  m' = m \/ exists a p, get_ast m sec pt = Ok a /\ m' = put_policy m sec pt a p.
Lemma writes_add : forall m sec pt r m' b, AddPolicy m sec pt r = Ok (m', b) -> writes m m' sec pt.
Proof.
  intros m sec pt r m' b. unfold AddPolicy. destruct (get_ast m sec pt) as [a| |] eqn:G; try discriminate. cbn [bind].
  destruct (has_rule (rules_of (a_policy a)) r); intros H; inversion H; subst; [left; auto|right; eauto].
Qed.
Lemma writes_add_many : forall m sec pt rs m' b, AddPolicies m sec pt rs = Ok (m', b) -> writes m m' sec pt.
Proof.
  intros m sec pt rs m' b. unfold AddPolicies. destruct rs as [|r rs]. { intros H. inversion H. left. auto. }
  destruct (get_ast m sec pt) as [a| |] eqn:G; try discriminate. cbn [bind].
  destruct (existsb (has_rule (rules_of (a_policy a))) (r :: rs)); intros H; inversion H; subst; [left; auto|right; eauto].
Qed.
Lemma writes_remove : forall m sec pt r m' b, RemovePolicy m sec pt r = Ok (m', b) -> writes m m' sec pt.
Proof.
  intros m sec pt r m' b. unfold RemovePolicy. destruct (get_ast m sec pt) as [a| |] eqn:G; try discriminate. cbn [bind].
  destruct (erase_first r (rules_of (a_policy a))); intros H; inversion H; subst; [right; eauto|left; auto].
Qed.
Lemma writes_remove_filtered : forall m sec pt i vals m' b, RemoveFilteredPolicy m sec pt i vals = Ok (m', b) -> writes m m' sec pt.
Proof.
  intros m sec pt i vals m' b. unfold RemoveFilteredPolicy. destruct (get_ast m sec pt) as [a| |] eqn:G; try discriminate. cbn [bind].
  destruct (partition_rules i vals (rules_of (a_policy a))) as [[eff tmp]| |]; try discriminate. cbn [bind].
  intros H; inversion H; subst; right; eauto.
Qed.
Lemma writes_update : forall m sec pt old new m' b, UpdatePolicy m sec pt old new = Ok (m', b) -> writes m m' sec pt.
Proof.
  intros m sec pt old new m' b. unfold UpdatePolicy. destruct (get_ast m sec pt) as [a| |] eqn:G; try discriminate. cbn [bind].
  destruct (erase_first old (rules_of (a_policy a))) as [l|]; [destruct (has_rule l new)|]; intros H; inversion H; subst;
    [right; eauto|right; eauto|left; auto].
Qed.
Lemma writes_update_many : forall m sec pt olds news m' b, UpdatePolicies m sec pt olds news = Ok (m', b) -> writes m m' sec pt.
Proof.
  intros m sec pt olds news m' b. unfold UpdatePolicies. destruct (get_ast m sec pt) as [a| |] eqn:G; try discriminate. cbn [bind].
  destruct (erase_all olds (rules_of (a_policy a))) as [l ok].
  destruct (negb ok); [|destruct (existsb (has_rule l) news)]; intros H; inversion H; subst; right; eauto.
Qed.

Lemma writes_other : forall e m' sec pt sec' pt', writes (e_model e) m' sec pt -> (sec', pt') <> (sec, pt) ->
  stored (set_model m' e) sec' pt' = stored e sec' pt'.
Proof.
  intros e m' sec pt sec' pt' [->|[a [p [G ->]]]] N; [reflexivity|]. unfold stored. simpl. apply rules_in_put_other. auto.
Qed.

Lemma not_about : forall o c e sec pt, ~ about c sec pt -> stored (fst (run o c e)) sec pt = stored e sec pt.
Proof.
  intros o c e sec pt N. set (R := fun e e' : enforcer => stored e' sec pt = stored e sec pt).
  change (R e (fst (run o c e))). revert e. change (keeps R (run o c)). apply run_keeps; unfold R.
  - reflexivity.
  - intros a b d H1 H2. congruence.
  - intros. apply same_asts_stored. auto.
  - Ltac other_type :=
      intros; apply keeps_on_model; [reflexivity|]; intros e0 m0 a0 Q;
      (eapply writes_other;
       [ first [eapply writes_add; exact Q|eapply writes_add_many; exact Q|eapply writes_remove; exact Q
               |eapply writes_remove_filtered; exact Q|eapply writes_update; exact Q|eapply writes_update_many; exact Q]
       | let V := fresh in intro V; inversion V; subst; tauto ]).
    destruct c; simpl in *; auto; try tauto; try other_type; split; other_type.
Qed.
