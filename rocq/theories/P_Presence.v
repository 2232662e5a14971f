(** Which parts an enforcer has: for property C88. *)
From Verif Require Import Base P_Base M_Util M_RoleManager M_Effector M_Model M_Persist M_Eval M_Evaluator M_Enforcer M_Matcher
  S_Effect S_Enforce S_Policy S_History S_Roles S_Sync S_Rbac S_Copies P_Enforce P_Decide P_Store P_Api P_History P_Sync P_Ready P_Switch.

(** As P_Ready.v, section Parts, for relations that need the adapter or watcher to be there
    before it is written. *)
Section Held.
  Variable R : enforcer -> enforcer -> Prop.
  Hypothesis R_refl : forall e, R e e.
  Hypothesis R_trans : forall a b c, R a b -> R b c -> R a c.
  Hypothesis R_model : forall m e, R e (set_model m e).
  Hypothesis R_heap : forall h e, R e (set_heap h e).
  Hypothesis R_adapter : forall a a0 e, e_adapter e = Some a0 -> R e (set_adapter (Some a) e).
  Hypothesis R_watcher : forall w n e, e_watcher e = Some n -> R e (set_watcher (Some w) e).
  Hypothesis R_fs : forall f e, R e (set_fs f e).

  Ltac b := intros; apply keeps_bind; [exact R_trans| |].
  Ltac r := intros; first [apply keeps_ret|apply keeps_fail|apply keeps_undef|apply keeps_lift|apply keeps_read]; exact R_refl.

  Lemma held_on_model : forall A (f : model -> res (model * A)), keeps R (on_model f).
  Proof. intros. apply keeps_on_model; auto. Qed.
  Lemma held_incremental : forall op pt rs, keeps R (e_BuildIncrementalRoleLinks op pt rs).
  Proof.
    intros op pt rs e. unfold e_BuildIncrementalRoleLinks. destruct (BuildIncrementalRoleLinks (e_model e) (e_heap e) (e_rm e) op "g" pt rs) as [[m h] out].
    simpl. eapply R_trans; [apply R_model|apply R_heap].
  Qed.
  Lemma held_rebuild : keeps R e_BuildRoleLinks.
  Proof.
    intros e. unfold e_BuildRoleLinks. destruct (hget (e_heap e) (e_rm e)); simpl; auto.
    destruct (BuildRoleLinks (e_model e) (hset (e_heap e) (e_rm e) (Clear a)) (e_rm e)) as [[m h] out].
    simpl. eapply R_trans; [apply R_model|apply R_heap].
  Qed.
  Lemma held_rebuild_if : keeps R rebuild_if_auto.
  Proof. intros e. unfold rebuild_if_auto. destruct (e_auto_build e); auto. apply held_rebuild. Qed.
  Lemma held_autosave : forall c, keeps R (autosave c).
  Proof.
    intros c e. unfold autosave. destruct (e_adapter e) eqn:A; auto. destruct (e_auto_save e); auto.
    destruct (adapter_call a c) as [a' out]. destruct out as [|[]|]; simpl; eauto.
  Qed.
  Lemma held_notify : keeps R notify.
  Proof. intros e. unfold notify. destruct (e_watcher e) eqn:W; auto. destruct (e_notify e); simpl; eauto. Qed.
  Lemma held_notify_always : keeps R notify_always.
  Proof. intros e. unfold notify_always. destruct (e_watcher e) eqn:W; simpl; eauto. Qed.
  Lemma held_when : forall sec c, keeps R c -> keeps R (when_g sec c).
  Proof. intros. apply keeps_when; auto. Qed.
  Lemma held_tail : forall sec c d, keeps R c -> keeps R (when_g sec c ;;; autosave d ;;; notify ;;; ret true).
  Proof. intros. b; [apply held_when; auto|]. b; [apply held_autosave|]. b; [apply held_notify|]. r. Qed.
  Lemma held_update_tail : forall sec c, keeps R c -> keeps R (when_g sec c ;;; notify ;;; ret true).
  Proof. intros. b; [apply held_when; auto|]. b; [apply held_notify|]. r. Qed.
  Lemma held_add : forall sec pt ru, keeps R (i_addPolicy sec pt ru).
  Proof. b; [apply held_on_model|]. intros []; simpl; [apply held_tail, held_incremental|r]. Qed.
  Lemma held_add_many : forall sec pt ru, keeps R (i_addPolicies sec pt ru).
  Proof. b; [apply held_on_model|]. intros []; simpl; [apply held_tail, held_incremental|r]. Qed.
  Lemma held_remove : forall sec pt ru, keeps R (i_removePolicy sec pt ru).
  Proof. b; [apply held_on_model|]. intros []; simpl; [apply held_tail, held_incremental|r]. Qed.
  Lemma held_remove_many : forall sec pt ru, keeps R (i_removePolicies sec pt ru).
  Proof. b; [apply held_on_model|]. intros []; simpl; [apply held_tail, held_incremental|r]. Qed.
  Lemma held_remove_filtered : forall sec pt i vals, keeps R (i_removeFilteredPolicy sec pt i vals).
  Proof. b; [apply held_on_model|]. intros [[] eff]; simpl; [apply held_tail, held_incremental|r]. Qed.
  Lemma held_update : forall sec pt old new, keeps R (i_updatePolicy sec pt old new).
  Proof. b; [apply held_on_model|]. intros []; simpl; [apply held_update_tail; b; intros; apply held_incremental|r]. Qed.
  Lemma held_update_many : forall sec pt old new, keeps R (i_updatePolicies sec pt old new).
  Proof. b; [apply held_on_model|]. intros []; simpl; [apply held_update_tail; b; intros; apply held_incremental|r]. Qed.
  Lemma held_add_grouping : forall pt ru, keeps R (AddNamedGroupingPolicy pt ru).
  Proof.
    b; [apply held_add|]. b; [|r]. intros e. simpl. destruct (e_auto_build e); auto. apply held_incremental.
  Qed.
  Lemma held_remove_grouping : forall pt ru, keeps R (RemoveNamedGroupingPolicy pt ru).
  Proof. b; [apply held_remove|]. b; [apply held_rebuild_if|r]. Qed.
  Lemma held_remove_filtered_grouping : forall pt i vals, keeps R (RemoveFilteredNamedGroupingPolicy pt i vals).
  Proof. b; [apply held_remove_filtered|]. b; [apply held_rebuild_if|r]. Qed.
  Lemma held_add_roles : forall user roles f, keeps R (add_roles user roles f).
  Proof. induction roles; simpl; intros; [r|]. b; [apply held_add_grouping|]. auto. Qed.
  Lemma held_delete_user : forall u, keeps R (DeleteUser u).
  Proof. b; [apply held_remove_filtered_grouping|]. b; [apply held_remove_filtered|r]. Qed.
  Lemma held_delete_role : forall u, keeps R (DeleteRole u).
  Proof. b; [apply held_remove_filtered_grouping|]. b; [apply held_remove_filtered|r]. Qed.
  Lemma held_all_types : forall sec i, keeps R (all_types sec i).
  Proof. intros sec i e. unfold all_types. destruct (GetValuesForFieldInPolicyAllTypes (e_model e) sec i). simpl. auto. Qed.
  Lemma held_rm_GetRoles : forall i n d, keeps R (rm_GetRoles i n d).
  Proof. intros i n d e. unfold rm_GetRoles. destruct (hget (e_heap e) i); simpl; auto. destruct (GetRoles a n d). simpl. auto. Qed.
  Lemma held_GetRolesForUser : forall n d, keeps R (GetRolesForUser n d).
  Proof. intros n d e. unfold GetRolesForUser. destruct (g_rm e); auto. apply held_rm_GetRoles. Qed.
  Lemma held_implicit_loop : forall fuel d q seen acc, keeps R (implicit_loop fuel d q seen acc).
  Proof.
    induction fuel as [|n IH]; intros d [|x q] seen acc; simpl; try r. b; auto. intros e. apply held_rm_GetRoles.
  Qed.
  Lemma held_implicit_roles : forall n d, keeps R (GetImplicitRolesForUser n d).
  Proof. intros n d e. unfold GetImplicitRolesForUser. destruct (hget (e_heap e) (e_rm e)); auto. apply held_implicit_loop. Qed.
  Lemma held_perms_of : forall d roles, keeps R (perms_of d roles).
  Proof. induction roles as [|x xs IH]; simpl; [r|]. b; [destruct d; r|]. b; [auto|r]. Qed.
  Lemma held_implicit_perms : forall n d, keeps R (GetImplicitPermissionsForUser n d).
  Proof. b; [apply held_implicit_roles|]. intros. destruct (Nat.ltb 1 (List.length d)); [r|apply held_perms_of]. Qed.
  Lemma held_adapter_save : keeps R adapter_save.
  Proof.
    intros e. unfold adapter_save. destruct (e_adapter e) as [[bb p|l|p fd|u]|] eqn:A; simpl; auto.
    - destruct (FileAdapter_SavePolicy (e_fs e) p (e_model e)) as [[m f] out]. simpl. eapply R_trans; [apply R_model|apply R_fs].
    - destruct (StringAdapter_SavePolicy l (e_model e)) as [[m f] out]. simpl. eapply R_trans; [apply R_model|eapply R_adapter; exact A].
  Qed.
  Lemma held_save : keeps R SavePolicy.
  Proof.
    b. { intros e. unfold IsFiltered. destruct (e_adapter e); simpl; auto. }
    intros []; [r|]. b; [apply held_adapter_save|]. intros. apply held_notify_always.
  Qed.
  Lemma held_clear : keeps R e_ClearPolicy.
  Proof. intros e. simpl. auto. Qed.
  Lemma held_adapter_load : keeps R adapter_load.
  Proof.
    intros e. unfold adapter_load. destruct (e_adapter e) as [[bb p|l|p fd|u]|] eqn:A; auto.
    - destruct (FileAdapter_LoadPolicy (e_fs e) p (e_model e)) as [m out]. simpl. auto.
    - destruct (StringAdapter_LoadPolicy l (e_model e)) as [m out]. simpl. auto.
    - destruct (Filtered_LoadPolicy (e_fs e) p (e_model e)) as [[fd' m] out]. simpl. eapply R_trans; [apply R_model|eapply R_adapter; exact A].
    - destruct (ua_load u (ua_log u)) as [lines ex]. destruct (load_lines lines (e_model e)) as [m [x|t|v]]; simpl; auto.
  Qed.
  Lemma held_load : keeps R LoadPolicy.
  Proof. b; [apply held_clear|]. b; [apply held_adapter_load|]. intros. apply held_rebuild_if. Qed.
  Lemma held_load_filtered : forall flt, keeps R (e_LoadFilteredPolicy flt).
  Proof.
    b; [apply held_clear|]. b; [|intros; apply held_rebuild_if].
    intros e. destruct (e_adapter e) as [a0|] eqn:A; simpl; auto. destruct (negb (adapter_filtered a0)); auto.
    destruct a0 as [bb p|l|p fd|u]; auto. destruct (LoadFilteredPolicy (e_fs e) p fd flt (e_model e)) as [[fd' m] out].
    simpl. eapply R_trans; [apply R_model|eapply R_adapter; exact A].
  Qed.
  Lemma held_matching : forall fn, keeps R (AddNamedMatchingFunc fn).
  Proof. intros fn e. unfold AddNamedMatchingFunc. destruct (hget (e_heap e) (e_rm e)); simpl; auto. Qed.

  (** The calls that change nothing else. *)
  Definition held_only (c : call) : Prop :=
    match c with
    | KGetImplicitUsers _ | KEnforce _ _ | KEnforceMap _ _ | KBatchEnforce _ _ => False
    | KEnableEnforce _ | KEnableAutoNotify _ | KEnableAutoSave _ | KEnableAutoBuild _ => False
    | KSetModel _ | KSetRoleManager _ | KSetEvaluator | KSetAdapter _ | KSetWatcher => False
    | _ => True
    end.
  Lemma held_run_but_save : forall o c, held_only c -> c <> KSavePolicy -> keeps R (run o c).
  Proof.
    intros o c P NS. destruct c; simpl in P |- *; try tauto;
      try (apply keeps_drop; [exact R_refl|exact R_trans|]).
    - apply held_add.
    - apply held_add_many.
    - apply held_remove.
    - apply held_remove_many.
    - apply held_remove_filtered.
    - apply held_update.
    - apply held_update_many.
    - apply held_add_grouping.
    - apply held_add_many.
    - apply held_remove_grouping.
    - apply held_remove_many.
    - apply held_remove_filtered_grouping.
    - apply held_update.
    - apply held_add_roles.
    - apply held_delete_user.
    - apply held_delete_role.
    - apply held_all_types.
    - apply held_GetRolesForUser.
    - apply held_implicit_roles.
    - apply held_implicit_perms.
    - apply held_clear.
    - apply held_load.
    - apply held_load_filtered.
    - apply held_rebuild.
    - apply held_matching.
  Qed.
  Lemma held_run : forall o c, held_only c -> keeps R (run o c).
  Proof.
    intros o c P. assert (D : c = KSavePolicy \/ c <> KSavePolicy) by (destruct c; (left; reflexivity) || (right; discriminate)).
    destruct D as [->|D]; [apply held_save|apply held_run_but_save; auto].
  Qed.
End Held.

Definition has {A} (x : option A) : bool := match x with Some _ => true | None => false end.
(** The enforcer has an adapter, or a watcher, exactly if it had one, and keeps an evaluator. *)
Definition presence (e e' : enforcer) : Prop :=
  has (e_adapter e') = has (e_adapter e) /\ has (e_watcher e') = has (e_watcher e) /\ (has (e_ev e) = true -> has (e_ev e') = true).
Lemma presence_refl : forall e, presence e e.
Proof. intros e. repeat split; auto. Qed.
Lemma presence_trans : forall a b c, presence a b -> presence b c -> presence a c.
Proof. intros a b c (A1 & A2 & A3) (B1 & B2 & B3). repeat split; try congruence. auto. Qed.
Lemma presence_enforce : forall o matcher params, keeps presence (EnforceWithMatcher o matcher params).
Proof.
  intros o matcher params e. rewrite fst_EnforceWithMatcher. unfold EnforceExWithMatcher.
  destruct (get_ast (e_model e) "r" "r"); try apply presence_refl.
  destruct (negb (Nat.eqb (List.length params) (List.length (a_tokens a)))); [apply presence_refl|].
  destruct (push_r (own_evaluator e) (a_tokens a) params) as [ev1 [u|t|u]]; [|repeat split; auto..].
  destruct (m_enforce o e ev1 matcher). repeat split; auto.
Qed.
Lemma presence_enforce_map : forall o matcher params, keeps presence (EnforceWithMatcherMap o matcher params).
Proof.
  intros o matcher params e. unfold EnforceWithMatcherMap, mbind, EnforceExWithMatcherMap.
  destruct (push_map (own_evaluator e) params) as [ev1 [x|t|u]]; [|repeat split; auto..].
  destruct (m_enforce o e ev1 matcher) as [ev2 [x2|t|u]]; repeat split; auto.
Qed.
Lemma presence_batch : forall o matcher reqs, keeps presence (BatchEnforceWithMatcher o matcher reqs).
Proof.
  induction reqs; simpl. { intros e. apply presence_refl. }
  apply keeps_bind; [apply presence_trans|apply presence_enforce|]. intros.
  apply keeps_bind; [apply presence_trans|auto|]. intros b e. apply presence_refl.
Qed.
Lemma presence_allowed : forall o perm subs, keeps presence (allowed_subjects o perm subs).
Proof.
  induction subs; simpl. { intros e. apply presence_refl. }
  do 2 (apply keeps_bind; [apply presence_trans|apply keeps_lift; apply presence_refl|]; intros).
  apply keeps_bind; [apply presence_trans|apply presence_enforce|]. intros.
  apply keeps_bind; [apply presence_trans|auto|]. intros b e. apply presence_refl.
Qed.
Lemma presence_run : forall o c, ~ sets_part c -> (forall m, c <> KSetModel m) -> keeps presence (run o c).
Proof.
  intros o c N NM. assert (P : held_only c -> keeps presence (run o c)).
  { intros P. apply held_run; auto; try apply presence_refl; try apply presence_trans; try (intros; repeat split; auto; fail).
    - intros a a0 e A. split; [simpl; rewrite A; reflexivity|]. split; auto.
    - intros w n e A. split; [reflexivity|]. split; auto. simpl. rewrite A. reflexivity. }
  destruct c; try (apply P; exact I); simpl in N; try tauto; simpl; try (apply keeps_drop; [apply presence_refl|apply presence_trans|]).
  - unfold GetImplicitUsersForPermission.
    do 3 (apply keeps_bind; [apply presence_trans|intros e; repeat split; auto|]; intros).
    apply keeps_bind; [apply presence_trans|apply presence_allowed|]. intros x e. apply presence_refl.
  - apply presence_enforce.
  - apply presence_enforce_map.
  - apply presence_batch.
  - intros e. repeat split; auto.
  - intros e. repeat split; auto.
  - intros e. repeat split; auto.
  - intros e. repeat split; auto.
  - destruct (NM m). reflexivity.
  - intros e. repeat split; auto.
Qed.
