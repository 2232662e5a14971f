(** The watcher of a synchronised enforcer: proofs. *)
From Verif Require Import Base P_Base M_Util M_RoleManager M_Model M_Persist M_Evaluator M_Enforcer M_Synced S_Policy S_History S_Notify S_Synced
  P_Decide P_Store P_Api P_History P_Nodup P_Notify P_Synced P_SyncedState.

(** ** Without a watcher the enforcer gets none *)
Definition deaf (e e' : enforcer) : Prop := e_watcher e = None -> e_watcher e' = None.
Lemma deaf_refl : forall e, deaf e e.
Proof. intros e H. auto. Qed.
Lemma deaf_trans : forall a b c, deaf a b -> deaf b c -> deaf a c.
Proof. intros a b c H1 H2 S. auto. Qed.
Lemma deaf_no_word : forall A (c : M A), keeps no_word c -> keeps deaf c.
Proof. intros A c K e S. destruct (K e) as [A1 A2]. congruence. Qed.
Lemma deaf_mute : forall A (c : M A), keeps mute c -> keeps deaf c.
Proof. intros. apply deaf_no_word, no_word_mute. auto. Qed.
Lemma deaf_notify : keeps deaf notify.
Proof. intros e S. unfold notify. rewrite S. auto. Qed.
Lemma deaf_on_model : forall A (f : model -> res (model * A)), keeps deaf (on_model f).
Proof. intros. apply keeps_on_model; [exact deaf_refl|]. intros e m a _ S. auto. Qed.
Ltac db := intros; apply keeps_bind; [exact deaf_trans| |].
Ltac dr := intros; first [apply keeps_ret|apply keeps_fail|apply keeps_undef|apply keeps_lift|apply keeps_read]; exact deaf_refl.
Lemma deaf_tail : forall sec pt op rs c, keeps deaf (when_g sec (e_BuildIncrementalRoleLinks op pt rs) ;;; autosave c ;;; notify ;;; ret true).
Proof. db. { apply deaf_mute, tail_mute. } db. { apply deaf_no_word, no_word_autosave. } db. { apply deaf_notify. } dr. Qed.
Lemma deaf_update_tail : forall sec pt olds news, keeps deaf (when_g sec (e_BuildIncrementalRoleLinks policy_remove pt olds ;;; e_BuildIncrementalRoleLinks policy_add pt news) ;;; notify ;;; ret true).
Proof. db. { apply deaf_no_word, mid_ok2. } db. { apply deaf_notify. } dr. Qed.
Lemma deaf_add : forall sec pt r, keeps deaf (i_addPolicy sec pt r).
Proof. db. { apply deaf_on_model. } intros []; simpl; [apply deaf_tail|dr]. Qed.
Lemma deaf_add_many : forall sec pt r, keeps deaf (i_addPolicies sec pt r).
Proof. db. { apply deaf_on_model. } intros []; simpl; [apply deaf_tail|dr]. Qed.
Lemma deaf_remove : forall sec pt r, keeps deaf (i_removePolicy sec pt r).
Proof. db. { apply deaf_on_model. } intros []; simpl; [apply deaf_tail|dr]. Qed.
Lemma deaf_remove_many : forall sec pt r, keeps deaf (i_removePolicies sec pt r).
Proof. db. { apply deaf_on_model. } intros []; simpl; [apply deaf_tail|dr]. Qed.
Lemma deaf_remove_filtered : forall sec pt i vals, keeps deaf (i_removeFilteredPolicy sec pt i vals).
Proof. db. { apply deaf_on_model. } intros [[] eff]; simpl; [apply deaf_tail|dr]. Qed.
Lemma deaf_update : forall sec pt old new, keeps deaf (i_updatePolicy sec pt old new).
Proof. db. { apply deaf_on_model. } intros []; simpl; [apply deaf_update_tail|dr]. Qed.
Lemma deaf_update_many : forall sec pt old new, keeps deaf (i_updatePolicies sec pt old new).
Proof. db. { apply deaf_on_model. } intros []; simpl; [apply deaf_update_tail|dr]. Qed.
Lemma deaf_add_grouping : forall pt r, keeps deaf (AddNamedGroupingPolicy pt r).
Proof. db. { apply deaf_add. } db. { apply deaf_mute, mute_links_if. } dr. Qed.
Lemma deaf_remove_grouping : forall pt r, keeps deaf (RemoveNamedGroupingPolicy pt r).
Proof. db. { apply deaf_remove. } db. { apply deaf_mute, mute_rebuild_if. } dr. Qed.
Lemma deaf_remove_filtered_grouping : forall pt i vals, keeps deaf (RemoveFilteredNamedGroupingPolicy pt i vals).
Proof. db. { apply deaf_remove_filtered. } db. { apply deaf_mute, mute_rebuild_if. } dr. Qed.
Lemma deaf_add_roles : forall user roles f, keeps deaf (add_roles user roles f).
Proof. induction roles as [|r rs IH]; intros f; simpl. { dr. } db. { apply deaf_add_grouping. } intros; apply IH. Qed.
Lemma deaf_clear : keeps deaf e_ClearPolicy.
Proof. intros e S. auto. Qed.
Lemma deaf_load : keeps deaf LoadPolicy.
Proof.
  db. { apply deaf_clear. } db; [|intros; apply deaf_mute, mute_rebuild_if].
  intros e S. unfold adapter_load. destruct (e_adapter e) as [[b path|t|path fd|u]|] eqn:A; auto.
  - destruct (FileAdapter_LoadPolicy _ _ _). auto.
  - destruct (StringAdapter_LoadPolicy _ _). auto.
  - destruct (Filtered_LoadPolicy _ _ _) as [[? ?] ?]. auto.
  - destruct (ua_load u (ua_log u)) as [lines ex']. destruct (load_lines lines (e_model e)) as [m [x|y|z]]; auto.
Qed.
Lemma deaf_load_filtered : forall flt, keeps deaf (e_LoadFilteredPolicy flt).
Proof.
  db. { apply deaf_clear. } db; [|intros; apply deaf_mute, mute_rebuild_if].
  intros e S. destruct (e_adapter e) as [ad|] eqn:A; [|auto]. destruct (negb (adapter_filtered ad)); [auto|].
  destruct ad as [b path|t|path fd|u]; auto.
  destruct (LoadFilteredPolicy _ _ _ _ _) as [[? ?] ?]. auto.
Qed.
Lemma deaf_save : keeps deaf SavePolicy.
Proof.
  db. { intros e S. unfold IsFiltered. destruct (e_adapter e); auto. } intros []; [dr|]. db.
  - intros e S. unfold adapter_save. destruct (e_adapter e) as [[b path|t|path fd|u]|]; auto.
    + destruct (FileAdapter_SavePolicy _ _ _) as [[? ?] ?]. auto.
    + destruct (StringAdapter_SavePolicy _ _) as [[? ?] ?]. auto.
  - intros _ e S. unfold notify_always. rewrite S. auto.
Qed.
Lemma mute_enforceEx : forall o matcher params, keeps mute (EnforceExWithMatcher o matcher params).
Proof. intros o matcher params e. destruct (EnforceEx_frame o matcher params e) as [ev ->]. apply mute_ev. Qed.
Lemma mute_enforceExMap : forall o matcher params, keeps mute (EnforceExWithMatcherMap o matcher params).
Proof. intros o matcher params e. destruct (EnforceExMap_frame o matcher params e) as [ev ->]. apply mute_ev. Qed.

Lemma deaf_plain : forall o c, keeps deaf (plain o c).
Proof.
  intros o c. destruct c; cbn [plain]; (apply keeps_value; [exact deaf_refl|]).
  all: try (apply deaf_mute; first [apply mute_rebuild|apply mute_all_types|apply mute_enforce|apply mute_enforceMap|apply mute_batch|apply mute_enforceEx|apply mute_enforceExMap|apply mute_GetRolesForUser
     |apply mute_implicit_roles|apply mute_implicit_perms|apply mute_implicit_users]).
  all: try first [exact deaf_clear|exact deaf_load|apply deaf_load_filtered|exact deaf_save|apply deaf_add|apply deaf_add_many|apply deaf_remove|apply deaf_remove_many|apply deaf_remove_filtered
     |apply deaf_update|apply deaf_update_many|apply deaf_add_grouping|apply deaf_remove_grouping|apply deaf_remove_filtered_grouping|apply deaf_add_roles].
  all: try (intros e S; exact S).
  - intros e S. destruct loaded; auto.
  - induction reqs as [|r rs IH]; cbn [BatchEnforce]; [dr|]. db. { apply deaf_mute, mute_enforce. } db. { exact IH. } dr.
  - db. { apply deaf_mute, mute_GetRolesForUser. } dr.
  - db. { apply deaf_remove_filtered_grouping. } db. { apply deaf_remove_filtered. } dr.
  - db. { apply deaf_remove_filtered_grouping. } db. { apply deaf_remove_filtered. } dr.
Qed.
