(** Switches: proofs. *)
From Verif Require Import Base P_Base M_Util M_RoleManager M_Model M_Persist M_Evaluator M_Enforcer S_Policy S_History S_Notify S_Switch
  P_Enforce P_Decide P_Store P_Api P_History P_Nodup P_Notify P_Ready.

Definition same_pos (s : switch) (e e' : enforcer) : Prop := position s e' = position s e.
Lemma same_pos_refl : forall s e, same_pos s e e.
Proof. reflexivity. Qed.
Lemma same_pos_trans : forall s a b c, same_pos s a b -> same_pos s b c -> same_pos s a c.
Proof. unfold same_pos. congruence. Qed.
Lemma pos_enforce : forall s o matcher params, keeps (same_pos s) (EnforceWithMatcher o matcher params).
Proof. intros s o matcher params e. rewrite fst_EnforceWithMatcher. destruct (EnforceEx_frame o matcher params e) as [ev ->]. destruct s; reflexivity. Qed.
Lemma map_frame : forall o matcher params e, exists ev, fst (EnforceWithMatcherMap o matcher params e) = set_ev ev e.
Proof.
  intros. unfold EnforceWithMatcherMap, mbind, EnforceExWithMatcherMap.
  destruct (push_map (own_evaluator e) params) as [ev1 [x|t|u]]; [|exists (Some ev1); reflexivity..].
  destruct (m_enforce o e ev1 matcher) as [ev2 [x2|t|u]]; exists (Some ev2); reflexivity.
Qed.
Lemma pos_enforce_map : forall s o matcher params, keeps (same_pos s) (EnforceWithMatcherMap o matcher params).
Proof. intros s o matcher params e. destruct (map_frame o matcher params e) as [ev ->]. destruct s; reflexivity. Qed.
Lemma pos_batch : forall s o matcher reqs, keeps (same_pos s) (BatchEnforceWithMatcher o matcher reqs).
Proof.
  induction reqs; simpl. { intros e. apply same_pos_refl. }
  apply keeps_bind; [apply same_pos_trans|apply pos_enforce|]. intros.
  apply keeps_bind; [apply same_pos_trans|auto|]. intros b e. apply same_pos_refl.
Qed.
Lemma pos_allowed : forall s o perm subs, keeps (same_pos s) (allowed_subjects o perm subs).
Proof.
  induction subs; simpl. { intros e. apply same_pos_refl. }
  do 2 (apply keeps_bind; [apply same_pos_trans|apply keeps_lift; apply same_pos_refl|]; intros).
  apply keeps_bind; [apply same_pos_trans|apply pos_enforce|]. intros.
  apply keeps_bind; [apply same_pos_trans|auto|]. intros b e. apply same_pos_refl.
Qed.
Lemma pos_run : forall s o c, (forall b, setter s b <> c) -> (forall m, KSetModel m <> c) -> keeps (same_pos s) (run o c).
Proof.
  intros s o c N1 N2. assert (P : parts_only c -> keeps (same_pos s) (run o c)).
  { intros P. apply parts_run; auto; try apply same_pos_trans; intros; destruct s; reflexivity. }
  destruct c; try (apply P; exact I); simpl; try (apply keeps_drop; [apply same_pos_refl|apply same_pos_trans|]).
  - unfold GetImplicitUsersForPermission.
    do 3 (apply keeps_bind; [apply same_pos_trans|intros e; destruct s; reflexivity|]; intros).
    apply keeps_bind; [apply same_pos_trans|apply pos_allowed|]. intros x e. apply same_pos_refl.
  - apply pos_enforce.
  - apply pos_enforce_map.
  - apply pos_batch.
  - intros e. destruct s; try reflexivity. exfalso. apply (N1 b). reflexivity.
  - intros e. destruct s; try reflexivity. exfalso. apply (N1 b). reflexivity.
  - intros e. destruct s; try reflexivity. exfalso. apply (N1 b). reflexivity.
  - intros e. destruct s; try reflexivity. exfalso. apply (N1 b). reflexivity.
  - exfalso. apply (N2 m). reflexivity.
  - intros e. destruct s; reflexivity.
  - intros e. destruct s; reflexivity.
Qed.

(** ** With notifications off the watcher hears nothing *)
Definition hush (e e' : enforcer) : Prop := e_notify e = false -> e_notify e' = false /\ e_watcher e' = e_watcher e.
Lemma hush_refl : forall e, hush e e.
Proof. intros e H. auto. Qed.
Lemma hush_trans : forall a b c, hush a b -> hush b c -> hush a c.
Proof. intros a b c H1 H2 S. destruct (H1 S) as [S1 E1]. destruct (H2 S1) as [S2 E2]. split; auto. congruence. Qed.
Lemma hush_no_word : forall A (c : M A), keeps no_word c -> keeps hush c.
Proof. intros A c K e S. destruct (K e) as [A1 A2]. rewrite A1, A2. auto. Qed.
Lemma hush_mute : forall A (c : M A), keeps mute c -> keeps hush c.
Proof. intros. apply hush_no_word, no_word_mute. auto. Qed.
Lemma hush_notify : keeps hush notify.
Proof. intros e S. unfold notify. rewrite S. destruct (e_watcher e) eqn:W; auto. Qed.
Lemma hush_on_model : forall A (f : model -> res (model * A)), keeps hush (on_model f).
Proof. intros. apply keeps_on_model; [exact hush_refl|]. intros e m a _ S. auto. Qed.
Ltac hb := intros; apply keeps_bind; [exact hush_trans| |].
Ltac hr := intros; first [apply keeps_ret|apply keeps_fail|apply keeps_undef|apply keeps_lift|apply keeps_read]; exact hush_refl.
Lemma hush_tail : forall sec pt op rs c, keeps hush (when_g sec (e_BuildIncrementalRoleLinks op pt rs) ;;; autosave c ;;; notify ;;; ret true).
Proof. hb. { apply hush_mute, tail_mute. } hb. { apply hush_no_word, no_word_autosave. } hb. { apply hush_notify. } hr. Qed.
Lemma hush_update_tail : forall sec pt olds news, keeps hush (when_g sec (e_BuildIncrementalRoleLinks policy_remove pt olds ;;; e_BuildIncrementalRoleLinks policy_add pt news) ;;; notify ;;; ret true).
Proof. hb. { apply hush_no_word, mid_ok2. } hb. { apply hush_notify. } hr. Qed.
Lemma hush_add : forall sec pt r, keeps hush (i_addPolicy sec pt r).
Proof. hb. { apply hush_on_model. } intros []; simpl; [apply hush_tail|hr]. Qed.
Lemma hush_add_many : forall sec pt r, keeps hush (i_addPolicies sec pt r).
Proof. hb. { apply hush_on_model. } intros []; simpl; [apply hush_tail|hr]. Qed.
Lemma hush_remove : forall sec pt r, keeps hush (i_removePolicy sec pt r).
Proof. hb. { apply hush_on_model. } intros []; simpl; [apply hush_tail|hr]. Qed.
Lemma hush_remove_many : forall sec pt r, keeps hush (i_removePolicies sec pt r).
Proof. hb. { apply hush_on_model. } intros []; simpl; [apply hush_tail|hr]. Qed.
Lemma hush_remove_filtered : forall sec pt i vals, keeps hush (i_removeFilteredPolicy sec pt i vals).
Proof. hb. { apply hush_on_model. } intros [[] eff]; simpl; [apply hush_tail|hr]. Qed.
Lemma hush_update : forall sec pt old new, keeps hush (i_updatePolicy sec pt old new).
Proof. hb. { apply hush_on_model. } intros []; simpl; [apply hush_update_tail|hr]. Qed.
Lemma hush_update_many : forall sec pt old new, keeps hush (i_updatePolicies sec pt old new).
Proof. hb. { apply hush_on_model. } intros []; simpl; [apply hush_update_tail|hr]. Qed.
Lemma hush_add_grouping : forall pt r, keeps hush (AddNamedGroupingPolicy pt r).
Proof. hb. { apply hush_add. } hb. { apply hush_mute, mute_links_if. } hr. Qed.
Lemma hush_remove_grouping : forall pt r, keeps hush (RemoveNamedGroupingPolicy pt r).
Proof. hb. { apply hush_remove. } hb. { apply hush_mute, mute_rebuild_if. } hr. Qed.
Lemma hush_remove_filtered_grouping : forall pt i vals, keeps hush (RemoveFilteredNamedGroupingPolicy pt i vals).
Proof. hb. { apply hush_remove_filtered. } hb. { apply hush_mute, mute_rebuild_if. } hr. Qed.
Lemma hush_add_roles : forall user roles f, keeps hush (add_roles user roles f).
Proof. induction roles as [|r rs IH]; intros f; simpl. { hr. } hb. { apply hush_add_grouping. } intros; apply IH. Qed.
Lemma hush_clear : keeps hush e_ClearPolicy.
Proof. intros e S. auto. Qed.
Lemma hush_load : keeps hush LoadPolicy.
Proof.
  hb. { apply hush_clear. } hb; [|intros; apply hush_mute, mute_rebuild_if].
  intros e S. unfold adapter_load. destruct (e_adapter e) as [[b path|t|path fd|u]|] eqn:A; auto.
  - destruct (FileAdapter_LoadPolicy _ _ _). auto.
  - destruct (StringAdapter_LoadPolicy _ _). auto.
  - destruct (Filtered_LoadPolicy _ _ _) as [[? ?] ?]. auto.
  - destruct (ua_load u (ua_log u)) as [lines ex']. destruct (load_lines lines (e_model e)) as [m [x|y|z]]; auto.
Qed.
Lemma hush_load_filtered : forall flt, keeps hush (e_LoadFilteredPolicy flt).
Proof.
  hb. { apply hush_clear. } hb; [|intros; apply hush_mute, mute_rebuild_if].
  intros e S. destruct (e_adapter e) as [ad|] eqn:A; [|auto]. destruct (negb (adapter_filtered ad)); [auto|].
  destruct ad as [b path|t|path fd|u]; auto.
  destruct (LoadFilteredPolicy _ _ _ _ _) as [[? ?] ?]. auto.
Qed.
Definition unheard (c : call) : Prop :=
  match c with KSavePolicy | KSetWatcher | KSetModel _ => False | KEnableAutoNotify b => b = false | _ => True end.
Lemma run_hush : forall o c, unheard c -> keeps hush (run o c).
Proof.
  intros o c F. destruct c; cbn [unheard] in F; try (destruct F; fail); cbn [run]; try (apply keeps_drop; [exact hush_refl|exact hush_trans|]).
  all: try (intros e S; split; [exact S|reflexivity]; fail).
  - apply hush_add.
  - apply hush_add_many.
  - apply hush_remove.
  - apply hush_remove_many.
  - apply hush_remove_filtered.
  - apply hush_update.
  - apply hush_update_many.
  - apply hush_add_grouping.
  - apply hush_add_many.
  - apply hush_remove_grouping.
  - apply hush_remove_many.
  - apply hush_remove_filtered_grouping.
  - apply hush_update.
  - apply hush_add_roles.
  - hb. { apply hush_remove_filtered_grouping. } hb. { apply hush_remove_filtered. } hr.
  - hb. { apply hush_remove_filtered_grouping. } hb. { apply hush_remove_filtered. } hr.
  - apply hush_mute, mute_GetRolesForUser.
  - apply hush_mute, mute_implicit_roles.
  - apply hush_mute, mute_implicit_perms.
  - apply hush_mute, mute_implicit_users.
  - apply hush_mute, mute_enforce.
  - apply hush_mute, mute_enforceMap.
  - apply hush_mute, mute_batch.
  - apply hush_load.
  - apply hush_load_filtered.
  - apply hush_mute, mute_rebuild.
  - subst. intros e S. auto.
  - apply hush_mute, mute_matching.
Qed.

(** Running a history. *)
Fixpoint run_all (o : oracle) (cs : list call) (e : enforcer) : option enforcer :=
  match cs with
  | [] => Some e
  | c :: cs' => match run o c e with (_, UB _) => None | (e1, _) => run_all o cs' e1 end
  end.
Lemma run_all_reaches : forall o cs e e', run_all o cs e = Some e' -> reaches o e cs e'.
Proof.
  induction cs as [|c cs IH]; intros e e' H; simpl in H. { injection H as <-. apply reach_nil. }
  destruct (run o c e) as [e1 [x|t|u]] eqn:Q; [| |discriminate]; (eapply reach_step; [exact Q|intros v W; discriminate W|auto]).
Qed.
