(** Readiness of the evaluator over histories; components no call changes. *)
From Verif Require Import Base P_Base M_Util M_RoleManager M_Effector M_Model M_Persist M_Eval M_Evaluator M_Enforcer M_Matcher
  S_Effect S_Enforce S_Policy S_History S_Roles S_Sync S_Rbac P_Enforce P_Decide P_Store P_Api P_History P_Sync.

(** ** Relations kept because a call changes only certain components *)
Section Parts.
  Variable R : enforcer -> enforcer -> Prop.
  Hypothesis R_refl : forall e, R e e.
  Hypothesis R_trans : forall a b c, R a b -> R b c -> R a c.
  Hypothesis R_model : forall m e, R e (set_model m e).
  Hypothesis R_heap : forall h e, R e (set_heap h e).
  Hypothesis R_adapter : forall a e, R e (set_adapter a e).
  Hypothesis R_watcher : forall w e, R e (set_watcher w e).
  Hypothesis R_fs : forall f e, R e (set_fs f e).

  Ltac b := intros; apply keeps_bind; [exact R_trans| |].
  Ltac r := intros; first [apply keeps_ret|apply keeps_fail|apply keeps_undef|apply keeps_lift|apply keeps_read]; exact R_refl.

  Lemma parts_on_model : forall A (f : model -> res (model * A)), keeps R (on_model f).
  Proof. intros. apply keeps_on_model; auto. Qed.
  Lemma parts_incremental : forall op pt rs, keeps R (e_BuildIncrementalRoleLinks op pt rs).
  Proof.
    intros op pt rs e. unfold e_BuildIncrementalRoleLinks. destruct (BuildIncrementalRoleLinks (e_model e) (e_heap e) (e_rm e) op "g" pt rs) as [[m h] out].
    simpl. eapply R_trans; [apply R_model|apply R_heap].
  Qed.
  Lemma parts_rebuild : keeps R e_BuildRoleLinks.
  Proof.
    intros e. unfold e_BuildRoleLinks. destruct (hget (e_heap e) (e_rm e)); simpl; auto.
    destruct (BuildRoleLinks (e_model e) (hset (e_heap e) (e_rm e) (Clear a)) (e_rm e)) as [[m h] out].
    simpl. eapply R_trans; [apply R_model|apply R_heap].
  Qed.
  Lemma parts_rebuild_if : keeps R rebuild_if_auto.
  Proof. intros e. unfold rebuild_if_auto. destruct (e_auto_build e); auto. apply parts_rebuild. Qed.
  Lemma parts_autosave : forall c, keeps R (autosave c).
  Proof.
    intros c e. unfold autosave. destruct (e_adapter e); auto. destruct (e_auto_save e); auto.
    destruct (adapter_call a c) as [a' out]. destruct out as [|[]|]; simpl; auto.
  Qed.
  Lemma parts_notify : keeps R notify.
  Proof. intros e. unfold notify. destruct (e_watcher e); auto. destruct (e_notify e); simpl; auto. Qed.
  Lemma parts_notify_always : keeps R notify_always.
  Proof. intros e. unfold notify_always. destruct (e_watcher e); simpl; auto. Qed.
  Lemma parts_when : forall sec c, keeps R c -> keeps R (when_g sec c).
  Proof. intros. apply keeps_when; auto. Qed.
  Lemma parts_tail : forall sec c d, keeps R c -> keeps R (when_g sec c ;;; autosave d ;;; notify ;;; ret true).
  Proof. intros. b; [apply parts_when; auto|]. b; [apply parts_autosave|]. b; [apply parts_notify|]. r. Qed.
  Lemma parts_update_tail : forall sec c, keeps R c -> keeps R (when_g sec c ;;; notify ;;; ret true).
  Proof. intros. b; [apply parts_when; auto|]. b; [apply parts_notify|]. r. Qed.
  Lemma parts_add : forall sec pt ru, keeps R (i_addPolicy sec pt ru).
  Proof. b; [apply parts_on_model|]. intros []; simpl; [apply parts_tail, parts_incremental|r]. Qed.
  Lemma parts_add_many : forall sec pt ru, keeps R (i_addPolicies sec pt ru).
  Proof. b; [apply parts_on_model|]. intros []; simpl; [apply parts_tail, parts_incremental|r]. Qed.
  Lemma parts_remove : forall sec pt ru, keeps R (i_removePolicy sec pt ru).
  Proof. b; [apply parts_on_model|]. intros []; simpl; [apply parts_tail, parts_incremental|r]. Qed.
  Lemma parts_remove_many : forall sec pt ru, keeps R (i_removePolicies sec pt ru).
  Proof. b; [apply parts_on_model|]. intros []; simpl; [apply parts_tail, parts_incremental|r]. Qed.
  Lemma parts_remove_filtered : forall sec pt i vals, keeps R (i_removeFilteredPolicy sec pt i vals).
  Proof. b; [apply parts_on_model|]. intros [[] eff]; simpl; [apply parts_tail, parts_incremental|r]. Qed.
  Lemma parts_update : forall sec pt old new, keeps R (i_updatePolicy sec pt old new).
  Proof. b; [apply parts_on_model|]. intros []; simpl; [apply parts_update_tail; b; intros; apply parts_incremental|r]. Qed.
  Lemma parts_update_many : forall sec pt old new, keeps R (i_updatePolicies sec pt old new).
  Proof. b; [apply parts_on_model|]. intros []; simpl; [apply parts_update_tail; b; intros; apply parts_incremental|r]. Qed.
  Lemma parts_add_grouping : forall pt ru, keeps R (AddNamedGroupingPolicy pt ru).
  Proof.
    b; [apply parts_add|]. b; [|r]. intros e. simpl. destruct (e_auto_build e); auto. apply parts_incremental.
  Qed.
  Lemma parts_remove_grouping : forall pt ru, keeps R (RemoveNamedGroupingPolicy pt ru).
  Proof. b; [apply parts_remove|]. b; [apply parts_rebuild_if|r]. Qed.
  Lemma parts_remove_filtered_grouping : forall pt i vals, keeps R (RemoveFilteredNamedGroupingPolicy pt i vals).
  Proof. b; [apply parts_remove_filtered|]. b; [apply parts_rebuild_if|r]. Qed.
  Lemma parts_add_roles : forall user roles f, keeps R (add_roles user roles f).
  Proof. induction roles; simpl; intros; [r|]. b; [apply parts_add_grouping|]. auto. Qed.
  Lemma parts_delete_user : forall u, keeps R (DeleteUser u).
  Proof. b; [apply parts_remove_filtered_grouping|]. b; [apply parts_remove_filtered|r]. Qed.
  Lemma parts_delete_role : forall u, keeps R (DeleteRole u).
  Proof. b; [apply parts_remove_filtered_grouping|]. b; [apply parts_remove_filtered|r]. Qed.
  Lemma parts_all_types : forall sec i, keeps R (all_types sec i).
  Proof. intros sec i e. unfold all_types. destruct (GetValuesForFieldInPolicyAllTypes (e_model e) sec i). simpl. auto. Qed.
  Lemma parts_rm_GetRoles : forall i n d, keeps R (rm_GetRoles i n d).
  Proof. intros i n d e. unfold rm_GetRoles. destruct (hget (e_heap e) i); simpl; auto. destruct (GetRoles a n d). simpl. auto. Qed.
  Lemma parts_GetRolesForUser : forall n d, keeps R (GetRolesForUser n d).
  Proof. intros n d e. unfold GetRolesForUser. destruct (g_rm e); auto. apply parts_rm_GetRoles. Qed.
  Lemma parts_implicit_loop : forall fuel d q seen acc, keeps R (implicit_loop fuel d q seen acc).
  Proof.
    induction fuel as [|n IH]; intros d [|x q] seen acc; simpl; try r. b; auto. intros e. apply parts_rm_GetRoles.
  Qed.
  Lemma parts_implicit_roles : forall n d, keeps R (GetImplicitRolesForUser n d).
  Proof. intros n d e. unfold GetImplicitRolesForUser. destruct (hget (e_heap e) (e_rm e)); auto. apply parts_implicit_loop. Qed.
  Lemma parts_perms_of : forall d roles, keeps R (perms_of d roles).
  Proof. induction roles as [|x xs IH]; simpl; [r|]. b; [destruct d; r|]. b; [auto|r]. Qed.
  Lemma parts_implicit_perms : forall n d, keeps R (GetImplicitPermissionsForUser n d).
  Proof. b; [apply parts_implicit_roles|]. intros. destruct (Nat.ltb 1 (List.length d)); [r|apply parts_perms_of]. Qed.
  Lemma parts_adapter_save : keeps R adapter_save.
  Proof.
    intros e. unfold adapter_save. destruct (e_adapter e) as [[bb p|l|p fd|u]|]; simpl; auto.
    - destruct (FileAdapter_SavePolicy (e_fs e) p (e_model e)) as [[m f] out]. simpl. eapply R_trans; [apply R_model|apply R_fs].
    - destruct (StringAdapter_SavePolicy l (e_model e)) as [[m f] out]. simpl. eapply R_trans; [apply R_model|apply R_adapter].
  Qed.
  Lemma parts_save : keeps R SavePolicy.
  Proof.
    b. { intros e. unfold IsFiltered. destruct (e_adapter e); simpl; auto. }
    intros []; [r|]. b; [apply parts_adapter_save|]. intros. apply parts_notify_always.
  Qed.
  Lemma parts_clear : keeps R e_ClearPolicy.
  Proof. intros e. simpl. auto. Qed.
  Lemma parts_adapter_load : keeps R adapter_load.
  Proof.
    intros e. unfold adapter_load. destruct (e_adapter e) as [[bb p|l|p fd|u]|]; auto.
    - destruct (FileAdapter_LoadPolicy (e_fs e) p (e_model e)) as [m out]. simpl. auto.
    - destruct (StringAdapter_LoadPolicy l (e_model e)) as [m out]. simpl. auto.
    - destruct (Filtered_LoadPolicy (e_fs e) p (e_model e)) as [[fd' m] out]. simpl. eapply R_trans; [apply R_model|apply R_adapter].
    - destruct (ua_load u (ua_log u)) as [lines ex]. destruct (load_lines lines (e_model e)) as [m [x|t|v]]; simpl; auto.
  Qed.
  Lemma parts_load : keeps R LoadPolicy.
  Proof. b; [apply parts_clear|]. b; [apply parts_adapter_load|]. intros. apply parts_rebuild_if. Qed.
  Lemma parts_load_filtered : forall flt, keeps R (e_LoadFilteredPolicy flt).
  Proof.
    b; [apply parts_clear|]. b; [|intros; apply parts_rebuild_if].
    intros e. destruct (e_adapter e) as [a0|]; simpl; auto. destruct (negb (adapter_filtered a0)); auto.
    destruct a0 as [bb p|l|p fd|u]; auto. destruct (LoadFilteredPolicy (e_fs e) p fd flt (e_model e)) as [[fd' m] out].
    simpl. eapply R_trans; [apply R_model|apply R_adapter].
  Qed.
  Lemma parts_matching : forall fn, keeps R (AddNamedMatchingFunc fn).
  Proof. intros fn e. unfold AddNamedMatchingFunc. destruct (hget (e_heap e) (e_rm e)); simpl; auto. Qed.

  (** The calls that change nothing else. *)
  Definition parts_only (c : call) : Prop :=
    match c with
    | KGetImplicitUsers _ | KEnforce _ _ | KEnforceMap _ _ | KBatchEnforce _ _ => False
    | KEnableEnforce _ | KEnableAutoNotify _ | KEnableAutoSave _ | KEnableAutoBuild _ => False
    | KSetModel _ | KSetRoleManager _ | KSetEvaluator => False
    | _ => True
    end.
  Lemma parts_run_but_save : forall o c, parts_only c -> c <> KSavePolicy -> keeps R (run o c).
  Proof.
    intros o c P NS. destruct c; simpl in P |- *; try tauto;
      try (apply keeps_drop; [exact R_refl|exact R_trans|]).
    - apply parts_add.
    - apply parts_add_many.
    - apply parts_remove.
    - apply parts_remove_many.
    - apply parts_remove_filtered.
    - apply parts_update.
    - apply parts_update_many.
    - apply parts_add_grouping.
    - apply parts_add_many.
    - apply parts_remove_grouping.
    - apply parts_remove_many.
    - apply parts_remove_filtered_grouping.
    - apply parts_update.
    - apply parts_add_roles.
    - apply parts_delete_user.
    - apply parts_delete_role.
    - apply parts_all_types.
    - apply parts_GetRolesForUser.
    - apply parts_implicit_roles.
    - apply parts_implicit_perms.
    - apply parts_clear.
    - apply parts_load.
    - apply parts_load_filtered.
    - apply parts_rebuild.
    - intros e. simpl. auto.
    - intros e. simpl. auto.
    - apply parts_matching.
  Qed.
  Lemma parts_run : forall o c, parts_only c -> keeps R (run o c).
  Proof.
    intros o c P. assert (D : c = KSavePolicy \/ c <> KSavePolicy) by (destruct c; (left; reflexivity) || (right; discriminate)).
    destruct D as [->|D]; [apply parts_save|apply parts_run_but_save; auto].
  Qed.
End Parts.

(** ** The shape of a model: everything but the rules and the role managers *)
Definition outline (x : res assertion) : res (string * string * list string) :=
  let! a := x in Ok (a_key a, a_value a, a_tokens a).
Definition same_shape (e e' : enforcer) : Prop :=
  forall sec pt, outline (get_ast (e_model e') sec pt) = outline (get_ast (e_model e) sec pt).
Lemma same_shape_refl : forall e, same_shape e e.
Proof. intros e sec pt. reflexivity. Qed.
Lemma same_shape_trans : forall a b c, same_shape a b -> same_shape b c -> same_shape a c.
Proof. intros a b c H1 H2 sec pt. rewrite H2. apply H1. Qed.
Lemma asts_shape : forall e e', same_asts e e' -> same_shape e e'.
Proof.
  intros e e' H sec pt. specialize (H sec pt). unfold strip, outline in *.
  destruct (get_ast (e_model e') sec pt), (get_ast (e_model e) sec pt); simpl in *; congruence.
Qed.
Lemma writes_shape : forall e m sec pt, writes (e_model e) m sec pt -> same_shape e (set_model m e).
Proof.
  intros e m sec pt [->|[a [p [A ->]]]] s q; [reflexivity|]. simpl. destruct (pair_dec s q sec pt) as [V|V].
  - inversion V; subst. rewrite get_put_same, A. reflexivity.
  - rewrite get_put_other by auto. reflexivity.
Qed.

Lemma shape_run : forall o c rules, safe_call rules c -> keeps same_shape (run o c).
Proof.
  intros o c rules S. apply run_keeps.
  - exact same_shape_refl.
  - exact same_shape_trans.
  - exact asts_shape.
  - Ltac shape_edit := intros; apply keeps_on_model; [exact same_shape_refl|]; intros e0 m0 a0 Q;
      (eapply writes_shape; first [eapply writes_add; exact Q|eapply writes_add_many; exact Q|eapply writes_remove; exact Q
               |eapply writes_remove_filtered; exact Q|eapply writes_update; exact Q|eapply writes_update_many; exact Q]).
    destruct c; simpl in *; auto; try tauto; try shape_edit; split; shape_edit.
Qed.

Lemma shape_declares : forall e e' rf pf eft mat, same_shape e e' -> declares (e_model e) rf pf eft mat -> declares (e_model e') rf pf eft mat.
Proof.
  intros e e' rf pf eft mat S [D1 D2 D3 D4 D5 D6 D7 D8 D9].
  assert (G : forall sec pt a, get_ast (e_model e) sec pt = Ok a -> exists a', get_ast (e_model e') sec pt = Ok a' /\ a_value a' = a_value a /\ a_tokens a' = a_tokens a).
  { intros sec pt a A. specialize (S sec pt). rewrite A in S. simpl in S. destruct (get_ast (e_model e') sec pt) as [a'| |]; simpl in S; try discriminate.
    inversion S. eauto. }
  constructor; auto.
  - destruct D1 as [a [A T]]. destruct (G _ _ _ A) as [a' [A' [_ T']]]. exists a'. split; congruence.
  - destruct D2 as [a [A T]]. destruct (G _ _ _ A) as [a' [A' [_ T']]]. exists a'. split; congruence.
  - destruct D3 as [a [A T]]. destruct (G _ _ _ A) as [a' [A' [T' _]]]. exists a'. split; congruence.
  - destruct D4 as [a [A T]]. destruct (G _ _ _ A) as [a' [A' [T' _]]]. exists a'. split; congruence.
  - intros f I. specialize (D9 f I). specialize (S "g" f). unfold get_ast in S. rewrite D9 in S.
    destruct (aget f (sec_of (e_model e') "g")); [discriminate|reflexivity].
Qed.

(** The role functions keep their arity, and their role manager when both states are wired. *)
Lemma shape_g : forall e e' f, same_shape e e' -> wired e -> wired e' -> e_rm e' = e_rm e ->
  forall a, aget f (sec_of (e_model e) "g") = Some a ->
  exists a', aget f (sec_of (e_model e') "g") = Some a' /\ a_rm a' = a_rm a /\ a_value a' = a_value a.
Proof.
  intros e e' f S W W' RM a A. specialize (S "g" f). unfold get_ast in S. rewrite A in S.
  destruct (aget f (sec_of (e_model e') "g")) as [a'|] eqn:A'; simpl in S; [|discriminate]. exists a'. split; auto.
  rewrite (W' _ _ A'), (W _ _ A). inversion S. split; congruence.
Qed.
Lemma shape_arity : forall e e' f, same_shape e e' -> role_arity (e_model e') f = role_arity (e_model e) f.
Proof.
  intros e e' f S. specialize (S "g" f). unfold get_ast in S. unfold role_arity.
  destruct (aget f (sec_of (e_model e') "g")), (aget f (sec_of (e_model e) "g")); simpl in S; try discriminate; inversion S; congruence.
Qed.
Lemma shape_fits : forall o e e' rf pf ev, oracle_ext o -> same_shape e e' -> wired e -> wired e' -> e_rm e' = e_rm e ->
  fits o (e_model e) rf pf ev -> fits o (e_model e') rf pf ev.
Proof.
  intros o e e' rf pf ev [X1 X2] S W W' RM [F1 F2 F3]. constructor; auto.
  - intros f k K. destruct (F2 f k K) as [?|[a [A ->]]]; auto. right.
    destruct (shape_g e e' f S W W' RM a A) as [a' [A' [R' V']]]. exists a'. rewrite R', V'. auto.
  - destruct F3 as [F3|[F3 F4]]; auto. right. split; auto. rewrite F3. f_equal. apply X1; auto. intros. symmetry. apply shape_arity. auto.
Qed.

Definition same_rm_ev (e e' : enforcer) : Prop := e_rm e' = e_rm e /\ e_ev e' = e_ev e.

(** ** Readiness is kept by safe calls with plain requests *)
Section Ready.
  Variable o : oracle.
  Hypothesis X : oracle_ext o.
  Variables rf pf : list string.
  Variables eft mat : string.
  Hypothesis MAT : mat <> "".
  Hypothesis NOEVAL : HasEval mat = false.
  Variable rules : rule -> Prop.

  Lemma plain_texts : forall matcher l, HasEval matcher = false -> texts_ok (chosen matcher mat) pf l.
  Proof.
    intros matcher l H. unfold texts_ok, chosen, matcher_text, rule_expression. destruct (String.eqb_spec matcher "") as [->|N].
    - split; auto. intros. rewrite NOEVAL. congruence.
    - split; auto. intros. rewrite H. congruence.
  Qed.

  (** A state reached by requests only. *)
  Definition asked_on (e e' : enforcer) : Prop :=
    ready o e rf pf eft mat -> (exists ev, e' = set_ev ev e) /\ ready o e' rf pf eft mat.
  Lemma asked_refl : forall e, asked_on e e.
  Proof. intros e R. split; auto. exists (e_ev e). destruct e; reflexivity. Qed.
  Lemma asked_trans : forall a b c, asked_on a b -> asked_on b c -> asked_on a c.
  Proof.
    intros a b c H1 H2 R. destruct (H1 R) as [[v ->] R1]. destruct (H2 R1) as [[w ->] R2]. split; auto. exists w. reflexivity.
  Qed.
  Lemma asked_enforce : forall matcher params, plain_request matcher params -> keeps asked_on (EnforceWithMatcher o matcher params).
  Proof.
    intros matcher params [NE [req ->]] e R. rewrite fst_EnforceWithMatcher.
    destruct (Nat.eq_dec (List.length req) (List.length rf)) as [L|L].
    - destruct (enforce_spec o e rf pf eft mat matcher req X R L (plain_texts _ _ NE)) as [ev [E F]]. rewrite E. simpl. split; [eauto|].
      apply ready_set_ev; auto. apply R.
    - unfold EnforceExWithMatcher. destruct (d_r _ _ _ _ _ (proj1 R)) as [a [A TK]]. rewrite A, TK, !map_length.
      apply Nat.eqb_neq in L. rewrite L. simpl. split; auto. exists (e_ev e). destruct e; reflexivity.
  Qed.
  Lemma asked_batch : forall matcher reqs, Forall (plain_request matcher) reqs -> keeps asked_on (BatchEnforceWithMatcher o matcher reqs).
  Proof.
    intros matcher reqs F. induction F; simpl; [apply keeps_ret, asked_refl|].
    apply keeps_bind; [exact asked_trans|apply asked_enforce; auto|]. intros.
    apply keeps_bind; [exact asked_trans|auto|]. intros. apply keeps_ret, asked_refl.
  Qed.
  Lemma asked_allowed : forall perm subs, keeps asked_on (allowed_subjects o perm subs).
  Proof.
    induction subs; simpl; [apply keeps_ret, asked_refl|].
    apply keeps_bind; [exact asked_trans|apply keeps_lift, asked_refl|]. intros.
    apply keeps_bind; [exact asked_trans|apply keeps_lift, asked_refl|]. intros.
    apply keeps_bind; [exact asked_trans|apply asked_enforce; split; [reflexivity|exists [a; a0; a1]; reflexivity]|]. intros.
    apply keeps_bind; [exact asked_trans|auto|]. intros. apply keeps_ret, asked_refl.
  Qed.

  (** Queries of all types only create empty sections. *)
  Lemma sec_touch_g : forall m s, sec_of (touch m s) "g" = sec_of m "g".
  Proof. intros. apply sec_touch. Qed.
  Lemma ready_touch : forall e s, ready o e rf pf eft mat -> ready o (set_model (touch (e_model e) s) e) rf pf eft mat.
  Proof.
    intros e s [D F]. split.
    - eapply shape_declares; [|exact D]. intros sec pt. simpl. rewrite get_touch. reflexivity.
    - simpl. destruct (e_ev e) as [ev|]; auto. destruct F as [F1 F2 F3]. constructor; auto.
      + rewrite sec_touch. auto.
      + unfold role_arity. rewrite sec_touch. auto.
  Qed.
  Lemma ready_all_types : forall sec i e, ready o e rf pf eft mat -> ready o (fst (all_types sec i e)) rf pf eft mat.
  Proof. intros sec i e R. unfold all_types. simpl. apply ready_touch. auto. Qed.
  Lemma ready_implicit_users : forall perm e, ready o e rf pf eft mat -> ready o (fst (GetImplicitUsersForPermission o perm e)) rf pf eft mat.
  Proof.
    intros perm. change (keeps (fun e e' => ready o e rf pf eft mat -> ready o e' rf pf eft mat) (GetImplicitUsersForPermission o perm)).
    set (R := fun e e' : enforcer => ready o e rf pf eft mat -> ready o e' rf pf eft mat).
    assert (RT : forall a b c, R a b -> R b c -> R a c) by (unfold R; auto).
    assert (RR : forall a, R a a) by (unfold R; auto).
    unfold GetImplicitUsersForPermission.
    apply keeps_bind; [exact RT|intros e Re; apply ready_all_types; auto|]. intros.
    apply keeps_bind; [exact RT|intros e Re; apply ready_all_types; auto|]. intros.
    apply keeps_bind; [exact RT|intros e Re; apply ready_all_types; auto|]. intros.
    apply keeps_bind; [exact RT|intros e Re; apply asked_allowed; auto|]. intros. apply keeps_ret, RR.
  Qed.

  Lemma ready_step : forall e c, safe_call rules c -> shaped_call (List.length pf) c -> ready o e rf pf eft mat ->
    wired e -> wired (fst (run o c e)) -> ready o (fst (run o c e)) rf pf eft mat.
  Proof.
    intros e c S C R M M'.
    assert (GEN : same_rm_ev e (fst (run o c e)) -> ready o (fst (run o c e)) rf pf eft mat).
    { intros [RM EV]. pose proof (shape_run o c rules S e) as SH. destruct R as [D F]. split; [eapply shape_declares; eauto|].
      rewrite EV. destruct (e_ev e); auto. eapply shape_fits; eauto. }
    assert (P : parts_only c -> same_rm_ev e (fst (run o c e))).
    { intros P. revert e R M M' GEN. intros e _ _ _ _. revert e. apply parts_run; auto; unfold same_rm_ev; try (intros; split; reflexivity). intuition congruence. }
    destruct c; try (apply GEN, P; exact I); simpl in S, C; try tauto.
    - simpl. unfold drop_value, mbind. pose proof (ready_implicit_users perm e R) as K.
      destruct (GetImplicitUsersForPermission o perm e) as [e1 [x|t|u]]; exact K.
    - simpl. unfold drop_value, mbind. destruct (asked_enforce matcher params C e R) as [_ K].
      destruct (EnforceWithMatcher o matcher params e) as [e1 [x|t|u]]; exact K.
    - simpl. unfold drop_value, mbind. destruct (asked_batch matcher reqs C e R) as [_ K].
      destruct (BatchEnforceWithMatcher o matcher reqs e) as [e1 [x|t|u]]; exact K.
    - destruct R as [D F]. split; [exact D|]. simpl. apply fits_new.
  Qed.

  (** The outcome of a request does not depend on the evaluator left behind. *)
  Lemma same_answer : forall e e' matcher req, (exists ev, e' = set_ev ev e) -> ready o e rf pf eft mat -> ready o e' rf pf eft mat ->
    HasEval matcher = false -> snd (EnforceWithMatcher o matcher (map DStr req) e') = snd (EnforceWithMatcher o matcher (map DStr req) e).
  Proof.
    intros e e' matcher req [ev ->] R R' NE. rewrite !snd_EnforceWithMatcher.
    destruct (Nat.eq_dec (List.length req) (List.length rf)) as [L|L].
    - destruct (enforce_spec o e rf pf eft mat matcher req X R L (plain_texts _ _ NE)) as [ev1 [E1 _]].
      destruct (enforce_spec o (set_ev ev e) rf pf eft mat matcher req X R' L (plain_texts _ _ NE)) as [ev2 [E2 _]].
      rewrite E1, E2. reflexivity.
    - unfold EnforceExWithMatcher. simpl. destruct (d_r _ _ _ _ _ (proj1 R)) as [a [A TK]]. rewrite A, TK, !map_length.
      apply Nat.eqb_neq in L. rewrite L. reflexivity.
  Qed.
End Ready.

(** ** Stored rules of type p: the kind of store, and a property of the rules *)
Section Rules.
  Variable hashed : bool.
  Variable Q : rule -> Prop.
  Definition all_stored (p : store) : Prop := (is_hash p = true -> hashed = true) /\ forall r, In r (rules_of p) -> Q r.
  Definition p_kept (e : enforcer) : Prop := forall a, get_ast (e_model e) "p" "p" = Ok a -> all_stored (a_policy a).
  Definition p_stays (e e' : enforcer) : Prop := p_kept e -> p_kept e'.

  Lemma all_emplace : forall p r, all_stored p -> Q r -> all_stored (emplace p r).
  Proof.
    intros [l|l] r [H A] R; simpl; [|destruct (existsb (rule_eqb r) l)]; split; auto; simpl; intros x I;
      apply in_app_iff in I; destruct I as [I|[<-|[]]]; auto.
  Qed.
  Lemma all_emplace_many : forall rs p, all_stored p -> Forall Q rs -> all_stored (fold_left emplace rs p).
  Proof. induction rs; simpl; intros; auto. inversion H0; subst. apply IHrs; auto. apply all_emplace; auto. Qed.
  Lemma all_with : forall p l, all_stored p -> (forall r, In r l -> In r (rules_of p)) -> all_stored (with_rules p l).
  Proof. intros [l0|l0] l [H A] I; split; auto. Qed.
  Lemma erase_first_in : forall r l l', erase_first r l = Some l' -> forall x, In x l' -> In x l.
  Proof.
    intros r l l' H x I. apply erase_first_some in H. destruct H as [pre [y [post [-> [-> _]]]]].
    apply in_app_iff in I. apply in_app_iff. simpl. tauto.
  Qed.
  Lemma erase_all_in : forall olds l l' ok, erase_all olds l = (l', ok) -> forall x, In x l' -> In x l.
  Proof.
    induction olds; simpl; intros l l' ok H x I. { inversion H; subst. auto. }
    destruct (erase_first a l) as [l1|] eqn:E; [|inversion H; subst; auto]. eapply erase_first_in; eauto.
  Qed.

  Lemma stays_put : forall e m sec pt a p, get_ast (e_model e) sec pt = Ok a -> m = put_policy (e_model e) sec pt a p ->
    (sec = "p" -> pt = "p" -> all_stored (a_policy a) -> all_stored p) -> p_stays e (set_model m e).
  Proof.
    intros e m sec pt a p G -> H K b B. simpl in B. destruct (pair_dec "p" "p" sec pt) as [V|V].
    - inversion V; subst. rewrite get_put_same in B. inversion B; subst. simpl. apply H; auto.
    - rewrite get_put_other in B by auto. auto.
  Qed.
  Ltac stays_start := intros; apply keeps_on_model; [intros ? ?; auto|]; intros e m x H;
    match goal with |- p_stays _ _ => idtac end.

  Lemma p_refl : forall e, p_stays e e.
  Proof. intros e K. exact K. Qed.
  Lemma p_trans : forall a b c, p_stays a b -> p_stays b c -> p_stays a c.
  Proof. unfold p_stays. auto. Qed.
  Lemma p_asts : forall e e', same_asts e e' -> p_stays e e'.
  Proof.
    intros e e' S K a A. specialize (S "p" "p"). rewrite A in S. unfold p_kept in K.
    destruct (get_ast (e_model e) "p" "p") as [b| |]; simpl in S; try discriminate. specialize (K b eq_refl). inversion S. congruence.
  Qed.
  Lemma p_add : forall sec pt r, (sec = "p" -> pt = "p" -> Q r) -> keeps p_stays (on_model (fun m => AddPolicy m sec pt r)).
  Proof.
    intros sec pt r F. apply keeps_on_model; [exact p_refl|]. intros e m x H. unfold AddPolicy in H.
    destruct (get_ast (e_model e) sec pt) as [a| |] eqn:G; try discriminate. cbn [bind] in H.
    destruct (has_rule (rules_of (a_policy a)) r); inversion H; subst; [exact (p_refl e)|].
    eapply stays_put; eauto. intros. apply all_emplace; auto.
  Qed.
  Lemma p_add_many : forall sec pt rs, (sec = "p" -> pt = "p" -> Forall Q rs) -> keeps p_stays (on_model (fun m => AddPolicies m sec pt rs)).
  Proof.
    intros sec pt rs F. apply keeps_on_model; [exact p_refl|]. intros e m x H. unfold AddPolicies in H.
    destruct rs as [|r rs]. { inversion H; subst. exact (p_refl e). }
    destruct (get_ast (e_model e) sec pt) as [a| |] eqn:G; try discriminate. cbn [bind] in H.
    destruct (existsb (has_rule (rules_of (a_policy a))) (r :: rs)); inversion H; subst; [exact (p_refl e)|].
    eapply stays_put; eauto. intros. pose proof (F H0 H1) as FF. inversion FF; subst. apply all_emplace_many; auto. apply all_emplace; auto.
  Qed.
  Lemma p_remove : forall sec pt r, keeps p_stays (on_model (fun m => RemovePolicy m sec pt r)).
  Proof.
    intros sec pt r. apply keeps_on_model; [exact p_refl|]. intros e m x H. unfold RemovePolicy in H.
    destruct (get_ast (e_model e) sec pt) as [a| |] eqn:G; try discriminate. cbn [bind] in H.
    destruct (erase_first r (rules_of (a_policy a))) eqn:E; inversion H; subst; [|exact (p_refl e)].
    eapply stays_put; eauto. intros. apply all_with; auto. eapply erase_first_in; eauto.
  Qed.
  Lemma p_remove_filtered : forall sec pt i vals, keeps p_stays (on_model (fun m => RemoveFilteredPolicy m sec pt i vals)).
  Proof.
    intros sec pt i vals. apply keeps_on_model; [exact p_refl|]. intros e m x H. unfold RemoveFilteredPolicy in H.
    destruct (get_ast (e_model e) sec pt) as [a| |] eqn:G; try discriminate. cbn [bind] in H.
    destruct (partition_rules i vals (rules_of (a_policy a))) as [[eff tmp]| |] eqn:E; try discriminate. inversion H; subst.
    eapply stays_put; eauto. intros _ _ [K1 K2]. split; [discriminate|]. simpl. intros r I. apply K2. apply partition_rules_spec in E. destruct E as [_ E].
    eapply selects_in in E. apply E. exact I.
  Qed.
  Lemma p_update : forall sec pt old new, (sec = "p" -> pt = "p" -> Q new) -> keeps p_stays (on_model (fun m => UpdatePolicy m sec pt old new)).
  Proof.
    intros sec pt old new F. apply keeps_on_model; [exact p_refl|]. intros e m x H. unfold UpdatePolicy in H.
    destruct (get_ast (e_model e) sec pt) as [a| |] eqn:G; try discriminate. cbn [bind] in H.
    destruct (erase_first old (rules_of (a_policy a))) as [l|] eqn:E; [|inversion H; subst; exact (p_refl e)].
    destruct (has_rule l new); inversion H; subst; (eapply stays_put; [exact G|reflexivity|]); intros.
    - apply all_with; auto. eapply erase_first_in; eauto.
    - apply all_emplace; auto. apply all_with; auto. eapply erase_first_in; eauto.
  Qed.
  Lemma p_update_many : forall sec pt olds news, (sec = "p" -> pt = "p" -> Forall Q news) ->
    keeps p_stays (on_model (fun m => UpdatePolicies m sec pt olds news)).
  Proof.
    intros sec pt olds news F. apply keeps_on_model; [exact p_refl|]. intros e m x H. unfold UpdatePolicies in H.
    destruct (get_ast (e_model e) sec pt) as [a| |] eqn:G; try discriminate. cbn [bind] in H.
    destruct (erase_all olds (rules_of (a_policy a))) as [l ok] eqn:E.
    assert (W : all_stored (a_policy a) -> all_stored (with_rules (a_policy a) l)).
    { intros. apply all_with; auto. eapply erase_all_in; eauto. }
    destruct (negb ok); [|destruct (existsb (has_rule l) news)]; inversion H; subst; (eapply stays_put; [exact G|reflexivity|]); auto.
    intros. apply all_emplace_many; auto.
  Qed.
End Rules.

Lemma rules_run : forall hashed n o c rules, safe_call rules c -> shaped_call n c -> keeps (p_stays hashed (fun r => List.length r = n)) (run o c).
Proof.
  intros hashed n o c rules S C. apply run_keeps.
  - apply p_refl.
  - apply p_trans.
  - apply p_asts.
  - destruct c; simpl in *; auto; try tauto; try (split; apply p_remove_filtered);
      first [apply p_add; auto; discriminate|apply p_add_many; auto; discriminate|apply p_remove|apply p_remove_filtered
            |apply p_update; auto; discriminate|apply p_update_many; auto; discriminate|intros; apply p_add; discriminate].
Qed.

(** Enforcement stays on. *)
Definition same_on (e e' : enforcer) : Prop := e_enabled e = true -> e_enabled e' = true.
Lemma on_enforce : forall o matcher params, keeps same_on (EnforceWithMatcher o matcher params).
Proof. intros o matcher params e. rewrite fst_EnforceWithMatcher. destruct (EnforceEx_frame o matcher params e) as [ev ->]. exact (fun H => H). Qed.
Lemma on_batch : forall o matcher reqs, keeps same_on (BatchEnforceWithMatcher o matcher reqs).
Proof.
  induction reqs; simpl. { intros e H. exact H. }
  apply keeps_bind; [unfold same_on; auto|apply on_enforce|]. intros.
  apply keeps_bind; [unfold same_on; auto|auto|]. intros b e H. exact H.
Qed.
Lemma on_allowed : forall o perm subs, keeps same_on (allowed_subjects o perm subs).
Proof.
  intros o perm. assert (T : forall a b c, same_on a b -> same_on b c -> same_on a c) by (unfold same_on; auto).
  induction subs; simpl. { intros e H. exact H. }
  do 2 (apply keeps_bind; [exact T|apply keeps_lift; intros e H; exact H|]; intros).
  apply keeps_bind; [exact T|apply on_enforce|]. intros.
  apply keeps_bind; [exact T|auto|]. intros b e H. exact H.
Qed.
Lemma on_run : forall n o c rules, safe_call rules c -> shaped_call n c -> keeps same_on (run o c).
Proof.
  intros n o c rules S C. assert (T : forall a b c, same_on a b -> same_on b c -> same_on a c) by (unfold same_on; auto).
  assert (RR : forall a, same_on a a) by (unfold same_on; auto).
  assert (P : parts_only c -> keeps same_on (run o c)). { intros P. apply parts_run; auto; intros ? e H; exact H. }
  destruct c; try (apply P; exact I); simpl in S, C |- *; try tauto;
    try (apply keeps_drop; [exact RR|exact T|]); try (intros e H; exact H).
  - unfold GetImplicitUsersForPermission.
    do 3 (apply keeps_bind; [exact T|intros e H; exact H|]; intros).
    apply keeps_bind; [exact T|apply on_allowed|]. intros x e H. exact H.
  - apply on_enforce.
  - apply on_batch.
  - subst. intros e _. reflexivity.
Qed.

(** An enforcer in order stays so. *)
Lemma standard_step : forall o rules hashed rf pf eft mat c e, oracle_ext o -> mat <> "" -> HasEval mat = false ->
  wired e -> wired (fst (run o c e)) -> safe_call rules c -> shaped_call (List.length pf) c -> standard o hashed rf pf eft mat e ->
  standard o hashed rf pf eft mat (fst (run o c e)).
Proof.
  intros o rules hashed rf pf eft mat c e X NM NE W W' S C [SR SV SF SO].
  assert (PK : p_kept hashed (fun r => List.length r = List.length pf) (fst (run o c e))).
  { apply (rules_run _ _ o c rules S C). intros a A. unfold p_indexed in SV. rewrite A in SV. split; auto.
    intros r I. apply SF. unfold stored, rules_in. rewrite A. auto. }
  constructor.
  - eapply (ready_step o X) with (rules := rules); eauto.
  - unfold p_indexed in *. pose proof (shape_run o c rules S e "p" "p") as SH.
    destruct (get_ast (e_model (fst (run o c e))) "p" "p") eqn:G; [apply PK; auto| |];
      destruct (get_ast (e_model e) "p" "p"); try discriminate SH; discriminate.
  - unfold stored, rules_in. destruct (get_ast (e_model (fst (run o c e))) "p" "p") eqn:G; [|simpl; tauto|simpl; tauto]. intros r. apply PK. auto.
  - apply (on_run _ o c rules S C e SO).
Qed.
Lemma standard_run : forall o names k rules hashed rf pf eft mat c e, oracle_ext o -> mat <> "" -> HasEval mat = false ->
  tidy names k rules -> managed o names k rules e -> safe_call rules c -> shaped_call (List.length pf) c -> standard o hashed rf pf eft mat e ->
  forall e' out, run o c e = (e', out) -> (forall u, out <> UB u) -> standard o hashed rf pf eft mat e'.
Proof.
  intros o names k rules hashed rf pf eft mat c e X NM NE T M S C ST e' out E NU.
  assert (M' : managed o names k rules e') by (eapply managed_call; eauto).
  replace e' with (fst (run o c e)) in * by (rewrite E; reflexivity).
  eapply standard_step; eauto; eapply managed_mirror; eauto.
Qed.
(** The same without role definitions. *)
Lemma roleless_run : forall o rules hashed rf pf eft mat c e, oracle_ext o -> mat <> "" -> HasEval mat = false ->
  roleless e -> safe_call rules c -> shaped_call (List.length pf) c -> standard o hashed rf pf eft mat e ->
  standard o hashed rf pf eft mat (fst (run o c e)) /\ roleless (fst (run o c e)).
Proof.
  intros o rules hashed rf pf eft mat c e X NM NE N S C ST.
  assert (N' : roleless (fst (run o c e))).
  { intros f [a A]. pose proof (shape_run o c rules S e "g" f) as SH. rewrite A in SH. apply (N f). unfold declared.
    destruct (get_ast (e_model e) "g" f); try discriminate. eauto. }
  assert (W : forall x, roleless x -> wired x).
  { intros x NX pt a A. destruct (NX pt). exists a. unfold get_ast. unfold asts in A. rewrite A. reflexivity. }
  split; auto. eapply standard_step; eauto.
Qed.
Lemma declared_run : forall o rules c e sec pt, safe_call rules c -> declared e sec pt -> declared (fst (run o c e)) sec pt.
Proof.
  intros o rules c e sec pt S [a A]. pose proof (shape_run o c rules S e sec pt) as SH. rewrite A in SH. unfold declared.
  destruct (get_ast (e_model (fst (run o c e))) sec pt); try discriminate. eauto.
Qed.

Lemma rbac_standard : forall o e, standard_rbac o e <->
  standard o false ["sub"; "obj"; "act"] ["sub"; "obj"; "act"] (effect_text AllowOverride) rbac_matcher e /\ declared e "g" "g".
Proof.
  intros o e. split; [intros []; split; auto; constructor; auto; congruence|intros [[SR SS SF SO] G]; constructor; auto].
  destruct (p_indexed (e_model e)); auto. specialize (SS eq_refl). discriminate.
Qed.
Lemma rbac_run : forall o names rules c e, oracle_ext o -> tidy names 2 rules -> managed o names 2 rules e ->
  safe_call rules c -> rbac_call c -> standard_rbac o e ->
  forall e' out, run o c e = (e', out) -> (forall u, out <> UB u) -> standard_rbac o e'.
Proof.
  intros o names rules c e X T M S C R e' out E NU. apply rbac_standard in R. destruct R as [R G]. apply rbac_standard. split.
  - eapply standard_run; eauto; try discriminate.
  - replace e' with (fst (run o c e)) by (rewrite E; reflexivity). eapply declared_run; eauto.
Qed.
