(** Property C80: the switches of an enforcer. *)
From Verif Require Import Base P_Base M_Util M_RoleManager M_Effector M_Model M_Persist M_Eval M_Evaluator M_Enforcer M_Matcher
  S_Effect S_Enforce S_Policy S_History S_Notify S_Safe S_Switch P_Enforce P_Decide P_Store P_Api P_History P_Notify P_Ready P_SafeMore P_Switch E_Examples.

(** ** C80 *)

(** Setting a switch changes this switch and nothing else of the enforcer. *)
Theorem C80_set : forall o s b e, exists e',
  run o (setter s b) e = (e', Ok tt) /\ position s e' = b /\ (forall s', s' <> s -> position s' e' = position s' e) /\ rest e' = rest e.
Proof.
  intros o s b e. exists (fst (run o (setter s b) e)).
  split; [destruct s; reflexivity|]. split; [destruct s; reflexivity|]. split; [|destruct s; reflexivity].
  intros s' N. destruct s, s'; try reflexivity; congruence.
Qed.
Print Assumptions C80_set.

(** A switch stays where it was set through every history, with exceptions or without,
    that does not set it again and does not replace the model. *)
Theorem C80_stays : forall o s cs e e', leaves s cs -> reaches o e cs e' -> position s e' = position s e.
Proof.
  intros o s cs e e' L R. induction R as [e|e c cs e1 out e2 Q _ R IH]; auto. destruct L as [L1 L2].
  rewrite IH. 2: { split; intros x I; [apply (L1 x)|apply (L2 x)]; right; exact I. }
  assert (K : keeps (same_pos s) (run o c)). { apply pos_run; intros x E; [apply (L1 x)|apply (L2 x)]; left; auto. }
  specialize (K e). rewrite Q in K. exact K.
Qed.
Print Assumptions C80_stays.

(** Replacing the model puts every switch on again. *)
Theorem C80_set_model_refuted : forall o s e m, position s (fst (run o (KSetModel m) e)) = true.
Proof. intros o s e m. destruct s; reflexivity. Qed.
Print Assumptions C80_set_model_refuted.

(** Switched off, enforcement allows every request with the declared number of values, and
    explains it by no rule, whatever happened in between, whatever the matcher and the
    policy are, and whether the values are strings or JSON; the same for maps. *)
Theorem C80_enforcing_off : forall o cs e e' matcher, leaves Enforcing cs ->
  reaches o (fst (EnableEnforce false e)) cs e' ->
  (forall a fs params, get_ast (e_model e') "r" "r" = Ok a -> a_tokens a = map (String.append "r_") fs -> Forall plain_name fs ->
     List.length params = List.length fs ->
     snd (EnforceExWithMatcher o matcher params e') = Ok (true, []) /\ snd (EnforceWithMatcher o matcher params e') = Ok true) /\
  (forall params, Forall (fun kv => plain_name (fst kv)) params ->
     snd (EnforceExWithMatcherMap o matcher params e') = Ok (true, []) /\ snd (EnforceWithMatcherMap o matcher params e') = Ok true).
Proof.
  intros o cs e e' matcher L R. pose proof (C80_stays o Enforcing cs _ _ L R) as E. cbn in E. split.
  - intros a fs params A TK P LE.
    assert (X : snd (EnforceExWithMatcher o matcher params e') = Ok (true, [])).
    { unfold EnforceExWithMatcher. rewrite A, TK, map_length, LE, Nat.eqb_refl. cbn [negb].
      destruct (push_r_ok fs params (own_evaluator e') P) as [ev [-> _]]. unfold m_enforce. rewrite E. reflexivity. }
    split; auto. unfold EnforceWithMatcher, mbind. destruct (EnforceExWithMatcher o matcher params e') as [e1 out]. cbn [snd] in X. subst. reflexivity.
  - intros params P.
    assert (X : snd (EnforceExWithMatcherMap o matcher params e') = Ok (true, [])).
    { unfold EnforceExWithMatcherMap.
      destruct (push_map_ok params (own_evaluator e') P) as [ev [-> _]]. unfold m_enforce. rewrite E. reflexivity. }
    split; auto. unfold EnforceWithMatcherMap, mbind. destruct (EnforceExWithMatcherMap o matcher params e') as [e1 out]. cbn [snd] in X. subst. reflexivity.
Qed.
Print Assumptions C80_enforcing_off.

(** With notifications switched off the watcher hears nothing in any history that does not
    save the policy, replace the watcher or the model, or switch notifications on. *)
Theorem C80_notify_off : forall o cs e e', leaves AutoNotify cs -> ~ In KSavePolicy cs -> ~ In KSetWatcher cs ->
  reaches o (fst (EnableAutoNotifyWatcher false e)) cs e' -> e_watcher e' = e_watcher e.
Proof.
  intros o cs e e' [L1 L2] N1 N2 R. remember (fst (EnableAutoNotifyWatcher false e)) as e0 eqn:E0.
  assert (S : e_notify e0 = false) by (subst; reflexivity). replace (e_watcher e) with (e_watcher e0) by (subst; reflexivity). clear E0 e.
  induction R as [e|e c cs e1 out e2 Q _ R IH]; auto.
  assert (U : unheard c).
  { destruct c; cbn [unheard]; auto; try (apply N1; left; reflexivity); try (apply N2; left; reflexivity).
    - exfalso. apply (L1 b). left. reflexivity.
    - apply (L2 m). left. reflexivity. }
  pose proof (run_hush o c U e S) as K. rewrite Q in K. cbn [fst] in K. destruct K as [K1 K2]. rewrite <- K2.
  apply IH; auto; try (intros x I; first [apply (L1 x)|apply (L2 x)]; right; exact I); intros I; [apply N1|apply N2]; right; exact I.
Qed.
Print Assumptions C80_notify_off.

(** Without automatic building of role links LoadPolicy leaves the role managers alone;
    with it, it does what LoadPolicy without it followed by BuildRoleLinks does. *)
Lemma adapter_load_build : forall b e, adapter_load (set_auto_build b e) = (set_auto_build b (fst (adapter_load e)), snd (adapter_load e)).
Proof.
  intros b e. unfold adapter_load. cbn. destruct (e_adapter e) as [[bb p|l|p fd|u]|]; cbn; auto.
  - destruct (FileAdapter_LoadPolicy _ _ _). reflexivity.
  - destruct (StringAdapter_LoadPolicy _ _). reflexivity.
  - destruct (Filtered_LoadPolicy _ _ _) as [[? ?] ?]. reflexivity.
  - destruct (ua_load u (ua_log u)) as [lines ex]. destruct (load_lines lines (e_model e)) as [m [x|t|v]]; reflexivity.
Qed.
Lemma adapter_load_heap : forall e, e_heap (fst (adapter_load e)) = e_heap e /\ e_auto_build (fst (adapter_load e)) = e_auto_build e.
Proof.
  intros e. unfold adapter_load. destruct (e_adapter e) as [[bb p|l|p fd|u]|]; cbn; auto.
  - destruct (FileAdapter_LoadPolicy _ _ _). auto.
  - destruct (StringAdapter_LoadPolicy _ _). auto.
  - destruct (Filtered_LoadPolicy _ _ _) as [[? ?] ?]. auto.
  - destruct (ua_load u (ua_log u)) as [lines ex]. destruct (load_lines lines (e_model e)) as [m [x|t|v]]; auto.
Qed.
Theorem C80_build : forall e,
  (e_auto_build e = false -> e_heap (fst (LoadPolicy e)) = e_heap e) /\
  (forall e1, LoadPolicy (set_auto_build false e) = (e1, Ok tt) ->
     LoadPolicy (set_auto_build true e) = e_BuildRoleLinks (set_auto_build true e1)).
Proof.
  intros e. unfold LoadPolicy, mbind, e_ClearPolicy, modify. split.
  - intros B. destruct (adapter_load_heap (set_model (ClearPolicy (e_model e)) e)) as [H1 H2].
    destruct (adapter_load _) as [e1 [x|t|u]]; cbn [fst] in *; auto. unfold rebuild_if_auto. rewrite H2. cbn. rewrite B. auto.
  - intros e1. pose proof (adapter_load_build false (set_model (ClearPolicy (e_model e)) e)) as A.
    pose proof (adapter_load_build true (set_model (ClearPolicy (e_model e)) e)) as B.
    change (set_auto_build false (set_model (ClearPolicy (e_model e)) e)) with (set_model (ClearPolicy (e_model e)) (set_auto_build false e)) in A.
    change (set_auto_build true (set_model (ClearPolicy (e_model e)) e)) with (set_model (ClearPolicy (e_model e)) (set_auto_build true e)) in B.
    change (e_model (set_auto_build false e)) with (e_model e). change (e_model (set_auto_build true e)) with (e_model e).
    rewrite A, B. destruct (adapter_load (set_model (ClearPolicy (e_model e)) e)) as [e2 [x|t|u]]; cbn [fst snd]; intros Q; try discriminate Q.
    unfold rebuild_if_auto in Q |- *. cbn in Q. injection Q as <-. reflexivity.
Qed.
Print Assumptions C80_build.

(** But a grouping rule added while it is off is linked all the same. *)
Theorem C80_build_off_refuted : exists e e' e'',
  AddGroupingPolicy ["alice"; "admin"] (fst (EnableAutoBuildRoleLinks false e)) = (e', Ok true) /\
  GetRolesForUser "alice" [] e' = (e'', Ok ["admin"]).
Proof. exists (linked_boot (rbac_model [] [])). eexists. eexists. split; vm_compute; reflexivity. Qed.
Print Assumptions C80_build_off_refuted.

(** ** The hypotheses are met *)
Definition after (cs : list call) (e : enforcer) : enforcer := match run_all mini cs e with Some e' => e' | None => e end.
Lemma after_reaches : forall cs e, (match run_all mini cs e with Some _ => true | None => false end) = true -> reaches mini e cs (after cs e).
Proof. intros cs e H. apply run_all_reaches. unfold after. destruct (run_all mini cs e); [reflexivity|discriminate]. Qed.
Definition quiet_calls : list call :=
  [KAddPolicy "p" ["alice"; "data1"; "read"]; KAddGrouping "g" ["bob"; "alice"]; KAddGrouping "g" ["bob"]; KRemoveFiltered "p" 0 ["alice"]].
Definition watched : enforcer := fst (EnableAutoNotifyWatcher false (fst (SetWatcher (linked_boot (rbac_model [] []))))).
Example C80_notify_case : leaves AutoNotify quiet_calls /\ reaches mini watched quiet_calls (after quiet_calls watched) /\
  e_watcher (after quiet_calls watched) = Some 0 /\ snd (GetGroupingPolicy (after quiet_calls watched)) = Ok [["bob"; "alice"]; ["bob"]].
Proof.
  split; [split; intros x I; simpl in I; intuition discriminate|]. split; [apply after_reaches; vm_compute; reflexivity|].
  split; vm_compute; reflexivity.
Qed.
Definition off_calls : list call :=
  [KAddPolicy "p" ["alice"; "data1"; "read"]; KEnableAutoSave false; KEnforce "" (reqs ["bob"; "data1"; "read"]);
   KAddGrouping "g" ["bob"; "alice"]; KAddGrouping "g" ["bob"]; KSetWatcher; KClearPolicy].
Definition disabled : enforcer := fst (EnableEnforce false (linked_boot (rbac_model [] []))).
Example C80_enforcing_case : leaves Enforcing off_calls /\ reaches mini disabled off_calls (after off_calls disabled) /\
  snd (EnforceExWithMatcher mini "" (reqs ["mallory"; "data1"; "write"]) (after off_calls disabled)) = Ok (true, []) /\
  snd (EnforceExWithMatcher mini "" (reqs ["mallory"; "data1"; "write"]) (fst (EnableEnforce true (after off_calls disabled)))) = Ok (false, []).
Proof.
  split; [split; intros x I; simpl in I; intuition discriminate|]. split; [apply after_reaches; vm_compute; reflexivity|].
  split; vm_compute; reflexivity.
Qed.
(** A policy read from text: loaded without links, then with them. *)
Definition texted : enforcer :=
  fst (SetAdapter (Some (AString ("p, admin, data1, read" ++ String nl "g, alice, admin")%string)) (linked_boot (rbac_model [] []))).
Example C80_build_case :
  snd (LoadPolicy (set_auto_build false texted)) = Ok tt /\
  snd (GetGroupingPolicy (fst (LoadPolicy (set_auto_build false texted)))) = Ok [["alice"; "admin"]] /\
  e_heap (fst (LoadPolicy (set_auto_build true texted))) <> e_heap texted /\
  snd (GetRolesForUser "alice" [] (fst (LoadPolicy (set_auto_build true texted)))) = Ok ["admin"].
Proof. split; [vm_compute; reflexivity|]. split; [vm_compute; reflexivity|]. split; [vm_compute; discriminate|]. vm_compute; reflexivity. Qed.
