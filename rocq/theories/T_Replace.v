(** Property C84: replacing the role manager of an enforcer in use. *)
From Verif Require Import Base P_Base M_Util M_RoleManager M_Effector M_Model M_Persist M_Eval M_Evaluator M_Enforcer M_Matcher
  S_Effect S_Enforce S_Policy S_History S_Roles S_Sync S_Rbac S_Standard S_Pattern P_Enforce P_Decide P_Store P_Api P_History P_Group P_Roles P_Sync P_Ready P_Standard
  P_Pattern P_SyncPattern P_Switch E_Examples T_Roles T_Rbac T_Standard T_MatchRole.
Local Arguments spell : simpl never.

(** The state with the new manager, before the links are built. *)
Definition with_manager (r : role_manager) (e : enforcer) : enforcer := fst (SetRoleManager r e).
Lemma manager_set : forall r e, hget (e_heap (with_manager r e)) (e_rm (with_manager r e)) = Ok r.
Proof. intros r e. unfold with_manager. simpl. unfold hget. rewrite nth_error_app2, Nat.sub_diag; auto. Qed.
Lemma rebuilt_asts : forall e, same_asts e (fst (e_BuildRoleLinks e)).
Proof. exact quiet_rebuild. Qed.
Lemma rebuilt_frame : forall e, e_ev (fst (e_BuildRoleLinks e)) = e_ev e /\ e_enabled (fst (e_BuildRoleLinks e)) = e_enabled e.
Proof.
  intros e. unfold e_BuildRoleLinks. destruct (hget (e_heap e) (e_rm e)); auto.
  destruct (BuildRoleLinks (e_model e) (hset (e_heap e) (e_rm e) (Clear a)) (e_rm e)) as [[m h] out]. auto.
Qed.

Section Replace.
  Variables (o : oracle) (hashed : bool) (rf pf : list string) (eft mat : string) (e e2 : enforcer) (r : role_manager).
  Hypothesis B : e_BuildRoleLinks (with_manager r e) = (e2, Ok tt).
  Hypothesis S : standard o hashed rf pf eft mat e.

  Lemma replaced_asts : same_asts e e2.
  Proof. pose proof (rebuilt_asts (with_manager r e)) as H. rewrite B in H. exact H. Qed.
  Lemma replaced_stored : forall sec pt, stored e2 sec pt = stored e sec pt.
  Proof. intros sec pt. exact (stored_asts (with_manager r e) (e_model e) e2 sec pt replaced_asts). Qed.
  Lemma replaced_declared : forall sec pt, declared e sec pt -> declared e2 sec pt.
  Proof. intros sec pt. apply (same_asts_declared _ _ sec pt replaced_asts). Qed.
  Lemma replaced_standard : forall ev, (match ev with None => True | Some v => v = new_evaluator end) -> standard o hashed rf pf eft mat (set_ev ev e2).
  Proof.
    intros ev Hev. destruct S as [[D _] SV SF SO]. pose proof replaced_asts as A.
    constructor.
    - split; [apply (shape_declares e e2); auto; apply asts_shape; auto|]. simpl. destruct ev; auto. subst. apply fits_new.
    - pose proof (A "p" "p") as P. unfold p_indexed in *. simpl. unfold strip in P.
      destruct (get_ast (e_model e2) "p" "p") as [a'|t|u], (get_ast (e_model e) "p" "p") as [a|t'|u']; simpl in P; try discriminate.
      inversion P as [Q]. replace (a_policy a') with (a_policy a) by congruence. exact SV.
    - intros x I. apply SF. rewrite <- (replaced_stored "p" "p"). exact I.
    - simpl. pose proof (proj2 (rebuilt_frame (with_manager r e))) as F. rewrite B in F. cbn [fst] in F. rewrite F. exact SO.
  Qed.
End Replace.

(** ** C84 *)
(** With SetRoleManager, BuildRoleLinks and SetEvaluator the enforcer is in order again: the
    same rules, the links of all grouping rules in the new manager, and its level limit.  The
    decisions after that, and after any history of calls in order, are those of C36, C69-C72,
    C76 and C77. *)
Theorem C84_role_manager : forall o names n rules hashed rf pf eft mat e r,
  tidy names n rules -> managed o names n rules e -> standard o hashed rf pf eft mat e -> matching r = None ->
  exists e', reaches o e [KSetRoleManager r; KBuildRoleLinks; KSetEvaluator] e' /\
    managed o names n rules e' /\ standard o hashed rf pf eft mat e' /\ level_of e' = max_level r /\
    (forall sec pt, stored e' sec pt = stored e sec pt) /\ (forall f, declared e "g" f -> declared e' "g" f).
Proof.
  intros o names n rules hashed rf pf eft mat e r T M S N.
  destruct (managed_mirror names n rules T o e M) as [_ OK _ AB CA].
  destruct (rebuild_any names n rules T (with_manager r e) r (manager_set r e) N) as [e2 [E2 [M2 _]]]; auto.
  assert (MB : managed o names n rules e2).
  { apply (managed_built o names n rules (with_manager r e)); auto. exists r. split; auto. apply manager_set. }
  exists (set_ev (Some new_evaluator) e2). split.
  { eapply reach_step; [reflexivity|discriminate|]. eapply reach_step; [exact E2|discriminate|].
    eapply reach_step; [reflexivity|discriminate|]. apply reach_nil. }
  split. { eapply (managed_call o names n rules e2 KSetEvaluator); [exact MB|exact Logic.I|reflexivity|discriminate]. }
  split. { eapply replaced_standard; eauto. }
  split. { exact (mirror_level _ _ _ _ _ M2). }
  split. { intros sec pt. exact (replaced_stored e e2 r E2 sec pt). }
  intros f D. exact (replaced_declared e e2 r E2 "g" f D).
Qed.
(** Before the first request no SetEvaluator is needed. *)
Theorem C84_before_first_request : forall o names n rules hashed rf pf eft mat e r,
  tidy names n rules -> managed o names n rules e -> standard o hashed rf pf eft mat e -> matching r = None -> e_ev e = None ->
  exists e', reaches o e [KSetRoleManager r; KBuildRoleLinks] e' /\
    managed o names n rules e' /\ standard o hashed rf pf eft mat e' /\ level_of e' = max_level r /\
    (forall sec pt, stored e' sec pt = stored e sec pt) /\ (forall f, declared e "g" f -> declared e' "g" f).
Proof.
  intros o names n rules hashed rf pf eft mat e r T M S N EV.
  destruct (managed_mirror names n rules T o e M) as [_ OK _ AB CA].
  destruct (rebuild_any names n rules T (with_manager r e) r (manager_set r e) N) as [e2 [E2 [M2 _]]]; auto.
  assert (MB : managed o names n rules e2).
  { apply (managed_built o names n rules (with_manager r e)); auto. exists r. split; auto. apply manager_set. }
  exists e2. split.
  { eapply reach_step; [reflexivity|discriminate|]. eapply reach_step; [exact E2|discriminate|]. apply reach_nil. }
  split; [exact MB|].
  split. { pose proof (proj1 (rebuilt_frame (with_manager r e))) as F. rewrite E2 in F. cbn [fst] in F.
    replace e2 with (set_ev None e2); [eapply replaced_standard; eauto; exact Logic.I|].
    destruct e2; unfold set_ev; simpl in *. rewrite F. unfold with_manager in F. simpl in *. rewrite EV. reflexivity. }
  split. { exact (mirror_level _ _ _ _ _ M2). }
  split. { intros sec pt. exact (replaced_stored e e2 r E2 sec pt). }
  intros f D. exact (replaced_declared e e2 r E2 "g" f D).
Qed.
(** A manager with a matching function: then C82 applies. *)
Theorem C84_matching_manager : forall o f names n R hashed rf pf eft mat e r,
  tidy names n (fun x => In x R) -> patterns_ok f names R -> managed o names n (fun x => In x R) e ->
  standard o hashed rf pf eft mat e -> matching r = Some f ->
  exists e', reaches o e [KSetRoleManager r; KBuildRoleLinks; KSetEvaluator] e' /\
    matched o f names n R e' /\ standard o hashed rf pf eft mat e' /\ level_of e' = max_level r /\
    (forall sec pt, stored e' sec pt = stored e sec pt) /\ (forall g, declared e "g" g -> declared e' "g" g).
Proof.
  intros o f names n R hashed rf pf eft mat e r T PO M S N.
  destruct (managed_mirror names n _ T o e M) as [_ OK _ AB CA].
  destruct (rebuild_any_m f names n R T PO (with_manager r e) r (manager_set r e) N) as [e2 [E2 [M2 _]]]; auto.
  assert (MB : matched o f names n R e2).
  { apply (matched_built o f names n R (with_manager r e)); auto. exists r. split; auto. apply manager_set. }
  exists (set_ev (Some new_evaluator) e2). split.
  { eapply reach_step; [reflexivity|discriminate|]. eapply reach_step; [exact E2|discriminate|].
    eapply reach_step; [reflexivity|discriminate|]. apply reach_nil. }
  split. { eapply (matched_call o f names n R e2 KSetEvaluator); [exact MB|exact Logic.I|exact Logic.I|reflexivity|discriminate]. }
  split. { eapply replaced_standard; eauto. }
  split. { exact (mirror_m_level _ _ _ _ _ _ M2). }
  split. { intros sec pt. exact (replaced_stored e e2 r E2 sec pt). }
  intros g D. exact (replaced_declared e e2 r E2 "g" g D).
Qed.

(** Without SetEvaluator the matcher keeps asking the old manager, in an enforcer that has
    answered a request before: a role taken away later still gives access, and a role given
    later does not. *)
Definition ask_alice : call := KEnforce "" (reqs ["alice"; "data1"; "read"]).
Definition new_manager : list call := [KSetRoleManager (new_rm 10); KBuildRoleLinks].
Lemma org_standard : standard mini false f3 f3 (effect_text AllowOverride) rbac_matcher org.
Proof.
  constructor; try reflexivity; try discriminate.
  - split; [|exact Logic.I]. prove_declares.
  - intros x I. vm_compute in I. cases_in I; reflexivity.
Qed.
Theorem C84_old_manager_is_asked_refuted : exists e taken given,
  tidy plain_names 2 org_rule /\ managed mini plain_names 2 org_rule e /\ standard mini false f3 f3 (effect_text AllowOverride) rbac_matcher e /\
  run_all mini (ask_alice :: new_manager ++ [KRemoveGrouping "g" ["alice"; "admin"]]) e = Some taken /\
  run_all mini (ask_alice :: KRemoveGrouping "g" ["alice"; "admin"] :: new_manager ++ [KAddGrouping "g" ["alice"; "admin"]]) e = Some given /\
  snd (GetRolesForUser "alice" [] taken) = Ok [] /\ snd (Enforce mini (reqs ["alice"; "data1"; "read"]) taken) = Ok true /\
  snd (GetRolesForUser "alice" [] given) = Ok ["admin"] /\ snd (Enforce mini (reqs ["alice"; "data1"; "read"]) given) = Ok false.
Proof.
  exists org. do 2 eexists. split; [apply org_tidy|]. split; [apply org_managed|]. split; [apply org_standard|].
  split; [vm_compute; reflexivity|]. split; [vm_compute; reflexivity|]. repeat split; vm_compute; reflexivity.
Qed.
(** ... while with it, both are as they should be; and a lower level limit takes effect. *)
Example C84_case : managed mini plain_names 2 org_rule org /\ standard mini false f3 f3 (effect_text AllowOverride) rbac_matcher org /\
  exists e', run_all mini [KEnforce "" (reqs ["alice"; "data1"; "read"]); KSetRoleManager (new_rm 2); KBuildRoleLinks; KSetEvaluator;
      KRemoveGrouping "g" ["alice"; "admin"]; KAddGrouping "g" ["alice"; "admin"]] org = Some e' /\
    snd (Enforce mini (reqs ["alice"; "data1"; "read"]) org) = Ok true /\ snd (Enforce mini (reqs ["alice"; "data1"; "read"]) e') = Ok true /\
    snd (Enforce mini (reqs ["bob"; "data1"; "read"]) org) = Ok true /\ snd (Enforce mini (reqs ["bob"; "data3"; "read"]) org) = Ok true /\
    snd (Enforce mini (reqs ["bob"; "data3"; "read"]) e') = Ok false.
Proof.
  split; [apply org_managed|]. split; [apply org_standard|].
  eexists. split; [vm_compute; reflexivity|]. repeat split; vm_compute; reflexivity.
Qed.

(** The enforcer of C82, given its matching function only later, in a new role manager. *)
Definition lib_plain : enforcer := linked_boot lib_model.
Example C84_matching_case : managed mini lib_names 2 (fun r => In r lib_all) lib_plain /\
  standard mini false f3 f3 (effect_text AllowOverride) resource_text lib_plain /\ matching (AddMatchingFunc starred (new_rm 10)) = Some starred /\
  exists e', run_all mini [KEnforce "" (reqs ["alice"; "/book/1"; "read"]); KSetRoleManager (AddMatchingFunc starred (new_rm 10)); KBuildRoleLinks; KSetEvaluator] lib_plain = Some e' /\
    snd (Enforce mini (reqs ["alice"; "/book/1"; "read"]) lib_plain) = Ok false /\ snd (Enforce mini (reqs ["alice"; "/book/1"; "read"]) e') = Ok true.
Proof.
  split.
  { apply (managed_built mini lib_names 2 _ (boot lib_model)); try reflexivity.
    - eexists. split; reflexivity.
    - split.
      + repeat constructor; simpl; intuition discriminate.
      + intros pt a H. simpl in H. destruct (String.eqb pt "g") eqn:E; [|destruct (String.eqb pt "g2"); [|discriminate]];
          inversion H; subst; (split; [reflexivity|]); simpl; repeat constructor; unfold lib_all; simpl; tauto. }
  split.
  { constructor; try reflexivity; try discriminate.
    - split; [|exact Logic.I]. prove_declares.
    - intros r I. vm_compute in I. cases_in I; reflexivity. }
  split; [reflexivity|]. eexists. split; [vm_compute; reflexivity|]. split; vm_compute; reflexivity.
Qed.

Print Assumptions C84_role_manager.
Print Assumptions C84_before_first_request.
Print Assumptions C84_matching_manager.
Print Assumptions C84_old_manager_is_asked_refuted.
