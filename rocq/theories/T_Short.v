(** Property C108: a grouping rule with fewer fields than its role definition has. *)
From Verif Require Import Base M_Util M_RoleManager M_Effector M_Model M_Persist M_Eval M_Evaluator M_Matcher M_Enforcer S_Policy S_History S_Roles S_Sync S_Short
  P_Base P_Store P_Sync P_Short E_Examples T_Policy T_Rbac T_Standard.

(** Offering such a rule throws, and the storage and the watcher are not told.  Every request
    is decided as before, for every matcher, everybody has the roles they had, and the rules
    of all other types are kept. *)
Theorem C108_refused_partial : forall o e pt n r, takes e pt n -> connected e pt -> listed_in_order e pt -> List.length r < n ->
  snd (HasNamedGroupingPolicy pt r e) = Ok false ->
  exists e', AddNamedGroupingPolicy pt r e = (e', Throw IllegalArgument) /\ nobody_told e e' /\ answers_alike o e e' /\ others_kept "g" pt e e'.
Proof.
  intros o e pt n r [a [A V]] [[a1 [A1 R]] [rm H]] [a2 [l [A2 L]]] S N. rewrite A in A1, A2. inversion A1; inversion A2; subst a1 a2 n.
  assert (N' : has_rule l r = false).
  { unfold HasNamedGroupingPolicy, read_model, HasPolicy in N. rewrite A in N. cbn [snd bind] in N. rewrite L in N. cbn [rules_of] in N. congruence. }
  exists (with_short e pt a l r). split; [exact (short_add e pt a l r rm A R H L S N')|]. split; [repeat split; reflexivity|].
  split; [apply view_alike, short_view; assumption|apply short_others].
Qed.
Print Assumptions C108_refused_partial.
(** But the rule is stored. *)
Theorem C108_rule_stays_refuted : forall e pt n r, takes e pt n -> connected e pt -> listed_in_order e pt -> List.length r < n ->
  snd (HasNamedGroupingPolicy pt r e) = Ok false ->
  stored (fst (AddNamedGroupingPolicy pt r e)) "g" pt = stored e "g" pt ++ [r].
Proof.
  intros e pt n r [a [A V]] [[a1 [A1 R]] [rm H]] [a2 [l [A2 L]]] S N. rewrite A in A1, A2. inversion A1; inversion A2; subst a1 a2 n.
  assert (N' : has_rule l r = false).
  { unfold HasNamedGroupingPolicy, read_model, HasPolicy in N. rewrite A in N. cbn [snd bind] in N. rewrite L in N. cbn [rules_of] in N. congruence. }
  rewrite (short_add e pt a l r rm A R H L S N'). apply short_stored; assumption.
Qed.
Print Assumptions C108_rule_stays_refuted.
(** While such a rule is stored, and links are built automatically, no call that takes
    grouping rules away answers, whatever rule it is about, and BuildRoleLinks fails. *)
Theorem C108_stuck_refuted : forall o c e, e_auto_build e = true -> holds_short e -> relinks c -> snd (run o c e) <> Ok tt.
Proof. exact stuck. Qed.
Print Assumptions C108_stuck_refuted.
(** The way back: removing the rule also throws, and leaves the enforcer exactly as it was
    before the rule was offered. *)
Theorem C108_way_back : forall e pt n r, takes e pt n -> connected e pt -> listed_in_order e pt -> List.length r < n ->
  snd (HasNamedGroupingPolicy pt r e) = Ok false ->
  RemoveNamedGroupingPolicy pt r (fst (AddNamedGroupingPolicy pt r e)) = (e, Throw IllegalArgument).
Proof.
  intros e pt n r [a [A V]] [[a1 [A1 R]] [rm H]] [a2 [l [A2 L]]] S N. rewrite A in A1, A2. inversion A1; inversion A2; subst a1 a2 n.
  assert (N' : has_rule l r = false).
  { unfold HasNamedGroupingPolicy, read_model, HasPolicy in N. rewrite A in N. cbn [snd bind] in N. rewrite L in N. cbn [rules_of] in N. congruence. }
  rewrite (short_add e pt a l r rm A R H L S N'). exact (short_remove e pt a l r rm A R H L S N').
Qed.
Print Assumptions C108_way_back.

(** An enforcer whose links are kept by the library (C30) is connected, and its role
    definitions have the number of fields it is about. *)
Theorem C108_connected : forall o names n rules e pt, tidy names n rules -> managed o names n rules e -> declared e "g" pt ->
  takes e pt n /\ connected e pt.
Proof.
  intros o names n rules e pt T M [a A]. pose proof (managed_mirror names n rules T o e M) as MI.
  assert (G : aget pt (sec_of (e_model e) "g") = Some a) by (unfold get_ast in A; destruct (aget pt _); congruence).
  split.
  - exists a. split; [exact A|]. exact (proj1 (proj2 (lb_ok _ _ _ _ _ _ MI) pt a G)).
  - split. { exists a. split; [exact A|]. exact (lb_wired _ _ _ _ _ _ MI pt a G). }
    destruct (lb_rm _ _ _ _ _ _ MI) as [r [H _]]. exists r. exact H.
Qed.
Print Assumptions C108_connected.

(** A case: in a model with domains, a role is given without a domain. *)
Example C108_case : takes dorg "g" 3 /\ connected dorg "g" /\ listed_in_order dorg "g" /\ snd (HasNamedGroupingPolicy "g" ["bob"; "user"] dorg) = Ok false /\
  AddRoleForUser "bob" "user" dorg = AddNamedGroupingPolicy "g" ["bob"; "user"] dorg /\
  snd (AddRoleForUser "bob" "user" dorg) = Throw IllegalArgument /\ e_auto_build (fst (AddRoleForUser "bob" "user" dorg)) = true /\
  holds_short (fst (AddRoleForUser "bob" "user" dorg)).
Proof.
  split. { eexists. split; vm_compute; reflexivity. }
  split. { split; eexists; [split|]; vm_compute; reflexivity. }
  split. { do 2 eexists. split; vm_compute; reflexivity. }
  split; [vm_compute; reflexivity|]. split; [reflexivity|]. split; [vm_compute; reflexivity|]. split; [vm_compute; reflexivity|].
  exists "g", 3, ["bob"; "user"]. split; [eexists; split; vm_compute; reflexivity|]. split; [vm_compute; auto|]. repeat constructor.
Qed.
Print Assumptions C108_case.

(** What the stored rule costs: carol gets a role in the usual way and may read; then a call
    for someone who never had a role throws, and carol may not read any more, although the
    rule that gives carol the role is still stored. *)
Theorem C108_others_lose_roles_refuted : exists e1 e2 e3,
  AddRoleForUser "bob" "user" dorg = (e1, Throw IllegalArgument) /\
  AddRoleForUserInDomain "carol" "admin" "d1" e1 = (e2, Ok true) /\
  snd (Enforce mini (reqs ["carol"; "d1"; "data1"; "read"]) e2) = Ok true /\
  DeleteRoleForUserInDomain "dave" "admin" "d1" e2 = (e3, Throw IllegalArgument) /\
  snd (Enforce mini (reqs ["carol"; "d1"; "data1"; "read"]) e3) = Ok false /\
  snd (HasGroupingPolicy ["carol"; "admin"; "d1"] e3) = Ok true.
Proof. do 3 eexists. repeat (split; [vm_compute; reflexivity|]). vm_compute. reflexivity. Qed.
Print Assumptions C108_others_lose_roles_refuted.
(** Several rules at once: the call throws because one of them is too short, but the rules
    before it take effect. *)
Theorem C108_batch_refuted : exists e1,
  AddGroupingPolicies [["carol"; "admin"; "d1"]; ["bob"; "user"]] dorg = (e1, Throw IllegalArgument) /\
  snd (Enforce mini (reqs ["carol"; "d1"; "data1"; "read"]) dorg) = Ok false /\
  snd (Enforce mini (reqs ["carol"; "d1"; "data1"; "read"]) e1) = Ok true /\
  stored e1 "g" "g" = stored dorg "g" "g" ++ [["carol"; "admin"; "d1"]; ["bob"; "user"]].
Proof. eexists. repeat (split; [vm_compute; reflexivity|]). vm_compute. reflexivity. Qed.
Print Assumptions C108_batch_refuted.
(** Replacing a rule by one that is too short throws, but the old rule and its role are gone. *)
Theorem C108_update_refuted : exists e1,
  UpdateGroupingPolicy ["alice"; "admin"; "d1"] ["alice"; "root"] dorg = (e1, Throw IllegalArgument) /\
  snd (Enforce mini (reqs ["alice"; "d1"; "data1"; "read"]) dorg) = Ok true /\
  snd (Enforce mini (reqs ["alice"; "d1"; "data1"; "read"]) e1) = Ok false /\
  snd (HasGroupingPolicy ["alice"; "admin"; "d1"] e1) = Ok false /\ snd (HasGroupingPolicy ["alice"; "root"] e1) = Ok true.
Proof. eexists. repeat (split; [vm_compute; reflexivity|]). vm_compute. reflexivity. Qed.
Print Assumptions C108_update_refuted.
