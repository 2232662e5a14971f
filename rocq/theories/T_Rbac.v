(** Properties C28-C33 and C35: roles, links and the grouping policy. *)
From Coq Require Import Permutation.
From Verif Require Import Base P_Base M_Util M_RoleManager M_Effector M_Model M_Persist M_Eval M_Evaluator M_Enforcer M_Matcher
  S_Effect S_Enforce S_Policy S_History S_Roles S_Sync P_Store P_Api P_History P_Group P_Roles P_Sync P_Implicit E_Examples.
Local Arguments spell : simpl never.

(** ** A concrete organisation used by the examples *)

(** Names without domains, rules of two different words taken from a list. *)
Definition plain_names (x : node) : Prop := fst x = None.
Definition org_rules : list rule :=
  [["alice"; "admin"]; ["admin"; "root"]; ["root"; "staff"]; ["staff"; "admin"]; ["bob"; "staff"]; ["carol"; "guest"]].
Definition org_rule (r : rule) : Prop := In r org_rules.
Ltac cases_in H := simpl in H; repeat (destruct H as [H|H]; [subst|]); try contradiction.
Ltac not_perm P := exfalso; let I := fresh "I" in
  match type of P with Permutation (?x :: ?y :: nil) ?l =>
    pose proof (Permutation_in x P (or_introl eq_refl)) as I; simpl in I;
    pose proof (Permutation_in y P (or_intror (or_introl eq_refl))) as J; simpl in J; intuition discriminate
  end.
Lemma org_tidy : tidy plain_names 2 org_rule.
Proof.
  constructor; auto.
  - intros [[dx|] x] [[dy|] y] Hx Hy E; unfold plain_names in *; simpl in *; try discriminate. unfold spell in E. congruence.
  - intros r H. unfold org_rule, org_rules in H. cases_in H; (split; [reflexivity|]); do 3 eexists; (split; [reflexivity|]); split; reflexivity.
  - intros r r' H H' P. unfold org_rule, org_rules in *. cases_in H; cases_in H'; try reflexivity; not_perm P.
Qed.

Definition org_ps : list rule := [["admin"; "data1"; "read"]; ["bob"; "data2"; "write"]; ["root"; "data3"; "read"]].
Definition org_gs : list rule := [["alice"; "admin"]; ["admin"; "root"]; ["root"; "staff"]; ["staff"; "admin"]; ["bob"; "staff"]].
Definition org : enforcer := linked_boot (rbac_model org_ps org_gs).
Lemma org_managed : forall o, managed o plain_names 2 org_rule org.
Proof.
  intros o. apply (managed_built o plain_names 2 org_rule (boot (rbac_model org_ps org_gs))); try reflexivity.
  - eexists. split; reflexivity.
  - split.
    + repeat constructor; simpl; tauto.
    + intros pt a H. simpl in H. destruct (String.eqb pt "g") eqn:E; [|discriminate]. inversion H; subst. split; [reflexivity|].
      simpl. unfold org_rule, org_rules. repeat constructor; simpl; tauto.
Qed.

(** ** C28 *)
Theorem C28_implicit_roles_are_the_closure : forall o names n rules e d u,
  tidy names n rules -> managed o names n rules e -> names (d, u) ->
  exists l, GetImplicitRolesForUser u (dom_arg d) e = (e, Ok l) /\ NoDup l /\
    forall x, In x l <-> x <> u /\ exists k, within (assigned e) d k u x.
Proof.
  intros o names n rules e d u T Mg Nu. destruct (managed_mirror names n rules T o e Mg) as [[r [H [R _]]] _ _ _ _].
  eapply implicit_roles_spec; eauto. apply T.
Qed.
(** The same at the level of the role manager, for every history of calls on it. *)
Theorem C28_terminates_on_every_graph : forall level cs d u e,
  apart (cs ++ [RGetRoles d u]) -> hget (e_heap e) (e_rm e) = Ok (rm_after level cs) ->
  exists l, GetImplicitRolesForUser u (dom_arg d) e = (e, Ok l) /\ NoDup l /\
    forall x, In x l <-> x <> u /\ exists k, within (links cs) d k u x.
Proof.
  intros level cs d u e A H. pose proof (after_represents level cs _ A) as R.
  eapply implicit_roles_spec; [exact (named_inj _ A)|exact H|exact R|]. apply named_extra; simpl; auto.
Qed.
Example C28_case : exists l, snd (GetImplicitRolesForUser "alice" [] org) = Ok l /\ l = ["admin"; "root"; "staff"] /\
  managed mini plain_names 2 org_rule org /\ plain_names (None, "alice").
Proof. eexists. split; [reflexivity|]. split; [reflexivity|]. split; [apply org_managed|reflexivity]. Qed.
Print Assumptions C28_implicit_roles_are_the_closure.

(** ** C29 *)
(** What the matcher's g(u, x) or g(u, x, d) answers in an enforcer. *)
Definition g_answer (e : enforcer) (args : list string) : option (res bool) := role_fun (e_model e) (e_heap e) "g" args.

Theorem C29_enforced_roles_are_listed_partial : forall o names n rules e d u x,
  tidy names n rules -> managed o names n rules e -> names (d, u) -> names (d, x) -> declared e "g" "g" ->
  exists l v, GetImplicitRolesForUser u (dom_arg d) e = (e, Ok l) /\ g_answer e (u :: x :: dom_arg d) = Some (Ok v) /\
    (v = true -> x = u \/ In x l) /\
    (List.length l <= level_of e -> (v = true <-> x = u \/ In x l)).
Proof.
  intros o names n rules e d u x T Mg Nu Nx [a A].
  destruct (C28_implicit_roles_are_the_closure o names n rules e d u T Mg Nu) as [l [E [ND I]]].
  destruct (managed_mirror names n rules T o e Mg) as [[r [H [R L]]] _ W _ _].
  destruct (rep_HasLink names (t_names _ _ _ T) r (assigned e) d u x R Nu Nx) as [v [Hv V]].
  pose proof (get_asts _ _ _ A) as G. pose proof (W _ _ G) as Q. unfold asts in G.
  exists l, v. split; auto. split.
  { unfold g_answer, role_fun. rewrite G, Q. unfold call_g. destruct d; simpl; rewrite H; simpl; rewrite <- Hv; reflexivity. }
  assert (F : v = true -> x = u \/ In x l).
  { intros Hx. destruct (string_dec x u); auto. right. apply I. split; auto. apply V in Hx. eauto. }
  split; auto. intros LE. split; auto. intros K. apply V. rewrite L. destruct K as [->|K]; [constructor|].
  apply I in K. destruct K as [K [m Wm]]. eapply within_mono; [|exact LE].
  eapply within_bound; eauto. intros y k Wy Ny. apply I. eauto.
Qed.
(** Missing: chains longer than the limit of the role manager, which is 10 for every
    enforcer the library builds.  There the role is listed and yet g is false. *)
Definition chain_rules : list rule :=
  [["n0"; "n1"]; ["n1"; "n2"]; ["n2"; "n3"]; ["n3"; "n4"]; ["n4"; "n5"]; ["n5"; "n6"]; ["n6"; "n7"]; ["n7"; "n8"];
   ["n8"; "n9"]; ["n9"; "n10"]; ["n10"; "n11"]].
Lemma pair_tidy : forall rs : list rule, Forall (fun r => List.length r = 2) rs ->
  (forall r r', In r rs -> In r' rs -> Permutation r r' -> r = r') -> tidy plain_names 2 (fun r => In r rs).
Proof.
  intros rs F P. constructor; auto.
  - intros [[dx|] x] [[dy|] y] Hx Hy E; unfold plain_names in *; simpl in *; try discriminate. unfold spell in E. congruence.
  - intros r H. rewrite Forall_forall in F. pose proof (F r H) as L. split; auto.
    destruct r as [|a [|b [|c r]]]; try discriminate. do 3 eexists; (split; [reflexivity|]); split; reflexivity.
Qed.
Lemma pair_managed : forall o (all : list rule) ps gs e, (forall r, In r gs -> In r all) ->
  e_BuildRoleLinks (boot (rbac_model ps gs)) = (e, Ok tt) -> managed o plain_names 2 (fun r => In r all) e.
Proof.
  intros o all ps gs e H E. eapply (managed_built o plain_names 2 _ (boot (rbac_model ps gs))); try reflexivity; auto.
  - eexists. split; reflexivity.
  - split; [repeat constructor; simpl; tauto|].
    intros pt a Q. simpl in Q. destruct (String.eqb pt "g"); [|discriminate]. inversion Q; subst. split; [reflexivity|].
    simpl. apply Forall_forall. auto.
Qed.
Theorem C29_long_chain_refuted : exists e u x l, managed mini plain_names 2 (fun r => In r chain_rules) e /\
  tidy plain_names 2 (fun r => In r chain_rules) /\
  snd (GetImplicitRolesForUser u [] e) = Ok l /\ In x l /\ g_answer e [u; x] = Some (Ok false).
Proof.
  exists (linked_boot (rbac_model [] chain_rules)), "n0", "n11". eexists. split; [|split; [|split; [vm_compute; reflexivity|]]].
  - eapply (pair_managed _ _ [] chain_rules); auto.
  - apply pair_tidy; [repeat constructor|]. intros r r' H H' P. unfold chain_rules in *. cases_in H; cases_in H'; try reflexivity; not_perm P.
  - split; [simpl; tauto|]. vm_compute. reflexivity.
Qed.
Example C29_case : g_answer org ["alice"; "staff"] = Some (Ok true) /\ g_answer org ["staff"; "alice"] = Some (Ok false) /\
  level_of org = 10 /\ declared org "g" "g".
Proof. repeat split; try reflexivity. eexists. reflexivity. Qed.
Print Assumptions C29_enforced_roles_are_listed_partial.

(** ** C30 *)
Theorem C30_links_mirror_policy_partial : forall o names n rules e,
  tidy names n rules -> managed o names n rules e -> in_sync names e.
Proof. intros. eapply mirror_in_sync; eauto. eapply managed_mirror; eauto. Qed.
(** The same seen through the API. *)
Theorem C30_get_roles_partial : forall o names n rules e d u,
  tidy names n rules -> managed o names n rules e -> names (d, u) -> declared e "g" "g" ->
  exists l, GetRolesForUser u (dom_arg d) e = (e, Ok l) /\ NoDup l /\ forall x, In x l <-> assigned e (d, u, x).
Proof.
  intros o names n rules e d u T Mg Nu [a A].
  destruct (managed_mirror names n rules T o e Mg) as [[r [H [R L]]] _ W _ _].
  destruct (rep_GetRoles names (t_names _ _ _ T) r (assigned e) d u R Nu) as [l [E [ND I]]].
  exists l. split; auto. unfold GetRolesForUser, g_rm. rewrite A. cbn [bind].
  rewrite (W _ _ (get_asts _ _ _ A)). rewrite (rm_GetRoles_pure _ _ _ _ r H (rep_plain _ _ _ R)), E. reflexivity.
Qed.
Theorem C30_get_users_partial : forall o names n rules e d x,
  tidy names n rules -> managed o names n rules e -> names (d, x) -> declared e "g" "g" ->
  match GetUsersForRole x (dom_arg d) e with
  | (e', Ok us) => e' = e /\ NoDup us /\ forall u, In u us <-> assigned e (d, u, x)
  | (e', Throw t) => e' = e /\ t = CasbinRBAC /\ forall u, ~ assigned e (d, u, x)
  | (_, UB _) => False
  end.
Proof.
  intros o names n rules e d x T Mg Nx [a A].
  destruct (managed_mirror names n rules T o e Mg) as [[r [H [R L]]] _ W _ _].
  pose proof (rep_GetUsers names (t_names _ _ _ T) r (assigned e) d x R Nx) as K.
  unfold GetUsersForRole, g_rm. rewrite A. cbn [bind]. rewrite (W _ _ (get_asts _ _ _ A)). cbn [bind]. rewrite H. cbn [bind].
  destruct (GetUsers r x (dom_arg d)); auto; tauto.
Qed.
(** Histories of safe calls stay managed. *)
Theorem C30_histories : forall o names n rules cs e e',
  managed o names n rules e -> Forall (safe_call rules) cs -> reaches o e cs e' -> managed o names n rules e'.
Proof.
  intros o names n rules cs e e' Mg F R. induction R; auto. inversion F; subst. apply IHR; auto. eapply managed_call; eauto.
Qed.
Example C30_case : exists e', reaches mini org
    [KAddGrouping "g" ["carol"; "guest"]; KAddPolicy "p" ["guest"; "data1"; "read"]; KRemoveGrouping "g" ["staff"; "admin"];
     KEnforce "" (reqs ["alice"; "data1"; "read"]); KDeleteRole "staff"] e' /\
  Forall (safe_call org_rule)
    [KAddGrouping "g" ["carol"; "guest"]; KAddPolicy "p" ["guest"; "data1"; "read"]; KRemoveGrouping "g" ["staff"; "admin"];
     KEnforce "" (reqs ["alice"; "data1"; "read"]); KDeleteRole "staff"] /\
  stored e' "g" "g" = [["alice"; "admin"]; ["admin"; "root"]; ["carol"; "guest"]] /\
  snd (GetRolesForUser "carol" [] e') = Ok ["guest"].
Proof.
  eexists. split; [|split; [|split]].
  - repeat (eapply reach_step; [vm_compute; reflexivity|discriminate|]). apply reach_nil.
  - repeat constructor; simpl; unfold org_rule, org_rules; simpl; tauto.
  - reflexivity.
  - reflexivity.
Qed.
(** Missing: the calls excluded from [managed].  Each of them can leave a role in force
    that no grouping rule lists, although automatic building is on. *)
Definition drifts (c : call) : Prop := exists e e' out u x l, managed mini plain_names 2 org_rule e /\
  run mini c e = (e', out) /\ (forall v, out <> UB v) /\ e_auto_build e' = true /\
  snd (GetRolesForUser u [] e') = Ok l /\ In x l /\ ~ assigned e' (None, u, x).
Ltac drift u x := exists org; do 2 eexists; exists u, x; eexists; split; [apply org_managed|];
  split; [vm_compute; reflexivity|]; split; [discriminate|]; split; [reflexivity|]; split; [vm_compute; reflexivity|]; split; [simpl; tauto|];
  let pt := fresh in let r := fresh in let I := fresh in let E := fresh in
  intros [pt [r [I E]]]; unfold stored, rules_in, get_ast in I; simpl in I; destruct (String.eqb pt "g"); simpl in I; [|tauto];
  repeat (destruct I as [I|I]; [subst; discriminate|]); exact I.
Theorem C30_add_permuted_rule_refuted : drifts (KAddGrouping "g" ["admin"; "alice"]).
Proof. drift "admin" "alice". Qed.
Theorem C30_update_permuted_rule_refuted : drifts (KUpdateGrouping "g" ["admin"; "alice"] ["carol"; "guest"]).
Proof. drift "alice" "admin". Qed.
Theorem C30_failed_update_refuted : drifts (KUpdateGrouping "g" ["alice"; "admin"] ["bob"; "staff"]).
Proof. drift "alice" "admin". Qed.
Theorem C30_clear_policy_refuted : drifts KClearPolicy.
Proof. drift "alice" "admin". Qed.
(** A load that fails: the policy is gone, the links are not. *)
Definition broken_adapter : user_adapter :=
  mkUA false false true (fun _ _ => None) (fun _ => ([], Some CasbinAdapter)) (fun _ => None) [].
Theorem C30_failed_load_refuted : exists e e' t l, managed mini plain_names 2 org_rule e /\
  LoadPolicy e = (e', Throw t) /\ e_auto_build e' = true /\ stored e' "g" "g" = [] /\
  snd (GetRolesForUser "alice" [] e') = Ok l /\ In "admin" l.
Proof.
  exists (set_adapter (Some (AUser broken_adapter)) org). do 3 eexists. split.
  - eapply (managed_call _ _ _ _ org (KSetAdapter (Some (AUser broken_adapter)))); [apply org_managed| |reflexivity|discriminate].
    simpl. auto.
  - split; [vm_compute; reflexivity|]. split; [reflexivity|]. split; [reflexivity|]. split; [vm_compute; reflexivity|]. simpl. auto.
Qed.
Print Assumptions C30_links_mirror_policy_partial.

(** ** C31 *)
Lemma writes_declared : forall e m sec pt s q, writes (e_model e) m sec pt -> (declared (set_model m e) s q <-> declared e s q).
Proof.
  intros e m sec pt s q [->|[a [p [A ->]]]]; [reflexivity|]. unfold declared. simpl.
  destruct (string_dec s sec) as [->|N]; [destruct (string_dec q pt) as [->|N]|].
  - rewrite P_Decide.get_put_same. split; eauto.
  - rewrite P_Decide.get_put_other by congruence. tauto.
  - rewrite P_Decide.get_put_other by congruence. tauto.
Qed.
Lemma remove_grouping_declared : forall e pt ru e' out s q,
  RemoveNamedGroupingPolicy pt ru e = (e', out) -> (declared e' s q <-> declared e s q).
Proof.
  intros e pt ru e' out s q RM. unfold RemoveNamedGroupingPolicy in RM.
  pose proof (after_edit_bind _ _ _ _ rebuild_if_auto _ (edit_remove "g" pt ru e) quiet_rebuild_if) as AE. rewrite RM in AE.
  unfold after_edit in AE. pose proof (writes_remove (e_model e) "g" pt ru) as W.
  destruct (RemovePolicy (e_model e) "g" pt ru) as [[m b]| |]; simpl in AE; [|inversion AE; tauto|inversion AE; tauto].
  destruct AE as [SA _]. rewrite (same_asts_declared _ _ _ _ SA). eapply writes_declared; eauto.
Qed.

Theorem C31_revoked_role_is_gone_partial : forall o names n rules e pt ru d u x e',
  tidy names n rules -> managed o names n rules e -> declared e "g" "g" -> declared e "g" pt ->
  rules ru -> link_of ru = Some (d, u, x) -> NoDup (stored e "g" pt) ->
  (forall q r, In r (stored e "g" q) -> link_of r = Some (d, u, x) -> q = pt) ->
  RemoveNamedGroupingPolicy pt ru e = (e', Ok true) ->
  exists l l', GetRolesForUser u (dom_arg d) e = (e, Ok l) /\ GetRolesForUser u (dom_arg d) e' = (e', Ok l') /\
    In x l /\ forall y, In y l' <-> In y l /\ y <> x.
Proof.
  intros o names n rules e pt ru d u x e' T Mg Dg Dp Rr Lk ND Un RM.
  assert (Mg' : managed o names n rules e').
  { eapply (managed_call o names n rules e (KRemoveGrouping pt ru)); eauto; [simpl; unfold drop_value, mbind; rewrite RM; reflexivity|discriminate]. }
  pose proof (managed_mirror names n rules T o e Mg) as MI.
  destruct (t_rule _ _ _ T ru Rr) as [_ [d0 [u0 [x0 [L0 [Nu Nx]]]]]]. rewrite Lk in L0. inversion L0; subst d0 u0 x0.
  assert (RU : forall q r, In r (stored e "g" q) -> rules r).
  { intros q r I. rewrite stored_asts_g in I. destruct (aget q (asts e)) eqn:A; [|destruct I].
    destruct (lb_ok _ _ _ _ _ _ MI) as [_ O]. destruct (O _ _ A) as [_ F]. rewrite Forall_forall in F. auto. }
  assert (NA : no_anagram ru (stored e "g" pt)).
  { intros r I P. symmetry. eapply (t_perm _ _ _ T); eauto. }
  pose proof (remove_grouping e pt ru Dp NA ND) as RG. rewrite RM in RG. destruct RG as [OK [_ [RG B]]].
  assert (IN : In ru (stored e "g" pt)) by (apply (B true); auto). destruct (RG IN) as [NI [pre [post [S S']]]].
  assert (Dg' : declared e' "g" "g") by (eapply remove_grouping_declared; eauto).
  destruct (C30_get_roles_partial o names n rules e d u T Mg Nu Dg) as [l [E [_ I]]].
  destruct (C30_get_roles_partial o names n rules e' d u T Mg' Nu Dg') as [l' [E' [_ I']]].
  exists l, l'. split; auto. split; auto. split. { apply I. exists pt, ru. auto. }
  intros y. rewrite I', I. split.
  - intros [q [r [Iq Lq]]]. destruct (string_dec q pt) as [->|N].
    + assert (Iq' : In r (stored e "g" pt)). { rewrite S' in Iq. rewrite S. rewrite in_app_iff in *. simpl. tauto. }
      split; [exists pt, r; auto|]. intros ->. assert (r = ru) by (eapply (link_of_inj rules); eauto). subst. auto.
    + rewrite (OK "g" q) in Iq by congruence. split; [exists q, r; auto|]. intros ->. apply N. eapply Un; eauto.
  - intros [[q [r [Iq Lq]]] N]. exists q, r. split; auto. destruct (string_dec q pt) as [->|M].
    + rewrite S in Iq. rewrite S'. rewrite in_app_iff in *. destruct Iq as [Iq|[<-|Iq]]; auto. congruence.
    + rewrite (OK "g" q); congruence.
Qed.
Example C31_case : exists e', RemoveNamedGroupingPolicy "g" ["admin"; "root"] org = (e', Ok true) /\
  NoDup (stored org "g" "g") /\ link_of ["admin"; "root"] = Some (None, "admin", "root") /\ org_rule ["admin"; "root"] /\
  (forall q r, In r (stored org "g" q) -> link_of r = Some (None, "admin", "root") -> q = "g") /\
  snd (GetRolesForUser "admin" [] e') = Ok [] /\ snd (GetRolesForUser "alice" [] e') = Ok ["admin"].
Proof.
  eexists. split; [vm_compute; reflexivity|]. split; [|split; [reflexivity|split; [|split; [|split; vm_compute; reflexivity]]]].
  - change (stored org "g" "g") with org_gs. unfold org_gs. repeat constructor; simpl; intuition discriminate.
  - unfold org_rule, org_rules. simpl. tauto.
  - intros q r. unfold stored, rules_in, get_ast. simpl. destruct (String.eqb_spec q "g"); auto. simpl. tauto.
Qed.
(** Missing: with automatic building off, the call removes the rule and adds the link
    once more (internal_api.cpp:89), so the role stays. *)
Theorem C31_role_stays_refuted : exists e e' l, e_auto_build e = false /\ snd (GetRolesForUser "alice" [] e) = Ok ["admin"] /\
  DeleteRoleForUser "alice" "admin" e = (e', Ok true) /\ ~ In ["alice"; "admin"] (stored e' "g" "g") /\
  snd (GetRolesForUser "alice" [] e') = Ok l /\ In "admin" l.
Proof.
  exists (set_auto_build false org). do 2 eexists. split; [reflexivity|]. split; [vm_compute; reflexivity|].
  split; [vm_compute; reflexivity|]. split; [vm_compute; intuition discriminate|]. split; [vm_compute; reflexivity|]. simpl; auto.
Qed.
(** ... and the request stays allowed. *)
Theorem C31_access_stays_refuted : exists e e', e_auto_build e = false /\
  DeleteRoleForUser "alice" "admin" e = (e', Ok true) /\ stored e' "g" "g" = [] /\
  snd (Enforce mini (reqs ["alice"; "data1"; "read"]) e') = Ok true.
Proof.
  exists (set_auto_build false (linked_boot (rbac_model [["admin"; "data1"; "read"]] [["alice"; "admin"]]))).
  eexists. split; [reflexivity|]. split; [vm_compute; reflexivity|]. split; vm_compute; reflexivity.
Qed.
(** A rule stored twice has to be removed twice. *)
Theorem C31_duplicate_rule_refuted : exists e e' l, e_auto_build e = true /\
  DeleteRoleForUser "alice" "admin" e = (e', Ok true) /\ snd (GetRolesForUser "alice" [] e') = Ok l /\ In "admin" l.
Proof.
  exists (fst (AddGroupingPolicies [["alice"; "admin"]; ["alice"; "admin"]] (linked_boot (rbac_model [] [])))).
  do 2 eexists. split; [reflexivity|]. split; [vm_compute; reflexivity|]. split; [vm_compute; reflexivity|]. simpl; auto.
Qed.
Print Assumptions C31_revoked_role_is_gone_partial.

(** ** C32 *)
Lemma qualifies_one : forall i v r, v <> "" -> (qualifies i [v] r <-> nth_error r i = Some v).
Proof.
  intros i v r N. unfold qualifies. split.
  - intros H. specialize (H 0 v eq_refl N). rewrite Nat.add_0_r in H. auto.
  - intros H [|j] w E W; simpl in E; [inversion E; subst; rewrite Nat.add_0_r; auto|destruct j; discriminate].
Qed.
Lemma selects_iff : forall (P Q : rule -> Prop) l l', (forall r, P r <-> Q r) -> selects P l l' -> selects Q l l'.
Proof. intros P Q l l' H S. induction S; [apply sel_nil|apply sel_keep; [apply H|]; auto|apply sel_drop; [rewrite <- H|]; auto]. Qed.
Lemma filtered_ok : forall e sec pt i vals, declared e sec pt -> filter_in_range i vals (stored e sec pt) ->
  exists l, GetFilteredPolicy (e_model e) sec pt i vals = Ok l /\ selects (qualifies i vals) (stored e sec pt) l.
Proof.
  intros e sec pt i vals [a A] R. unfold GetFilteredPolicy. unfold stored, rules_in in *. rewrite A in *. cbn [bind].
  destruct (filter_rules_range _ _ _ R) as [l F]. exists l. split; auto. apply filter_rules_spec. auto.
Qed.
Lemma remove_filtered_grouping_declared : forall e pt i vals e' out s q,
  RemoveFilteredNamedGroupingPolicy pt i vals e = (e', out) -> (declared e' s q <-> declared e s q).
Proof.
  intros e pt i vals e' out s q RM. unfold RemoveFilteredNamedGroupingPolicy in RM.
  pose proof (after_edit_bind _ _ _ _ rebuild_if_auto _ (edit_remove_filtered "g" pt i vals e) quiet_rebuild_if) as AE. rewrite RM in AE.
  unfold after_edit in AE. pose proof (writes_remove_filtered (e_model e) "g" pt i vals) as W.
  destruct (RemoveFilteredPolicy (e_model e) "g" pt i vals) as [[m b]| |]; simpl in AE; [|inversion AE; tauto|inversion AE; tauto].
  destruct AE as [SA _]. rewrite (same_asts_declared _ _ _ _ SA). eapply writes_declared; eauto.
Qed.

(** What is removed by DeleteUser (field 0 of g) and DeleteRole (field 1 of g): the rules
    with the name in that field, and the p rules with the name as subject. *)
Lemma delete_name : forall i name e e' b, name <> "" -> declared e "g" "g" -> declared e "p" "p" ->
  filter_in_range i [name] (stored e "g" "g") -> filter_in_range 0 [name] (stored e "p" "p") ->
  (r1 <- RemoveFilteredGroupingPolicy i [name] ;; r2 <- e_RemoveFilteredPolicy 0 [name] ;; ret (r1 || r2)) e = (e', Ok b) ->
  selects (fun r => nth_error r i <> Some name) (stored e "g" "g") (stored e' "g" "g") /\
  selects (fun r => nth_error r 0 <> Some name) (stored e "p" "p") (stored e' "p" "p") /\
  (forall sec pt, (sec, pt) <> ("g", "g") -> (sec, pt) <> ("p", "p") -> stored e' sec pt = stored e sec pt) /\
  (b = true <-> (exists r, In r (stored e "g" "g") /\ nth_error r i = Some name) \/
                (exists r, In r (stored e "p" "p") /\ nth_error r 0 = Some name)).
Proof.
  intros i name e e' b N Dg Dp Rg Rp H.
  destruct (filtered_ok e "g" "g" i [name] Dg Rg) as [lg [Gg Sg]].
  pose proof (remove_filtered_grouping e "g" i [name] lg Dg Gg) as K1. unfold mbind at 1 in H.
  unfold RemoveFilteredGroupingPolicy in H.
  destruct (RemoveFilteredNamedGroupingPolicy "g" i [name] e) as [e1 [b1|x|u]] eqn:E1; try discriminate.
  destruct K1 as [O1 [S1 B1]]. specialize (B1 b1 eq_refl).
  assert (P1 : stored e1 "p" "p" = stored e "p" "p") by (apply O1; discriminate).
  assert (Dp1 : declared e1 "p" "p") by (eapply remove_filtered_grouping_declared; eauto).
  rewrite <- P1 in Rp. destruct (filtered_ok e1 "p" "p" 0 [name] Dp1 Rp) as [lp [Gp Sp]].
  pose proof (remove_filtered e1 "p" 0 [name] lp Dp1 Gp) as K2. unfold mbind, e_RemoveFilteredPolicy in H.
  destruct (RemoveFilteredNamedPolicy "p" 0 [name] e1) as [e2 [b2|x|u]] eqn:E2; try discriminate.
  destruct K2 as [O2 [S2 [B2 B3]]]. unfold ret in H. inversion H; subst e2 b. clear H.
  assert (QG : lg <> [] <-> exists r, In r (stored e "g" "g") /\ nth_error r i = Some name).
  { split.
    - destruct lg as [|r lg]; [congruence|]. intros _. exists r. rewrite <- (qualifies_one i name r N).
      apply (selects_in _ _ _ r Sg). simpl. auto.
    - intros [r Hr]. rewrite <- (qualifies_one i name r N) in Hr. apply (selects_in _ _ _ r Sg) in Hr. intros ->. destruct Hr. }
  assert (QP : lp <> [] <-> exists r, In r (stored e "p" "p") /\ nth_error r 0 = Some name).
  { rewrite <- P1. split.
    - destruct lp as [|r lp]; [congruence|]. intros _. exists r. rewrite <- (qualifies_one 0 name r N).
      apply (selects_in _ _ _ r Sp). simpl. auto.
    - intros [r Hr]. rewrite <- (qualifies_one 0 name r N) in Hr. apply (selects_in _ _ _ r Sp) in Hr. intros ->. destruct Hr. }
  split; [|split; [|split]].
  - rewrite (O2 "g" "g") by discriminate. eapply selects_iff; [|exact S1]. intros r. simpl. rewrite qualifies_one by auto. tauto.
  - rewrite <- P1. eapply selects_iff; [|exact S2]. intros r. simpl. rewrite qualifies_one by auto. tauto.
  - intros sec pt N1 N2. rewrite (O2 sec pt) by auto. apply O1. auto.
  - rewrite <- QG, <- QP, <- B1, Bool.orb_true_iff. destruct b2.
    + destruct lp; [discriminate (B2 eq_refl)|]. split; intros _; right; congruence.
    + destruct lp; [|destruct (B3 ltac:(discriminate)) as [_ Q]; specialize (Q false eq_refl); discriminate].
      split; intros [?|?]; auto; congruence.
Qed.

Theorem C32_delete_user_partial : forall u e e' b, u <> "" -> declared e "g" "g" -> declared e "p" "p" ->
  (forall r, In r (stored e "g" "g") -> r <> []) -> (forall r, In r (stored e "p" "p") -> r <> []) ->
  DeleteUser u e = (e', Ok b) ->
  selects (fun r => nth_error r 0 <> Some u) (stored e "g" "g") (stored e' "g" "g") /\
  selects (fun r => nth_error r 0 <> Some u) (stored e "p" "p") (stored e' "p" "p") /\
  (forall sec pt, (sec, pt) <> ("g", "g") -> (sec, pt) <> ("p", "p") -> stored e' sec pt = stored e sec pt) /\
  (b = true <-> (exists r, In r (stored e "g" "g") /\ nth_error r 0 = Some u) \/
                (exists r, In r (stored e "p" "p") /\ nth_error r 0 = Some u)).
Proof.
  intros u e e' b N Dg Dp Lg Lp H. apply delete_name; auto.
  - intros r I. specialize (Lg r I). destruct r; simpl; [congruence|lia].
  - intros r I. specialize (Lp r I). destruct r; simpl; [congruence|lia].
Qed.
Theorem C32_delete_role_partial : forall x e e' b, x <> "" -> declared e "g" "g" -> declared e "p" "p" ->
  (forall r, In r (stored e "g" "g") -> 2 <= List.length r) -> (forall r, In r (stored e "p" "p") -> r <> []) ->
  DeleteRole x e = (e', Ok b) ->
  selects (fun r => nth_error r 1 <> Some x) (stored e "g" "g") (stored e' "g" "g") /\
  selects (fun r => nth_error r 0 <> Some x) (stored e "p" "p") (stored e' "p" "p") /\
  (forall sec pt, (sec, pt) <> ("g", "g") -> (sec, pt) <> ("p", "p") -> stored e' sec pt = stored e sec pt) /\
  (b = true <-> (exists r, In r (stored e "g" "g") /\ nth_error r 1 = Some x) \/
                (exists r, In r (stored e "p" "p") /\ nth_error r 0 = Some x)).
Proof.
  intros x e e' b N Dg Dp Lg Lp H. apply delete_name; auto.
  - intros r I. specialize (Lp r I). destruct r; simpl; [congruence|lia].
Qed.
(** In a managed enforcer with the one grouping type g the links go as well. *)
Theorem C32_deleted_user_has_no_roles_partial : forall o names n rules e e' b d u, tidy names n rules ->
  managed o names n rules e -> names (d, u) -> u <> "" -> declared e "g" "g" -> declared e "p" "p" ->
  (forall pt, pt <> "g" -> stored e "g" pt = []) -> (forall r, In r (stored e "p" "p") -> r <> []) ->
  DeleteUser u e = (e', Ok b) ->
  GetRolesForUser u (dom_arg d) e' = (e', Ok []) /\ GetImplicitRolesForUser u (dom_arg d) e' = (e', Ok []).
Proof.
  intros o names n rules e e' b d u T Mg Nu N Dg Dp One Lp H.
  pose proof (managed_mirror names n rules T o e Mg) as MI.
  assert (RU : forall q r, In r (stored e "g" q) -> rules r).
  { intros q r I. rewrite stored_asts_g in I. destruct (aget q (asts e)) eqn:A; [|destruct I].
    destruct (lb_ok _ _ _ _ _ _ MI) as [_ O]. destruct (O _ _ A) as [_ F]. rewrite Forall_forall in F. auto. }
  assert (Lg : forall r, In r (stored e "g" "g") -> r <> []).
  { intros r I ->. apply RU in I. apply T in I. destruct I as [_ [d0 [a0 [b0 [X _]]]]]. discriminate. }
  destruct (C32_delete_user_partial u e e' b N Dg Dp Lg Lp H) as [S1 [_ [O _]]].
  assert (Mg' : managed o names n rules e').
  { eapply (managed_call o names n rules e (KDeleteUser u)); eauto; [simpl; exact I|simpl; unfold drop_value, mbind at 1; rewrite H; reflexivity|discriminate]. }
  assert (NO : forall x, ~ assigned e' (d, u, x)).
  { intros x [pt [r [I L]]]. destruct (string_dec pt "g") as [->|Np].
    - apply (selects_in _ _ _ r S1) in I. destruct I as [_ I]. apply I. rewrite (link_of_args _ _ _ _ L). reflexivity.
    - rewrite O, One in I by congruence. destruct I. }
  assert (Dg' : declared e' "g" "g").
  { revert H. unfold DeleteUser, mbind, RemoveFilteredGroupingPolicy. destruct (RemoveFilteredNamedGroupingPolicy "g" 0 [u] e) as [e1 [b1|x|v]] eqn:E1; try discriminate.
    intros H. assert (D1 : declared e1 "g" "g") by (eapply remove_filtered_grouping_declared; eauto).
    pose proof (edit_remove_filtered "p" "p" 0 [u] e1) as AE. unfold after_edit in AE.
    unfold e_RemoveFilteredPolicy, RemoveFilteredNamedPolicy in H.
    pose proof (writes_remove_filtered (e_model e1) "p" "p" 0 [u]) as W.
    destruct (i_removeFilteredPolicy "p" "p" 0 [u] e1) as [e2 [b2|x|v]]; try discriminate. inversion H; subst e2.
    destruct (RemoveFilteredPolicy (e_model e1) "p" "p" 0 [u]) as [[m r]| |]; simpl in AE; try discriminate.
    destruct AE as [SA _]. rewrite (same_asts_declared _ _ _ _ SA). eapply writes_declared; eauto. }
  split.
  - destruct (C30_get_roles_partial o names n rules e' d u T Mg' Nu Dg') as [l [E [_ I]]]. rewrite E.
    destruct l as [|x l]; auto. exfalso. apply (NO x). apply I. simpl. auto.
  - destruct (C28_implicit_roles_are_the_closure o names n rules e' d u T Mg' Nu) as [l [E [_ I]]]. rewrite E.
    destruct l as [|x l]; auto. exfalso. destruct (proj1 (I x) (or_introl eq_refl)) as [Nx [k W]].
    inversion W; subst; [congruence|]. eapply NO; eauto.
Qed.
Example C32_case : exists e' e'', DeleteUser "bob" org = (e', Ok true) /\ DeleteRole "root" e' = (e'', Ok true) /\
  stored e'' "g" "g" = [["alice"; "admin"]; ["root"; "staff"]; ["staff"; "admin"]] /\
  stored e'' "p" "p" = [["admin"; "data1"; "read"]] /\ (forall pt, pt <> "g" -> stored org "g" pt = []).
Proof.
  do 2 eexists. split; [vm_compute; reflexivity|]. split; [vm_compute; reflexivity|]. split; [reflexivity|]. split; [reflexivity|].
  intros pt N. unfold stored, rules_in, get_ast. simpl. destruct (String.eqb_spec pt "g"); [contradiction|reflexivity].
Qed.
(** Missing: the empty name, which deletes every rule; a model without role definition,
    where the call is undefined behaviour; and other grouping types, which are not
    searched. *)
Theorem C32_empty_name_refuted : exists e e', DeleteUser "" e = (e', Ok true) /\
  stored e "g" "g" <> [] /\ stored e "p" "p" <> [] /\ stored e' "g" "g" = [] /\ stored e' "p" "p" = [] /\
  (forall r, In r (stored e "g" "g" ++ stored e "p" "p") -> nth_error r 0 <> Some "").
Proof.
  exists org. eexists. split; [vm_compute; reflexivity|]. split; [discriminate|]. split; [discriminate|]. split; [reflexivity|]. split; [reflexivity|].
  intros r I. vm_compute in I. cases_in I; discriminate.
Qed.
Theorem C32_no_role_definition_refuted : exists e, declared e "p" "p" /\ In ["alice"; "data1"; "read"] (stored e "p" "p") /\
  snd (DeleteUser "alice" e) = UB NullDeref /\ snd (DeleteRole "alice" e) = UB NullDeref.
Proof.
  exists (boot (basic_model [["alice"; "data1"; "read"]])). split; [eexists; reflexivity|]. split; [simpl; auto|]. split; reflexivity.
Qed.
Definition two_types (gs gs2 : list rule) : model :=
  [("r", [("r", ast "r" "sub, obj, act" r3 (Vec []))]);
   ("p", [("p", ast "p" "sub, obj, act" p3 (Vec [["admin"; "data1"; "read"]]))]);
   ("g", [("g", ast "g" "_, _" [] (Vec gs)); ("g2", ast "g2" "_, _" [] (Vec gs2))]);
   ("e", [("e", ast "e" (effect_text AllowOverride) [] (Vec []))]);
   ("m", [("m", ast "m" rbac_matcher [] (Vec []))])].
Theorem C32_other_type_refuted : exists e e' b, DeleteUser "alice" e = (e', Ok b) /\ In ["alice"; "admin"] (stored e' "g" "g2") /\
  snd (GetRolesForUser "alice" [] e') = Ok ["admin"].
Proof.
  exists (linked_boot (two_types [] [["alice"; "admin"]])). do 2 eexists. split; [vm_compute; reflexivity|]. split; [simpl; auto|]. vm_compute. reflexivity.
Qed.
Print Assumptions C32_delete_user_partial.

(** ** C33 *)
Theorem C33_implicit_permissions_partial : forall o names n rules e d u,
  tidy names n rules -> managed o names n rules e -> names (d, u) -> declared e "p" "p" ->
  (forall x k, within (assigned e) d k u x -> x <> "") -> (forall x, d = Some x -> x <> "") ->
  (forall r, In r (stored e "p" "p") -> S (List.length (dom_arg d)) <= List.length r) ->
  exists l, GetImplicitPermissionsForUser u (dom_arg d) e = (e, Ok l) /\
    (NoDup (stored e "p" "p") -> NoDup l) /\
    forall r, In r l <-> In r (stored e "p" "p") /\
      exists s k, within (assigned e) d k u s /\ nth_error r 0 = Some s /\ (forall x, d = Some x -> nth_error r 1 = Some x).
Proof.
  intros o names n rules e d u T Mg Nu [a A] NE ND LE.
  destruct (C28_implicit_roles_are_the_closure o names n rules e d u T Mg Nu) as [roles [E [NR I]]].
  destruct (perms_of_spec e a A d (u :: roles)) as [l [P [J K]]]; auto.
  { intros s [<-|H]; [apply (NE u 0); constructor|]. apply I in H. destruct H as [_ [k W]]. eauto. }
  exists l. unfold GetImplicitPermissionsForUser, mbind. rewrite E.
  assert (Q : Nat.ltb 1 (List.length (dom_arg d)) = false) by (destruct d; reflexivity). rewrite Q. split; auto. split.
  - intros. apply K; auto. constructor; auto. rewrite I. tauto.
  - intros r. rewrite J. split; intros [H1 [s [H2 H3]]]; (split; [auto|]).
    + exists s. destruct H3 as [H3 H4]. destruct H2 as [<-|H2].
      * exists 0. split; [constructor|]. split; auto. intros x ->. auto.
      * apply I in H2. destruct H2 as [_ [k W]]. exists k. split; auto. split; auto. intros x ->. auto.
    + destruct H3 as [W [H4 H5]]. exists s. split.
      * destruct (string_dec s u); [left; auto|right]. apply I. eauto.
      * split; auto. destruct d; auto.
Qed.
Example C33_case : snd (GetImplicitPermissionsForUser "bob" [] org) =
    Ok [["bob"; "data2"; "write"]; ["admin"; "data1"; "read"]; ["root"; "data3"; "read"]] /\
  (forall r, In r (stored org "p" "p") -> 1 <= List.length r) /\
  (forall x k, within (assigned org) None k "bob" x -> x <> "").
Proof.
  split; [vm_compute; reflexivity|]. split. { intros r I. vm_compute in I. cases_in I; simpl; lia. }
  assert (H : forall k a x, within (assigned org) None k a x -> a <> "" -> x <> "").
  { intros k a x W. induction W; auto. intros _. apply IHW. destruct H as [pt [r [I E]]].
    unfold stored, rules_in, get_ast in I. simpl in I. destruct (String.eqb pt "g"); simpl in I; [|tauto].
    cases_in I; simpl in E; inversion E; discriminate. }
  intros x k W. apply (H _ _ _ W). discriminate.
Qed.
(** Missing: a role with the empty name, for which every permission is listed. *)
Theorem C33_empty_role_refuted : exists e l r, managed mini plain_names 2 (fun r => In r [["alice"; ""]]) e /\
  snd (GetImplicitPermissionsForUser "alice" [] e) = Ok l /\ In r l /\
  (forall s, nth_error r 0 = Some s -> s <> "alice" /\ snd (GetImplicitRolesForUser "alice" [] e) = Ok [""] /\ s <> "").
Proof.
  exists (linked_boot (rbac_model org_ps [["alice"; ""]])). do 2 eexists. split; [|split; [vm_compute; reflexivity|split; [left; reflexivity|]]].
  - eapply (pair_managed _ _ org_ps [["alice"; ""]]); auto.
  - intros s E. inversion E; subst. split; [discriminate|]. split; [reflexivity|discriminate].
Qed.
Print Assumptions C33_implicit_permissions_partial.

(** ** C35 *)
Theorem C35_separate_definitions_refuted : exists e e', 
  snd (Enforce mini (reqs ["alice"; "data1"; "read"]) e) = Ok false /\
  AddNamedGroupingPolicy "g2" ["alice"; "admin"] e = (e', Ok true) /\ stored e' "g" "g" = stored e "g" "g" /\
  snd (Enforce mini (reqs ["alice"; "data1"; "read"]) e') = Ok true.
Proof.
  exists (linked_boot (two_types [["bob"; "admin"]] [])). eexists. split; [vm_compute; reflexivity|]. split; [vm_compute; reflexivity|].
  split; [reflexivity|]. vm_compute. reflexivity.
Qed.
(** What holds instead: every role function of a managed enforcer answers from the union
    of all grouping types. *)
Theorem C35_definitions_share_links : forall o names n rules e pt d u x,
  tidy names n rules -> managed o names n rules e -> names (d, u) -> names (d, x) -> declared e "g" pt ->
  exists v, role_fun (e_model e) (e_heap e) pt (u :: x :: dom_arg d) = Some (Ok v) /\
    (v = true <-> within (assigned e) d (level_of e) u x).
Proof.
  intros o names n rules e pt d u x T Mg Nu Nx [a A].
  destruct (managed_mirror names n rules T o e Mg) as [[r [H [R L]]] _ W _ _].
  destruct (rep_HasLink names (t_names _ _ _ T) r (assigned e) d u x R Nu Nx) as [v [Hv V]].
  pose proof (get_asts _ _ _ A) as G. pose proof (W _ _ G) as Q. unfold asts in G.
  exists v. rewrite <- L. split; auto. unfold role_fun. rewrite G, Q. unfold call_g. destruct d; simpl; rewrite H; simpl; rewrite <- Hv; reflexivity.
Qed.
(** Policies whose grouping types are all about g are not affected: separation holds
    when the other types list nothing. *)
Theorem C35_single_definition_partial : forall o names n rules e d u x,
  tidy names n rules -> managed o names n rules e -> names (d, u) -> names (d, x) -> declared e "g" "g" ->
  (forall pt, pt <> "g" -> stored e "g" pt = []) ->
  exists v, g_answer e (u :: x :: dom_arg d) = Some (Ok v) /\
    (v = true <-> within (fun l => exists r, In r (stored e "g" "g") /\ link_of r = Some l) d (level_of e) u x).
Proof.
  intros o names n rules e d u x T Mg Nu Nx D One.
  destruct (C35_definitions_share_links o names n rules e "g" d u x T Mg Nu Nx D) as [v [E V]].
  exists v. split; auto. rewrite V.
  assert (H : forall l, assigned e l <-> exists r, In r (stored e "g" "g") /\ link_of r = Some l).
  { intros l. split; [|intros [r K]; exists "g", r; auto]. intros [pt [r [I K]]]. destruct (string_dec pt "g") as [->|N]; [eauto|].
    rewrite One in I by auto. destruct I. }
  apply within_ext. intros a b. apply H.
Qed.
Example C35_case : g_answer org ["alice"; "root"] = Some (Ok true) /\ (forall pt, pt <> "g" -> stored org "g" pt = []).
Proof.
  split; [reflexivity|]. intros pt N. unfold stored, rules_in, get_ast. simpl. destruct (String.eqb_spec pt "g"); [contradiction|reflexivity].
Qed.
Print Assumptions C35_definitions_share_links.
