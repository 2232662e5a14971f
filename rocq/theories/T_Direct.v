(** Property C105: working on the parts behind the enforcer. *)
From Coq Require Import Permutation.
From Verif Require Import Base P_Base M_Util M_RoleManager M_Effector M_Model M_Persist M_Eval M_Evaluator M_Enforcer M_Matcher
  S_Effect S_Enforce S_Policy S_History S_Roles S_Sync S_Rbac P_Decide P_Store P_Api P_History P_Nodup P_Group P_Roles P_Sync P_Ready P_Implicit
  M_Direct S_Direct P_Direct E_Examples T_Rbac T_Users.
Local Arguments spell : simpl never.

(** ** A direct call tells nobody *)
Theorem C105_nothing_told : forall d e e' out, directly d e = (e', out) ->
  told e' = told e /\ settings e' = settings e /\ e_ev e' = e_ev e /\
  match d with DRole _ => e_model e' = e_model e | _ => e_heap e' = e_heap e end.
Proof.
  intros d e e' out E.
  assert (K : model_call d \/ d = DClearPolicy \/ exists c, d = DRole c) by (destruct d; simpl; eauto).
  destruct K as [K|[->|[c ->]]].
  - destruct (directly_model d e e' out K E) as [m [sec [pt [-> _]]]]. repeat split. destruct d; auto. destruct K.
  - simpl in E. inversion E; subst. repeat split.
  - simpl in E. destruct (hget (e_heap e) (e_rm e)); inversion E; subst; repeat split.
Qed.

(** ** The stored rules are those the enforcer's call of that name stores *)
Lemma edit_update_many_p : forall pt olds news e,
  after_edit (fun m => UpdatePolicies m "p" pt olds news) (fun b => b) e (i_updatePolicies "p" pt olds news e).
Proof.
  intros. rewrite i_updatePolicies_p. unfold after_edit. destruct (UpdatePolicies (e_model e) "p" pt olds news) as [[m [|]]|x|u]; auto; simpl.
  - split; [|congruence]. apply quiet_notify; auto.
  - split; [apply same_asts_refl|congruence].
Qed.
Theorem C105_same_rules : forall d e call e1 out1 e2 out2, by_enforcer d = Some call -> directly d e = (e1, out1) -> call e = (e2, out2) ->
  (forall sec pt, stored e1 sec pt = stored e2 sec pt) /\
  (forall b1 b2, out1 = Ok b1 -> out2 = Ok b2 -> b1 = b2) /\
  (forall u, out1 = UB u -> out2 = UB u) /\ (forall x, out1 = Throw x -> out2 = Throw x).
Proof.
  intros d e call e1 out1 e2 out2 C E1 E2.
  assert (GEN : forall A (f : model -> res (model * A)) (g : A -> bool), (p <- on_model f ;; ret (g p)) e = (e1, out1) -> after_edit f g e (e2, out2) ->
    (forall sec pt, stored e1 sec pt = stored e2 sec pt) /\ (forall b1 b2, out1 = Ok b1 -> out2 = Ok b2 -> b1 = b2) /\
    (forall u, out1 = UB u -> out2 = UB u) /\ (forall x, out1 = Throw x -> out2 = Throw x)).
  { intros A f g F AE. unfold after_edit in AE. unfold mbind, on_model, ret in F. destruct (f (e_model e)) as [[m a]|x|u]; inversion F; subst.
    - destruct AE as [SA B]. simpl in SA, B. split; [intros; symmetry; eapply stored_asts; eauto|]. repeat split; try discriminate.
      intros b1 b2 X Y. inversion X; subst. symmetry. auto.
    - inversion AE; subst. repeat split; try discriminate; auto.
    - inversion AE; subst. repeat split; try discriminate; auto. }
  assert (GENB : forall (f : model -> res (model * bool)), on_model f e = (e1, out1) -> after_edit f (fun b => b) e (e2, out2) ->
    (forall sec pt, stored e1 sec pt = stored e2 sec pt) /\ (forall b1 b2, out1 = Ok b1 -> out2 = Ok b2 -> b1 = b2) /\
    (forall u, out1 = UB u -> out2 = UB u) /\ (forall x, out1 = Throw x -> out2 = Throw x)).
  { intros f F AE. apply (GEN bool f (fun b => b)); auto. unfold mbind, ret. rewrite F. destruct out1; reflexivity. }
  assert (SPL : forall s (x y : M bool), match s with "p" => Some x | "g" => Some y | _ => None end = Some call -> s = "p" /\ call = x \/ s = "g" /\ call = y).
  { intros s x y H. destruct (string_dec s "p") as [->|N1]; [inversion H; auto|]. destruct (string_dec s "g") as [->|N2]; [inversion H; auto|].
    exfalso. destruct s as [|[[] [] [] [] [] [] [] []] [|? ?]]; try discriminate; congruence. }
  assert (SPL1 : forall s (x : M bool), match s with "p" => Some x | _ => None end = Some call -> s = "p" /\ call = x).
  { intros s x H. destruct (string_dec s "p") as [->|N1]; [inversion H; auto|].
    exfalso. destruct s as [|[[] [] [] [] [] [] [] []] [|? ?]]; try discriminate; congruence. }
  destruct d as [s q r|s q rs|s q r|s q rs|s q i vals|s q r1 r2|s q r1 r2| |c]; cbn [by_enforcer] in C; unfold directly in E1; try discriminate.
  - apply SPL in C. destruct C as [[-> ->]|[-> ->]]; eapply GENB; try exact E1; rewrite <- E2; [apply edit_add|].
    apply after_edit_bind; [apply edit_add|apply quiet_links_if].
  - apply SPL in C. destruct C as [[-> ->]|[-> ->]]; eapply GENB; try exact E1; rewrite <- E2; apply edit_add_many.
  - apply SPL in C. destruct C as [[-> ->]|[-> ->]]; eapply GENB; try exact E1; rewrite <- E2; [apply edit_remove|].
    apply after_edit_bind; [apply edit_remove|apply quiet_rebuild_if].
  - apply SPL in C. destruct C as [[-> ->]|[-> ->]]; (eapply (GEN _ _ fst); [exact E1|]); rewrite <- E2; [apply edit_remove_filtered|].
    apply after_edit_bind; [apply edit_remove_filtered|apply quiet_rebuild_if].
  - apply SPL in C. destruct C as [[-> ->]|[-> ->]]; eapply GENB; try exact E1; rewrite <- E2; apply edit_update.
  - apply SPL1 in C. destruct C as [-> ->]; eapply GENB; try exact E1; rewrite <- E2; apply edit_update_many_p.
  - inversion C; subst. simpl in E1, E2. inversion E1; inversion E2; subst. repeat split; try discriminate. congruence.
Qed.

(** With automatic saving off or no adapter, and no watcher to notify, a call of the
    enforcer on policy rules is the direct call, state for state. *)
Definition muted (e : enforcer) : Prop :=
  (e_adapter e = None \/ e_auto_save e = false) /\ (e_watcher e = None \/ e_notify e = false).
Definition on_policies (d : direct) : Prop :=
  match d with
  | DAddPolicy s _ _ | DAddPolicies s _ _ | DRemovePolicy s _ _ | DRemovePolicies s _ _ | DRemoveFilteredPolicy s _ _ _
  | DUpdatePolicy s _ _ _ | DUpdatePolicies s _ _ _ => s = "p"
  | DClearPolicy => True
  | DRole _ => False
  end.
Lemma muted_notify : forall e, muted e -> notify e = (e, Ok tt).
Proof. intros e [_ [H|H]]; unfold notify; rewrite H; auto. destruct (e_watcher e); auto. Qed.
Lemma muted_tail : forall c e, muted e -> tail c e = (e, Ok true).
Proof.
  intros c e H. unfold tail, mbind. assert (A : autosave c e = (e, Ok tt)).
  { destruct H as [[H|H] _]; unfold autosave; rewrite H; auto. destruct (e_adapter e); auto. }
  rewrite A, (muted_notify e H). reflexivity.
Qed.
Theorem C105_silent_call : forall d e call, muted e -> on_policies d -> by_enforcer d = Some call -> directly d e = call e.
Proof.
  intros d e call H P C.
  assert (MU : forall m, muted (set_model m e)) by (intros; exact H).
  destruct d as [s q r|s q rs|s q r|s q rs|s q i vals|s q r1 r2|s q r1 r2| |c]; simpl in P; try tauto; subst; cbn in C; inversion C; subst; clear C; unfold directly.
  - unfold AddNamedPolicy. rewrite i_addPolicy_p. unfold on_model. destruct (AddPolicy (e_model e) "p" q r) as [[m [|]]| |]; auto. rewrite muted_tail; auto.
  - unfold AddNamedPolicies. rewrite i_addPolicies_p. unfold on_model. destruct (AddPolicies (e_model e) "p" q rs) as [[m [|]]| |]; auto. rewrite muted_tail; auto.
  - unfold RemoveNamedPolicy. rewrite i_removePolicy_p. unfold on_model. destruct (RemovePolicy (e_model e) "p" q r) as [[m [|]]| |]; auto. rewrite muted_tail; auto.
  - unfold RemoveFilteredNamedPolicy. rewrite i_removeFilteredPolicy_p. unfold mbind, on_model. destruct (RemoveFilteredPolicy (e_model e) "p" q i vals) as [[m [[|] eff]]| |]; auto. rewrite muted_tail; auto.
  - unfold UpdateNamedPolicy. rewrite i_updatePolicy_p. unfold on_model. destruct (UpdatePolicy (e_model e) "p" q r1 r2) as [[m [|]]| |]; auto. rewrite muted_notify; auto.
  - unfold UpdateNamedPolicies. rewrite i_updatePolicies_p. unfold on_model. destruct (UpdatePolicies (e_model e) "p" q r1 r2) as [[m [|]]| |]; auto. rewrite muted_notify; auto.
  - reflexivity.
Qed.

(** ** What requests and queries owe to it *)

(** Policy rules count as they are stored; of the roles, only the calls on the role
    manager count. *)
Theorem C105_decision : forall o names rules ds e e' sub obj act,
  oracle_ext o -> reads_rbac o -> tidy names 2 rules -> managed o names 2 rules e -> standard_rbac o e ->
  Forall (in_order names 3 rules) ds -> worked e ds e' ->
  names (None, sub) -> (forall s r, In (s :: r) (stored e' "p" "p") -> names (None, s)) ->
  (stored e' "p" "p" <> [] \/ names (None, "") /\ (obj <> "" \/ act <> "")) ->
  exists b, snd (Enforce o (map DStr [sub; obj; act]) e') = Ok b /\
    (b = true <-> exists s, In [s; obj; act] (stored e' "p" "p") /\ within (in_force (assigned e) ds) None (level_of e) sub s).
Proof.
  intros o names rules ds e e' sub obj act X RB T M S F W N1 N2 N3. pose proof (managed_mirror names 2 rules T o e M) as LB.
  eapply rbac_decision_linked; eauto.
  - eapply worked_linked; eauto.
  - eapply worked_rbac; eauto.
Qed.
Theorem C105_roles : forall o names n k rules ds e e' d u,
  tidy names n rules -> managed o names n rules e -> Forall (in_order names k rules) ds -> worked e ds e' -> names (d, u) -> declared e' "g" "g" ->
  exists l, GetRolesForUser u (dom_arg d) e' = (e', Ok l) /\ NoDup l /\ forall x, In x l <-> in_force (assigned e) ds (d, u, x).
Proof.
  intros o names n k rules ds e e' d u T M F W Nu [a A]. pose proof (managed_mirror names n rules T o e M) as LB.
  destruct (worked_linked names n rules T k _ ds _ e e' W LB F) as [[r [H [R L]]] _ WI _ _].
  destruct (rep_GetRoles names (t_names _ _ _ T) r _ d u R Nu) as [l [E [ND I]]].
  exists l. split; auto. unfold GetRolesForUser, g_rm. rewrite A. cbn [bind].
  rewrite (WI _ _ (get_asts _ _ _ A)). rewrite (rm_GetRoles_pure _ _ _ _ r H (rep_plain _ _ _ R)), E. reflexivity.
Qed.

(** BuildRoleLinks brings the roles back in line with the stored rules. *)
Theorem C105_rebuilt : forall o names rules ds e e', oracle_ext o -> tidy names 2 rules -> managed o names 2 rules e -> standard_rbac o e ->
  Forall (in_order names 3 rules) ds -> worked e ds e' ->
  exists e'', e_BuildRoleLinks e' = (e'', Ok tt) /\ managed o names 2 rules e'' /\ standard_rbac o e'' /\
    (forall sec pt, stored e'' sec pt = stored e' sec pt) /\
    (forall d u, names (d, u) -> exists l, GetRolesForUser u (dom_arg d) e'' = (e'', Ok l) /\ NoDup l /\
       forall x, In x l <-> exists pt r, In r (stored e' "g" pt) /\ link_of r = Some (d, u, x)).
Proof.
  intros o names rules ds e e' X T M S F W. pose proof (managed_mirror names 2 rules T o e M) as LB.
  pose proof (worked_linked names 2 rules T 3 _ ds _ e e' W LB F) as LB'.
  destruct (rebuild_mirror names 2 rules T _ _ e' LB') as [e'' [E [MI ST]]]. exists e''. split; auto.
  assert (M'' : managed o names 2 rules e'').
  { destruct LB' as [[r [H [R _]]] G _ B C]. apply (managed_built o names 2 rules e'); auto. exists r. split; auto. apply R. }
  assert (SE : forall sec pt, stored e'' sec pt = stored e' sec pt).
  { intros sec pt. pose proof (quiet_rebuild e') as Q. rewrite E in Q. simpl in Q.
    unfold stored. rewrite <- (stored_asts e' (e_model e') e'' sec pt); [reflexivity|]. rewrite model_self. exact Q. }
  assert (SR'' : standard_rbac o e'').
  { pose proof (worked_rbac o names rules _ ds _ e e' X T W LB F S) as S'. apply rbac_standard in S'. destruct S' as [S' G]. apply rbac_standard.
    assert (RU : fst (run o KBuildRoleLinks e') = e'') by (simpl; rewrite E; reflexivity). rewrite <- RU. split.
    + eapply (standard_step o rules); eauto; try discriminate; try exact I; [exact (lb_wired _ _ _ _ _ _ LB')|]. rewrite RU. exact (lb_wired _ _ _ _ _ _ MI).
    + eapply (declared_run o rules); eauto. exact I. }
  split; auto. split; auto. split; auto.
  intros d u Nu. destruct (C30_get_roles_partial o names 2 rules e'' d u T M'' Nu) as [l [E1 [ND J]]].
    { apply sr_g with (o := o). exact SR''. }
    exists l. split; auto. split; auto. intros x. rewrite J. unfold assigned. split; intros [pt [r [K1 K2]]]; exists pt, r; rewrite (SE "g" pt) in *; auto.
Qed.

(** ** A case, and what fails *)
Definition org_work : list direct :=
  [DAddPolicy "p" "p" ["guest"; "data1"; "read"]; DAddPolicy "g" "g" ["carol"; "guest"]; DRole (RAdd None "bob" "guest");
   DRemovePolicy "p" "p" ["bob"; "data2"; "write"]; DRole (RDel None "alice" "admin"); DRole (RHasLink None "bob" "root")].
Lemma org_ordered : Forall (in_order plain_names 3 org_rule) org_work.
Proof.
  unfold org_work. repeat (apply Forall_cons; [constructor; [intros pt r|intros r|intros c [d x] E; try (inversion E; subst); try discriminate]; simpl; try tauto|]); try apply Forall_nil.
  all: try (intros [<-|[]]; reflexivity).
  all: try (match goal with |- In _ (if ?b then _ else _) -> _ => destruct b end; simpl; [intros [<-|[]]; unfold org_rule, org_rules; simpl; tauto|tauto]).
  all: try (intros [K|K]; inversion K; reflexivity).
Qed.
(** The rule for guest counts at once; carol's role, stored as a rule only, does not until
    the links are built, and then bob's, known to the role manager only, is gone. *)
Example C105_case : exists e' e'', worked org org_work e' /\ e_BuildRoleLinks e' = (e'', Ok tt) /\
  Forall (in_order plain_names 3 org_rule) org_work /\ managed mini plain_names 2 org_rule org /\ standard_rbac mini org /\
  in_force (assigned org) org_work (None, "bob", "guest") /\
  snd (Enforce mini (reqs ["bob"; "data1"; "read"]) e') = Ok true /\ snd (Enforce mini (reqs ["carol"; "data1"; "read"]) e') = Ok false /\
  In ["carol"; "guest"] (stored e' "g" "g") /\ snd (GetRolesForUser "carol" [] e') = Ok [] /\ snd (GetRolesForUser "alice" [] e') = Ok [] /\
  snd (GetRolesForUser "carol" [] e'') = Ok ["guest"] /\ snd (GetRolesForUser "alice" [] e'') = Ok ["admin"] /\
  snd (Enforce mini (reqs ["carol"; "data1"; "read"]) e'') = Ok true.
Proof.
  eexists. eexists. split.
  { unfold org_work. repeat (eapply worked_step; [vm_compute; reflexivity|discriminate|]). apply worked_nil. }
  split; [vm_compute; reflexivity|]. split; [apply org_ordered|]. split; [apply org_managed|]. split; [apply org_standard|].
  split. { unfold in_force, org_work. simpl. split; [left; reflexivity|discriminate]. }
  repeat split; try (vm_compute; reflexivity). vm_compute. tauto.
Qed.

(** A grouping rule put into the model directly gives no role. *)
Theorem C105_grouping_refuted : exists e e', managed mini plain_names 2 org_rule e /\ standard_rbac mini e /\
  directly (DAddPolicy "g" "g" ["carol"; "guest"]) e = (e', Ok true) /\ In ["carol"; "guest"] (stored e' "g" "g") /\
  snd (GetRolesForUser "carol" [] e') = Ok [] /\
  exists e2, AddNamedGroupingPolicy "g" ["carol"; "guest"] e = (e2, Ok true) /\ stored e2 "g" "g" = stored e' "g" "g" /\
    snd (GetRolesForUser "carol" [] e2) = Ok ["guest"].
Proof.
  exists org. eexists. split; [apply org_managed|]. split; [apply org_standard|]. split; [vm_compute; reflexivity|].
  split; [vm_compute; tauto|]. split; [vm_compute; reflexivity|]. eexists. split; [vm_compute; reflexivity|]. split; vm_compute; reflexivity.
Qed.
(** Removing several rules at once from the model is undefined as soon as they are all there. *)
Theorem C105_remove_many_refuted : forall e sec pt rs, declared e sec pt -> rs <> [] -> (forall r, In r rs -> In r (stored e sec pt)) ->
  snd (directly (DRemovePolicies sec pt rs) e) = UB InvalidIterator.
Proof.
  intros e sec pt rs [a A] NE IN. unfold directly, on_model, RemovePolicies. rewrite A. cbn [bind].
  assert (F : forallb (has_rule (rules_of (a_policy a))) rs = true).
  { apply forallb_forall. intros r I. apply has_rule_true. exists r. split; [|reflexivity]. specialize (IN r I). unfold stored, rules_in in IN. rewrite A in IN. auto. }
  rewrite F. destruct rs; [congruence|reflexivity].
Qed.
Example C105_remove_many_case : declared org "p" "p" /\ (forall r, In r [["bob"; "data2"; "write"]] -> In r (stored org "p" "p")).
Proof. split; [eexists; reflexivity|]. intros r [<-|[]]. vm_compute. tauto. Qed.
Example C105_calls_case : by_enforcer (DAddPolicy "p" "p" ["guest"; "data1"; "read"]) = Some (AddNamedPolicy "p" ["guest"; "data1"; "read"]) /\
  muted org /\ on_policies (DAddPolicy "p" "p" ["guest"; "data1"; "read"]) /\
  snd (directly (DAddPolicy "p" "p" ["guest"; "data1"; "read"]) org) = Ok true.
Proof. repeat split; auto; try (vm_compute; reflexivity); left; reflexivity. Qed.
Print Assumptions C105_nothing_told.
Print Assumptions C105_same_rules.
Print Assumptions C105_silent_call.
Print Assumptions C105_decision.
Print Assumptions C105_roles.
Print Assumptions C105_rebuilt.
Print Assumptions C105_grouping_refuted.
Print Assumptions C105_remove_many_refuted.
