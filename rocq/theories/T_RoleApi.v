(** Properties C73 and C26 at the API: giving and taking roles. *)
From Coq Require Import Permutation.
From Verif Require Import Base P_Base M_Util M_RoleManager M_Effector M_Model M_Persist M_Eval M_Evaluator M_Enforcer M_Matcher
  S_Effect S_Enforce S_Policy S_History S_Roles S_Sync S_RoleApi P_Store P_Api P_History P_Group P_Roles P_Sync P_Implicit P_Nodup E_Examples T_Rbac T_Standard.
Local Arguments spell : simpl never.

Lemma list_roles_at : forall d u, list_roles d u = GetRolesForUser u (dom_arg d).
Proof. intros [k|] u; reflexivity. Qed.
Lemma list_users_at : forall d u, list_users d u = GetUsersForRole u (dom_arg d).
Proof. intros [k|] u; reflexivity. Qed.
Lemma give_role_at : forall d u x, give_role d u x = AddNamedGroupingPolicy "g" (u :: x :: dom_arg d).
Proof. intros [k|] u x; reflexivity. Qed.
Lemma take_role_at : forall d u x, take_role d u x = RemoveNamedGroupingPolicy "g" (u :: x :: dom_arg d).
Proof. intros [k|] u x; reflexivity. Qed.
Lemma link_at : forall d u x, link_of (u :: x :: dom_arg d) = Some (d, u, x).
Proof. intros [k|] u x; reflexivity. Qed.

Lemma NoDup_app_one : forall (l : list rule) r, NoDup l -> ~ In r l -> NoDup (l ++ [r]).
Proof. intros l r N I. eapply Permutation_NoDup; [apply Permutation_cons_append|constructor; auto]. Qed.

Section RoleApi.
  Variables (o : oracle) (names : node -> Prop) (n : nat) (rules : rule -> Prop).
  Hypothesis T : tidy names n rules.
  Notation staffed := (staffed o names n rules).
  Notation usable := (usable rules).

  Lemma stored_rules : forall e q r, managed o names n rules e -> In r (stored e "g" q) -> rules r.
  Proof.
    intros e q r Mg I. rewrite stored_asts_g in I. destruct (aget q (asts e)) eqn:A; [|destruct I].
    destruct (lb_ok _ _ _ _ _ _ (managed_mirror names n rules T o e Mg)) as [_ O]. destruct (O _ _ A) as [_ F].
    rewrite Forall_forall in F. auto.
  Qed.
  Lemma staffed_anagram : forall e r, staffed e -> rules r -> no_anagram r (stored e "g" "g").
  Proof. intros e r [Mg _ _ _] R r' I P. symmetry. eapply (t_perm _ _ _ T); eauto. eapply stored_rules; eauto. Qed.
  Lemma staffed_assigned : forall e d u x, staffed e -> (assigned e (d, u, x) <-> In (u :: x :: dom_arg d) (stored e "g" "g")).
  Proof.
    intros e d u x [Mg D O N]. split.
    - intros [pt [r [I L]]]. destruct (string_dec pt "g") as [->|X]; [|rewrite (O _ X) in I; destruct I].
      destruct r as [|a [|b [|c [|? ?]]]]; simpl in L; try discriminate; inversion L; subst; exact I.
    - intros I. exists "g". eexists. split; [exact I|apply link_at].
  Qed.
  Lemma usable_names : forall d u x, usable d u x -> names (d, u) /\ names (d, x).
  Proof.
    intros d u x U. destruct (t_rule _ _ _ T _ U) as [_ [d0 [a [b [L [Na Nb]]]]]]. rewrite link_at in L. inversion L; subst. auto.
  Qed.
  Lemma become : forall e e' change, staffed e -> staffed e' ->
    (forall l, assigned e' l <-> change (assigned e) l) -> roles_become names e e' change.
  Proof.
    intros e e' change [Mg D O N] [Mg' D' O' N'] A. exists (assigned e). split; [|split].
    - intros d u Nu. rewrite list_roles_at.
      destruct (C30_get_roles_partial o names n rules e d u T Mg Nu D) as [l [E [_ I]]].
      destruct (C30_get_roles_partial o names n rules e' d u T Mg' Nu D') as [l' [E' [_ I']]].
      exists l, l'. split; auto. split; auto. split; auto. intros x. rewrite I'. apply A.
    - intros d x l' Nx. rewrite list_users_at. pose proof (C30_get_users_partial o names n rules e' d x T Mg' Nx D') as K.
      destruct (GetUsersForRole x (dom_arg d) e') as [e2 [us| |]]; simpl; intros Q; try discriminate. inversion Q; subst.
      destruct K as [_ [_ K]]. intros u. rewrite K. apply A.
    - intros d x t Nx. rewrite list_users_at. pose proof (C30_get_users_partial o names n rules e' d x T Mg' Nx D') as K.
      destruct (GetUsersForRole x (dom_arg d) e') as [e2 [us| |]]; simpl; intros Q; try discriminate.
      destruct K as [_ [_ K]]. intros u. rewrite <- A. apply K.
  Qed.

  Lemma give_declared : forall e pt ru e' out s q,
    AddNamedGroupingPolicy pt ru e = (e', out) -> (declared e' s q <-> declared e s q).
  Proof.
    intros e pt ru e' out s q RM.
    pose proof (after_edit_bind _ _ _ _ (fun e => if e_auto_build e then e_BuildIncrementalRoleLinks policy_add pt [ru] e else (e, Ok tt)) _
      (edit_add "g" pt ru e) (quiet_links_if pt ru)) as AE.
    unfold AddNamedGroupingPolicy in RM. rewrite RM in AE.
    unfold after_edit in AE. pose proof (writes_add (e_model e) "g" pt ru) as W.
    destruct (AddPolicy (e_model e) "g" pt ru) as [[m b]| |]; simpl in AE; [|inversion AE; tauto|inversion AE; tauto].
    destruct AE as [SA _]. rewrite (same_asts_declared _ _ _ _ SA). eapply writes_declared; eauto.
  Qed.

  Lemma give_step : forall e d u x e' b, staffed e -> usable d u x -> AddNamedGroupingPolicy "g" (u :: x :: dom_arg d) e = (e', Ok b) ->
    staffed e' /\ (forall l, assigned e' l <-> assigned e l \/ l = (d, u, x)) /\
    (b = true <-> ~ assigned e (d, u, x)).
  Proof.
    intros e d u x e' b S U H. assert (NA := staffed_anagram e _ S U). destruct S as [Mg D O N].
    pose proof (add_grouping e "g" (u :: x :: dom_arg d) D NA) as A. rewrite H in A. destruct A as [OK [A1 [A2 B]]].
    assert (S' : staffed e').
    { split.
      - eapply (managed_call o names n rules e (KAddGrouping "g" (u :: x :: dom_arg d))); eauto;
          [simpl; unfold drop_value, mbind; rewrite H; reflexivity|discriminate].
      - eapply give_declared; eauto.
      - intros pt X. rewrite (OK "g" pt) by congruence. auto.
      - destruct (in_dec (list_eq_dec string_dec) (u :: x :: dom_arg d) (stored e "g" "g")) as [I|I];
          [rewrite A1 by auto; auto|rewrite A2 by auto]. apply NoDup_app_one; auto. }
    split; auto. split.
    - intros [[d' u'] x']. rewrite !staffed_assigned by (auto; split; auto).
      destruct (in_dec (list_eq_dec string_dec) (u :: x :: dom_arg d) (stored e "g" "g")) as [I|I].
      + rewrite A1 by auto. split; auto. intros [K|K]; auto. inversion K; subst; auto.
      + rewrite A2 by auto. rewrite in_app_iff. simpl. split; intros [K|K]; auto.
        * destruct K as [K|[]]. right. assert (L : link_of (u :: x :: dom_arg d) = link_of (u' :: x' :: dom_arg d')) by (rewrite K; auto).
          rewrite !link_at in L. inversion L; auto.
        * inversion K; subst; auto.
    - rewrite staffed_assigned by (split; auto). apply B. auto.
  Qed.
  Lemma take_step : forall e d u x e' b, staffed e -> usable d u x -> RemoveNamedGroupingPolicy "g" (u :: x :: dom_arg d) e = (e', Ok b) ->
    staffed e' /\ (forall l, assigned e' l <-> assigned e l /\ l <> (d, u, x)) /\
    (b = true <-> assigned e (d, u, x)).
  Proof.
    intros e d u x e' b S U H. assert (NA := staffed_anagram e _ S U). destruct S as [Mg D O N].
    pose proof (remove_grouping e "g" (u :: x :: dom_arg d) D NA N) as A. rewrite H in A. destruct A as [OK [A1 [A2 B]]].
    assert (S' : staffed e').
    { split.
      - eapply (managed_call o names n rules e (KRemoveGrouping "g" (u :: x :: dom_arg d))); eauto;
          [simpl; unfold drop_value, mbind; rewrite H; reflexivity|discriminate].
      - eapply remove_grouping_declared; eauto.
      - intros pt X. rewrite (OK "g" pt) by congruence. auto.
      - destruct (in_dec (list_eq_dec string_dec) (u :: x :: dom_arg d) (stored e "g" "g")) as [I|I]; [|rewrite A1 by auto; auto].
        destruct (A2 I) as [_ [pre [post [E E']]]]. rewrite E in N. rewrite E'. eapply NoDup_remove_1; eauto. }
    split; auto. split.
    - intros [[d' u'] x']. rewrite !staffed_assigned by (auto; split; auto).
      assert (EQ : (d', u', x') = (d, u, x) <-> u' :: x' :: dom_arg d' = u :: x :: dom_arg d).
      { split; [intros K; inversion K; subst; auto|]. intros K.
        assert (L : link_of (u :: x :: dom_arg d) = link_of (u' :: x' :: dom_arg d')) by (rewrite K; auto).
        rewrite !link_at in L. inversion L; auto. }
      destruct (in_dec (list_eq_dec string_dec) (u :: x :: dom_arg d) (stored e "g" "g")) as [I|I].
      + destruct (A2 I) as [NI [pre [post [E E']]]]. rewrite EQ. split.
        * intros K. split; [|intros Q; apply NI; rewrite <- Q; exact K]. rewrite E' in K. rewrite E. rewrite in_app_iff in *. simpl. tauto.
        * intros [K Q]. rewrite E in K. rewrite E'. rewrite in_app_iff in *. simpl in K. destruct K as [K|[K|K]]; auto. congruence.
      + rewrite A1 by auto. split; [|tauto]. intros K. split; auto. rewrite EQ. intros Q. rewrite Q in K. auto.
    - rewrite staffed_assigned by (split; auto). apply B. auto.
  Qed.
  Lemma drop_step : forall e u e' b, staffed e -> u <> "" -> DeleteRolesForUser u e = (e', Ok b) ->
    staffed e' /\ (forall l, assigned e' l <-> assigned e l /\ snd (fst l) <> u) /\
    (b = true <-> exists d x, assigned e (d, u, x)).
  Proof.
    intros e u e' b S N0 H. pose proof S as SS. destruct S as [Mg D O N].
    assert (RG : filter_in_range 0 [u] (stored e "g" "g")).
    { intros r I. destruct (t_rule _ _ _ T r (stored_rules e "g" r Mg I)) as [L _]. pose proof (t_size _ _ _ T). simpl. lia. }
    destruct (filtered_ok e "g" "g" 0 [u] D RG) as [lg [Gg Sg]].
    pose proof (remove_filtered_grouping e "g" 0 [u] lg D Gg) as K.
    unfold DeleteRolesForUser, RemoveFilteredGroupingPolicy in H. rewrite H in K. destruct K as [OK [SE B]].
    assert (IN : forall r, In r (stored e' "g" "g") <-> In r (stored e "g" "g") /\ nth_error r 0 <> Some u).
    { intros r. rewrite (selects_in _ _ _ r SE). rewrite (qualifies_one 0 u r N0). tauto. }
    assert (S' : staffed e').
    { split.
      - eapply (managed_call o names n rules e (KRemoveFilteredGrouping "g" 0 [u])); eauto;
          [simpl; auto|simpl; unfold drop_value, mbind; rewrite H; reflexivity|discriminate].
      - eapply remove_filtered_grouping_declared; eauto.
      - intros pt X. rewrite (OK "g" pt) by congruence. auto.
      - eapply nodup_selects; eauto. }
    split; auto. split.
    - intros [[d' u'] x']. rewrite !staffed_assigned by (auto; split; auto). rewrite IN. simpl. split; intros [K Q]; split; auto; congruence.
    - rewrite (B b eq_refl). split.
      + intros NE. destruct lg as [|r lg]; [congruence|]. assert (I : In r (r :: lg)) by (simpl; auto).
        rewrite (selects_in _ _ _ r Sg) in I. destruct I as [I Q]. apply (proj1 (qualifies_one 0 u r N0)) in Q.
        destruct (t_rule _ _ _ T r (stored_rules e "g" r Mg I)) as [_ [d [a [c [L _]]]]].
        destruct r as [|a0 r]; [discriminate|]. simpl in Q. inversion Q; subst a0. exists d, c. exists "g". eexists. split; [exact I|].
        destruct r as [|b0 [|c0 [|? ?]]]; simpl in *; try discriminate; inversion L; subst; auto.
      + intros [d [x I]] ->. apply (staffed_assigned e d u x SS) in I.
        assert (Q : In (u :: x :: dom_arg d) []); [|destruct Q].
        rewrite (selects_in _ _ _ _ Sg). split; auto. apply (proj2 (qualifies_one 0 u _ N0)). reflexivity.
  Qed.
  Lemma gives_step : forall u roles f e e' b, staffed e -> Forall (usable None u) roles -> add_roles u roles f e = (e', Ok b) ->
    staffed e' /\ (forall l, assigned e' l <-> assigned e l \/ exists x, In x roles /\ l = (None, u, x)) /\
    (b = true <-> f = true \/ exists x, In x roles /\ ~ assigned e (None, u, x)).
  Proof.
    intros u roles. induction roles as [|x roles IH]; intros f e e' b S F H.
    - simpl in H. unfold ret in H. inversion H; subst. split; auto. split; [intros l; split; auto; intros [?|[? [[] _]]]; auto|].
      split; auto. intros [?|[? [[] _]]]; auto.
    - inversion F as [|? ? U F']; subst. simpl in H. unfold mbind in H.
      change (AddGroupingPolicy [u; x]) with (AddNamedGroupingPolicy "g" (u :: x :: dom_arg None)) in H.
      destruct (AddNamedGroupingPolicy "g" (u :: x :: dom_arg None) e) as [e1 [b1| |]] eqn:A; try discriminate.
      destruct (give_step _ _ _ _ _ _ S U A) as [S1 [L1 B1]]. destruct (IH _ _ _ _ S1 F' H) as [S2 [L2 B2]].
      split; auto. split.
      + intros l. rewrite L2, L1. simpl. split.
        * intros [[K|K]|[y [K Q]]]; eauto.
        * intros [K|[y [[K|K] Q]]]; subst; eauto.
      + rewrite B2. simpl. split.
        * intros [K|[y [K Q]]].
          { destruct b1; auto. right. exists x. split; auto. apply B1. auto. }
          { right. exists y. split; auto. intros Z. apply Q. apply L1. auto. }
        * intros [K|[y [K Q]]].
          { left. destruct b1; auto. }
          { destruct (string_dec y x) as [->|NE].
            - left. assert (b1 = true) by (apply B1; auto). subst. auto.
            - right. exists y. destruct K as [K|K]; [congruence|]. split; auto. rewrite L1. intros [Z|Z]; [auto|congruence]. }
  Qed.
  Lemma staffed_answers : forall e d u, staffed e -> names (d, u) ->
    exists l, list_roles d u e = (e, Ok l) /\ forall x, In x l <-> assigned e (d, u, x).
  Proof.
    intros e d u [Mg D O N] Nu. rewrite list_roles_at.
    destruct (C30_get_roles_partial o names n rules e d u T Mg Nu D) as [l [E [_ I]]]. eauto.
  Qed.
End RoleApi.

(** ** C73 *)
Theorem C73_give_role : forall o names n rules e d u x e' b,
  tidy names n rules -> staffed o names n rules e -> usable rules d u x -> give_role d u x e = (e', Ok b) ->
  staffed o names n rules e' /\
  roles_become names e e' (fun L l => L l \/ l = (d, u, x)) /\
  exists l, snd (list_roles d u e) = Ok l /\ (b = true <-> ~ In x l).
Proof.
  intros o names n rules e d u x e' b T S U H. rewrite give_role_at in H. destruct (usable_names names n rules T d u x U) as [Nu _].
  destruct (give_step o names n rules T _ _ _ _ _ _ S U H) as [S' [L B]]. split; auto. split; [eapply become; eauto|].
  destruct (staffed_answers o names n rules T e d u S Nu) as [l [E I]]. exists l. rewrite E. split; auto. rewrite I. exact B.
Qed.
Theorem C73_take_role : forall o names n rules e d u x e' b,
  tidy names n rules -> staffed o names n rules e -> usable rules d u x -> take_role d u x e = (e', Ok b) ->
  staffed o names n rules e' /\
  roles_become names e e' (fun L l => L l /\ l <> (d, u, x)) /\
  exists l, snd (list_roles d u e) = Ok l /\ (b = true <-> In x l).
Proof.
  intros o names n rules e d u x e' b T S U H. rewrite take_role_at in H. destruct (usable_names names n rules T d u x U) as [Nu _].
  destruct (take_step o names n rules T _ _ _ _ _ _ S U H) as [S' [L B]]. split; auto. split; [eapply become; eauto|].
  destruct (staffed_answers o names n rules T e d u S Nu) as [l [E I]]. exists l. rewrite E. split; auto. rewrite I. exact B.
Qed.
(** Taking all roles of a user takes them in every domain. *)
Theorem C73_take_all_roles : forall o names n rules e u e' b,
  tidy names n rules -> staffed o names n rules e -> u <> "" -> DeleteRolesForUser u e = (e', Ok b) ->
  staffed o names n rules e' /\
  roles_become names e e' (fun L l => L l /\ snd (fst l) <> u) /\
  (b = false -> forall d l, names (d, u) -> snd (list_roles d u e) = Ok l -> l = []).
Proof.
  intros o names n rules e u e' b T S N0 H.
  destruct (drop_step o names n rules T _ _ _ _ S N0 H) as [S' [L B]]. split; auto. split; [eapply become; eauto|].
  intros -> d l Nu E. destruct (staffed_answers o names n rules T e d u S Nu) as [l0 [E0 I]]. rewrite E0 in E. simpl in E. inversion E; subst.
  destruct l as [|x l]; auto. exfalso. assert (Q : false = true); [|discriminate]. apply B. exists d, x. apply I. simpl. auto.
Qed.
Theorem C73_give_roles : forall o names n rules e u roles e' b,
  tidy names n rules -> staffed o names n rules e -> Forall (usable rules None u) roles -> AddRolesForUser u roles e = (e', Ok b) ->
  staffed o names n rules e' /\
  roles_become names e e' (fun L l => L l \/ exists x, In x roles /\ l = (None, u, x)) /\
  (names (None, u) -> exists l, snd (list_roles None u e) = Ok l /\ (b = true <-> exists x, In x roles /\ ~ In x l)).
Proof.
  intros o names n rules e u roles e' b T S F H.
  destruct (gives_step o names n rules T _ _ _ _ _ _ S F H) as [S' [L B]]. split; auto. split; [eapply become; eauto|].
  intros Nu. destruct (staffed_answers o names n rules T e None u S Nu) as [l [E I]]. exists l. rewrite E. split; auto. rewrite B. split.
  - intros [K|[x [K Q]]]; [discriminate|]. exists x. rewrite I. auto.
  - intros [x [K Q]]. rewrite I in Q. eauto.
Qed.
Theorem C73_has_role : forall o names n rules e u x,
  tidy names n rules -> staffed o names n rules e -> names (None, u) ->
  exists l v, list_roles None u e = (e, Ok l) /\ HasRoleForUser u x e = (e, Ok v) /\ (v = true <-> In x l).
Proof.
  intros o names n rules e u x T S Nu. destruct (staffed_answers o names n rules T e None u S Nu) as [l [E I]].
  unfold list_roles in E. exists l. eexists. split; auto. unfold HasRoleForUser, mbind. rewrite E. split; [reflexivity|].
  rewrite existsb_exists. split.
  - intros [y [K Q]]. apply String.eqb_eq in Q. subst. auto.
  - intros K. exists x. split; auto. apply String.eqb_refl.
Qed.
(** What a role assignment is to the API is what the grouping policy lists. *)
Theorem C73_roles_are_listed_rules : forall o names n rules e d u,
  tidy names n rules -> staffed o names n rules e -> names (d, u) ->
  exists l, list_roles d u e = (e, Ok l) /\ forall x, In x l <-> In (u :: x :: dom_arg d) (stored e "g" "g").
Proof.
  intros o names n rules e d u T S Nu. destruct (staffed_answers o names n rules T e d u S Nu) as [l [E I]]. exists l. split; auto.
  intros x. rewrite I. apply (staffed_assigned o names n rules); auto.
Qed.

(** ** C26 at the API: a domain's roles are untouched by what is done in another one. *)
Theorem C26_role_calls_isolated : forall o names n rules e d u x e' b k v,
  tidy names n rules -> staffed o names n rules e -> usable rules (Some d) u x -> names (Some k, v) -> k <> d ->
  give_role (Some d) u x e = (e', Ok b) \/ take_role (Some d) u x e = (e', Ok b) ->
  exists l l', GetRolesForUserInDomain v k e = (e, Ok l) /\ GetRolesForUserInDomain v k e' = (e', Ok l') /\ forall y, In y l' <-> In y l.
Proof.
  intros o names n rules e d u x e' b k v T S U Nv NE [H|H].
  - destruct (C73_give_role _ _ _ _ _ _ _ _ _ _ T S U H) as [_ [[L [R _]] _]]. destruct (R _ _ Nv) as [l [l' [E [E' [I I']]]]].
    exists l, l'. split; auto. split; auto. intros y. rewrite I, I'. split; auto. intros [K|K]; auto. congruence.
  - destruct (C73_take_role _ _ _ _ _ _ _ _ _ _ T S U H) as [_ [[L [R _]] _]]. destruct (R _ _ Nv) as [l [l' [E [E' [I I']]]]].
    exists l, l'. split; auto. split; auto. intros y. rewrite I, I'. split; [tauto|]. intros K; split; auto. congruence.
Qed.
Lemma org_staffed : staffed mini plain_names 2 org_rule org.
Proof.
  split; [apply org_managed|eexists; reflexivity| |].
  - intros pt N. unfold stored, rules_in, get_ast. simpl. destruct (String.eqb_spec pt "g"); [congruence|reflexivity].
  - change (stored org "g" "g") with org_gs. unfold org_gs. repeat constructor; simpl; intuition discriminate.
Qed.
(** Missing from [C73_take_all_roles]: the empty name, which every rule matches. *)
Theorem C73_empty_user_refuted : exists e e' l, staffed mini plain_names 2 org_rule e /\
  DeleteRolesForUser "" e = (e', Ok true) /\ snd (list_roles None "alice" e) = Ok l /\ l <> [] /\
  snd (list_roles None "alice" e') = Ok [].
Proof.
  exists org. do 2 eexists. split; [apply org_staffed|]. split; [vm_compute; reflexivity|]. split; [vm_compute; reflexivity|].
  split; [discriminate|]. vm_compute. reflexivity.
Qed.
Example C73_case : staffed mini plain_names 2 org_rule org /\ tidy plain_names 2 org_rule /\
  usable org_rule None "carol" "guest" /\ usable org_rule None "staff" "admin" /\
  snd (give_role None "carol" "guest" org) = Ok true /\ snd (give_role None "staff" "admin" org) = Ok false /\
  snd (take_role None "staff" "admin" org) = Ok true /\ snd (take_role None "carol" "guest" org) = Ok false /\
  snd (DeleteRolesForUser "bob" org) = Ok true /\
  snd (list_roles None "bob" (fst (DeleteRolesForUser "bob" org))) = Ok [] /\
  Forall (usable org_rule None "carol") ["guest"] /\
  snd (list_users None "guest" (fst (AddRolesForUser "carol" ["guest"] org))) = Ok ["carol"].
Proof.
  assert (U1 : usable org_rule None "carol" "guest") by (unfold usable, org_rule, org_rules; cbn [In dom_arg]; tauto).
  assert (U2 : usable org_rule None "staff" "admin") by (unfold usable, org_rule, org_rules; cbn [In dom_arg]; tauto).
  split; [apply org_staffed|]. split; [apply org_tidy|]. split; [exact U1|]. split; [exact U2|].
  split; [vm_compute; reflexivity|]. split; [vm_compute; reflexivity|]. split; [vm_compute; reflexivity|]. split; [vm_compute; reflexivity|].
  split; [vm_compute; reflexivity|]. split; [vm_compute; reflexivity|]. split; [constructor; [exact U1|constructor]|].
  vm_compute. reflexivity.
Qed.
Lemma dorg_staffed : staffed mini two_doms 3 dom_rule dorg.
Proof.
  split; [apply dorg_managed|eexists; reflexivity| |].
  - intros pt N. unfold stored, rules_in, get_ast. simpl. destruct (String.eqb_spec pt "g"); [congruence|reflexivity].
  - change (stored dorg "g" "g") with [["alice"; "admin"; "d1"]; ["alice"; "user"; "d2"]; ["bob"; "admin"; "d2"]].
    repeat constructor; simpl; intuition discriminate.
Qed.
Example C26_api_case : staffed mini two_doms 3 dom_rule dorg /\ tidy two_doms 3 dom_rule /\
  usable dom_rule (Some "d1") "admin" "root" /\ usable dom_rule (Some "d1") "alice" "admin" /\ two_doms (Some "d2", "alice") /\
  snd (give_role (Some "d1") "admin" "root" dorg) = Ok true /\ snd (take_role (Some "d1") "alice" "admin" dorg) = Ok true /\
  snd (GetRolesForUserInDomain "alice" "d1" (fst (take_role (Some "d1") "alice" "admin" dorg))) = Ok [] /\
  snd (GetRolesForUserInDomain "alice" "d2" (fst (take_role (Some "d1") "alice" "admin" dorg))) = Ok ["user"] /\
  snd (GetUsersForRoleInDomain "admin" "d2" dorg) = Ok ["bob"].
Proof.
  split; [apply dorg_staffed|]. split; [apply dom_tidy|].
  split; [unfold usable, dom_rule, dom_rules; cbn [In dom_arg]; tauto|]. split; [unfold usable, dom_rule, dom_rules; cbn [In dom_arg]; tauto|].
  split; [exists "d2"; auto|]. repeat (split; [vm_compute; reflexivity|]). vm_compute. reflexivity.
Qed.
Print Assumptions C73_give_role.
Print Assumptions C73_take_role.
Print Assumptions C73_give_roles.
Print Assumptions C26_role_calls_isolated.
