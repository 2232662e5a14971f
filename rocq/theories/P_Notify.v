(** What the adapter and the watcher are told: proofs. *)
From Coq Require Import Permutation.
From Verif Require Import Base P_Base M_Util M_RoleManager M_Model M_Persist M_Evaluator M_Enforcer S_Policy S_History S_Notify
  P_Decide P_Store P_Api P_History P_Nodup.

(** ** Calls that say nothing to anybody *)
Definition mute (e e' : enforcer) : Prop :=
  same_asts e e' /\ e_adapter e' = e_adapter e /\ e_auto_save e' = e_auto_save e /\ e_watcher e' = e_watcher e /\ e_notify e' = e_notify e.
Lemma mute_refl : forall e, mute e e.
Proof. intros. split; [apply same_asts_refl|auto]. Qed.
Lemma mute_trans : forall a b c, mute a b -> mute b c -> mute a c.
Proof. intros a b c [A1 A2] [B1 B2]. split; [eapply same_asts_trans; eauto|]. intuition congruence. Qed.
Lemma mute_of : forall A (c : M A), keeps same_asts c ->
  (forall e, e_adapter (fst (c e)) = e_adapter e /\ e_auto_save (fst (c e)) = e_auto_save e /\ e_watcher (fst (c e)) = e_watcher e /\ e_notify (fst (c e)) = e_notify e) ->
  keeps mute c.
Proof. intros A c K H e. split; [apply K|apply H]. Qed.
Ltac mb := intros; apply keeps_bind; [exact mute_trans| |].
Ltac mr := intros; first [apply keeps_ret|apply keeps_fail|apply keeps_undef|apply keeps_lift|apply keeps_read]; exact mute_refl.

Lemma mute_incremental : forall op pt rs, keeps mute (e_BuildIncrementalRoleLinks op pt rs).
Proof.
  intros. apply mute_of; [apply quiet_incremental|]. intros e. unfold e_BuildIncrementalRoleLinks. destruct (BuildIncrementalRoleLinks _ _ _ _ _ _ _) as [[? ?] ?]. auto.
Qed.
Lemma mute_rebuild : keeps mute e_BuildRoleLinks.
Proof.
  apply mute_of; [apply quiet_rebuild|]. intros e. unfold e_BuildRoleLinks. destruct (hget _ _); auto. destruct (BuildRoleLinks _ _ _) as [[? ?] ?]. auto.
Qed.
Lemma mute_rebuild_if : keeps mute rebuild_if_auto.
Proof. intros e. unfold rebuild_if_auto. destruct (e_auto_build e); [apply mute_rebuild|apply mute_refl]. Qed.
Lemma mute_links_if : forall pt r,
  keeps mute (fun e => if e_auto_build e then e_BuildIncrementalRoleLinks policy_add pt [r] e else (e, Ok tt)).
Proof. intros pt r e. simpl. destruct (e_auto_build e); [apply mute_incremental|apply mute_refl]. Qed.
Lemma mute_all_types : forall sec i, keeps mute (all_types sec i).
Proof. intros. apply mute_of; [apply quiet_all_types|]. intros e. unfold all_types. destruct (GetValuesForFieldInPolicyAllTypes _ _ _). auto. Qed.
Lemma mute_rm_GetRoles : forall i n d, keeps mute (rm_GetRoles i n d).
Proof. intros. apply mute_of; [apply quiet_rm_GetRoles|]. intros e. unfold rm_GetRoles. destruct (hget _ _); auto. destruct (GetRoles _ _ _). auto. Qed.
Lemma mute_GetRolesForUser : forall n d, keeps mute (GetRolesForUser n d).
Proof. intros n d e. unfold GetRolesForUser. destruct (g_rm e); try apply mute_refl. apply mute_rm_GetRoles. Qed.
Lemma mute_implicit_loop : forall fuel d q seen acc, keeps mute (implicit_loop fuel d q seen acc).
Proof.
  induction fuel as [|n IH]; intros d [|x q] seen acc; simpl; try mr.
  mb; auto. intros e. apply mute_rm_GetRoles.
Qed.
Lemma mute_implicit_roles : forall n d, keeps mute (GetImplicitRolesForUser n d).
Proof.
  intros n d e. unfold GetImplicitRolesForUser. destruct (hget (e_heap e) (e_rm e)); try apply mute_refl. apply mute_implicit_loop.
Qed.
Lemma mute_perms_of : forall d roles, keeps mute (perms_of d roles).
Proof.
  induction roles as [|r rs IH]; simpl. { mr. }
  mb. { destruct d; mr. }
  mb; [auto|try mr].
Qed.
Lemma mute_implicit_perms : forall n d, keeps mute (GetImplicitPermissionsForUser n d).
Proof.
  mb. { apply mute_implicit_roles. }
  intros. destruct (Nat.ltb 1 (List.length d)). { mr. } apply mute_perms_of.
Qed.
Lemma mute_ev : forall ev e, mute e (set_ev ev e).
Proof. intros. split; [apply same_model_asts; reflexivity|auto]. Qed.
Lemma mute_enforce : forall o matcher params, keeps mute (EnforceWithMatcher o matcher params).
Proof. mb. { intros e. destruct (EnforceEx_frame o matcher params e) as [ev ->]. apply mute_ev. } mr. Qed.
Lemma mute_enforceMap : forall o matcher params, keeps mute (EnforceWithMatcherMap o matcher params).
Proof. mb. { intros e. destruct (EnforceExMap_frame o matcher params e) as [ev ->]. apply mute_ev. } mr. Qed.
Lemma mute_batch : forall o matcher reqs, keeps mute (BatchEnforceWithMatcher o matcher reqs).
Proof.
  induction reqs; simpl. { mr. }
  mb. { apply mute_enforce. } mb; [auto|try mr].
Qed.
Lemma mute_allowed : forall o perm subs, keeps mute (allowed_subjects o perm subs).
Proof.
  induction subs; simpl. { mr. }
  mb. { mr. } intros.
  mb. { mr. } intros.
  mb. { apply mute_enforce. } intros.
  mb; [auto|try mr].
Qed.
Lemma mute_implicit_users : forall o perm, keeps mute (GetImplicitUsersForPermission o perm).
Proof.
  intros. unfold GetImplicitUsersForPermission.
  mb. { apply mute_all_types. } intros.
  mb. { apply mute_all_types. } intros.
  mb. { apply mute_all_types. } intros.
  mb. { apply mute_allowed. } mr.
Qed.
Lemma mute_matching : forall fn, keeps mute (AddNamedMatchingFunc fn).
Proof.
  intros fn. apply mute_of; [apply quiet_matching|]. intros e. unfold AddNamedMatchingFunc. destruct (hget (e_heap e) (e_rm e)); auto.
Qed.

Lemma notify_shape : forall e, exists w, notify e = (set_watcher w e, Ok tt).
Proof.
  intros e. unfold notify. destruct (e_watcher e) eqn:W; [destruct (e_notify e)|]; try (eexists; reflexivity);
    exists (e_watcher e); destruct e; reflexivity.
Qed.

(** ** Steps that did not fail *)
Definition steps {A} (R : enforcer -> enforcer -> Prop) (c : M A) : Prop := forall e e' a, c e = (e', Ok a) -> R e e'.
Lemma steps_keeps : forall A R (c : M A), keeps R c -> steps R c.
Proof. intros A R c K e e' a E. specialize (K e). rewrite E in K. auto. Qed.
Lemma steps_bind : forall A B (R : enforcer -> enforcer -> Prop) (c : M A) (k : A -> M B), (forall a b d, R a b -> R b d -> R a d) ->
  steps R c -> (forall a, steps R (k a)) -> steps R (mbind c k).
Proof.
  intros A B R c k T C K e e' b E. unfold mbind in E. destruct (c e) as [e1 [a|x|u]] eqn:Q; try discriminate. eapply T; [eapply C; eauto|eapply K; eauto].
Qed.
Lemma steps_ret : forall A (R : enforcer -> enforcer -> Prop) (a : A), (forall e, R e e) -> steps R (ret a).
Proof. intros A R a H e e' b E. inversion E; subst. auto. Qed.

(** ** The edits on the model *)
Definition mpol (m : model) : table := fun sec pt r => In r (rules_in m sec pt).
Lemma pair_iff : forall s q sec pt : string, (s, q) = (sec, pt) <-> s = sec /\ q = pt.
Proof. intros. split; [intros H; inversion H; auto|intros [-> ->]; auto]. Qed.
Lemma put_mpol : forall m sec pt a p s q x, mpol (put_policy m sec pt a p) s q x <->
  (s = sec /\ q = pt /\ In x (rules_of p)) \/ (~ (s = sec /\ q = pt) /\ mpol m s q x).
Proof.
  intros. unfold mpol. destruct (pair_dec s q sec pt) as [V|V].
  - apply pair_iff in V. destruct V as [-> ->]. rewrite rules_in_put. tauto.
  - rewrite rules_in_put_other by auto. rewrite pair_iff in V. tauto.
Qed.
Lemma mpol_at : forall m sec pt a, get_ast m sec pt = Ok a -> forall s q x, s = sec -> q = pt -> (mpol m s q x <-> In x (rules_of (a_policy a))).
Proof. intros m sec pt a G s q x -> ->. unfold mpol. rewrite (rules_in_get _ _ _ _ G). tauto. Qed.

Lemma m_add : forall m sec pt r m' b, AddPolicy m sec pt r = Ok (m', b) ->
  if b then does (CAdd sec pt r) (mpol m) (mpol m') /\ differ (mpol m) (mpol m') else m' = m.
Proof.
  intros m sec pt r m' b. unfold AddPolicy. destruct (get_ast m sec pt) as [a| |] eqn:G; try discriminate. cbn [bind].
  destruct (has_rule (rules_of (a_policy a)) r) eqn:H; intros Q; inversion Q; subst; auto.
  assert (D : does (CAdd sec pt r) (mpol m) (mpol (put_policy m sec pt a (emplace (a_policy a) r)))).
  { intros s q x. rewrite put_mpol, emplace_new, in_app_iff by auto. simpl. destruct (pair_dec s q sec pt) as [V|V]; rewrite pair_iff in V.
    - destruct V as [V1 V2]. rewrite (mpol_at m sec pt a G s q x V1 V2). intuition congruence.
    - intuition congruence. }
  split; auto. exists sec, pt, r. right. split.
  - rewrite (mpol_at m sec pt a G) by auto. apply has_rule_not_in. auto.
  - apply D. auto.
Qed.
Lemma m_add_many : forall m sec pt rs m' b, rs <> [] -> AddPolicies m sec pt rs = Ok (m', b) ->
  if b then does (CAddMany sec pt rs) (mpol m) (mpol m') /\ differ (mpol m) (mpol m') else m' = m.
Proof.
  intros m sec pt rs m' b NE. unfold AddPolicies. destruct rs as [|r0 rs0]; [congruence|]. set (rs := r0 :: rs0) in *.
  assert (I0 : In r0 rs) by (simpl; auto). clearbody rs. clear rs0.
  destruct (get_ast m sec pt) as [a| |] eqn:G; try discriminate. cbn [bind].
  destruct (existsb (has_rule (rules_of (a_policy a))) rs) eqn:H; intros Q; inversion Q; subst; auto.
  assert (D : does (CAddMany sec pt rs) (mpol m) (mpol (put_policy m sec pt a (fold_left emplace rs (a_policy a))))).
  { intros s q x. rewrite put_mpol, fold_emplace_in. destruct (pair_dec s q sec pt) as [V|V]; rewrite pair_iff in V.
    - destruct V as [V1 V2]. rewrite (mpol_at m sec pt a G s q x V1 V2). tauto.
    - tauto. }
  split; auto. exists sec, pt, r0. right. split.
  - rewrite (mpol_at m sec pt a G) by auto. apply has_rule_not_in. destruct (has_rule (rules_of (a_policy a)) r0) eqn:Z; auto.
    assert (existsb (has_rule (rules_of (a_policy a))) rs = true); [apply existsb_exists; eauto|congruence].
  - apply D. auto.
Qed.
Lemma in_elt_iff : forall (x r : rule) pre post, In x (pre ++ r :: post) <-> x = r \/ In x (pre ++ post).
Proof. intros. rewrite !in_app_iff. simpl. intuition congruence. Qed.
Lemma m_remove : forall m sec pt r m' b, no_anagram r (rules_in m sec pt) -> NoDup (rules_in m sec pt) ->
  RemovePolicy m sec pt r = Ok (m', b) ->
  if b then does (CRemove sec pt r) (mpol m) (mpol m') /\ differ (mpol m) (mpol m') else m' = m.
Proof.
  intros m sec pt r m' b NA ND. unfold RemovePolicy. destruct (get_ast m sec pt) as [a| |] eqn:G; try discriminate. cbn [bind].
  rewrite (rules_in_get _ _ _ _ G) in *.
  destruct (erase_first r (rules_of (a_policy a))) as [l|] eqn:E; intros Q; inversion Q; subst; auto.
  apply erase_first_some in E. destruct E as [pre [x [post [E1 [E2 [P N]]]]]].
  assert (x = r) by (apply NA; auto; rewrite E1, in_app_iff; simpl; auto). subst x.
  assert (NI : ~ In r (pre ++ post)) by (rewrite E1 in ND; apply NoDup_remove_2 in ND; auto).
  assert (D : does (CRemove sec pt r) (mpol m) (mpol (put_policy m sec pt a (with_rules (a_policy a) l)))).
  { intros s q x. rewrite put_mpol, rules_with, E2. destruct (pair_dec s q sec pt) as [V|V]; rewrite pair_iff in V.
    - destruct V as [V1 V2]. rewrite (mpol_at m sec pt a G s q x V1 V2), E1, in_elt_iff. split.
      + intros [[_ [_ I]]|[X _]]; [|tauto]. split; auto. intros [_ [_ ->]]. auto.
      + intros [[->|I] X]; [tauto|auto].
    - tauto. }
  split; auto. exists sec, pt, r. left. split.
  - rewrite (mpol_at m sec pt a G) by auto. rewrite E1, in_app_iff. simpl. auto.
  - intros C. apply D in C. tauto.
Qed.
Lemma m_remove_filtered : forall m sec pt i vals m' b eff, RemoveFilteredPolicy m sec pt i vals = Ok (m', (b, eff)) ->
  if b then does (CRemoveFiltered sec pt i vals) (mpol m) (mpol m') /\ differ (mpol m) (mpol m') else forall s q x, mpol m' s q x <-> mpol m s q x.
Proof.
  intros m sec pt i vals m' b eff. unfold RemoveFilteredPolicy. destruct (get_ast m sec pt) as [a| |] eqn:G; try discriminate. cbn [bind].
  destruct (partition_rules i vals (rules_of (a_policy a))) as [[l tmp]| |] eqn:P; try discriminate. cbn [bind].
  apply partition_rules_spec in P. destruct P as [S1 S2].
  assert (D : does (CRemoveFiltered sec pt i vals) (mpol m) (mpol (put_policy m sec pt a (Vec tmp)))).
  { intros s q x. rewrite put_mpol. cbn [rules_of]. rewrite (selects_in _ _ _ x S2). destruct (pair_dec s q sec pt) as [V|V]; rewrite pair_iff in V.
    - destruct V as [V1 V2]. rewrite (mpol_at m sec pt a G s q x V1 V2). tauto.
    - tauto. }
  intros Q. destruct l as [|l0 ls]; inversion Q; subst.
  - intros s q x. rewrite put_mpol. cbn [rules_of]. rewrite (selects_in _ _ _ x S2). destruct (pair_dec s q sec pt) as [V|V]; rewrite pair_iff in V.
    + destruct V as [V1 V2]. rewrite (mpol_at m sec pt a G s q x V1 V2). pose proof (selects_in _ _ _ x S1) as Z. simpl in Z. tauto.
    + tauto.
  - split; auto. exists sec, pt, l0. left. pose proof (proj1 (selects_in _ _ _ l0 S1) (or_introl eq_refl)) as [Z1 Z2]. split.
    + rewrite (mpol_at m sec pt a G) by auto. auto.
    + intros C. apply D in C. tauto.
Qed.

(** ** The log mirrors the policy *)
Section Mirror.
  Variable rules : rule -> Prop.
  Hypothesis rules_apart : forall r r', rules r -> rules r' -> Permutation r r' -> r = r'.

  Definition guard (e : enforcer) : Prop :=
    (exists u, e_adapter e = Some (AUser u) /\ ua_batch u = true) /\ e_auto_save e = true /\ all_distinct e /\
    forall sec pt r, In r (stored e sec pt) -> rules r.
  Definition mirrors (e e' : enforcer) : Prop :=
    guard e -> guard e' /\ exists log, told e' = told e ++ log /\ replay log (policy e) (policy e').
  Lemma replay_ext : forall log T T1 T', (forall s q x, T1 s q x <-> T s q x) -> replay log T1 T' -> replay log T T'.
  Proof.
    intros log T T1 T' H R. destruct R as [A B C|c log A B C D F R].
    - apply replay_nil. intros. rewrite C. auto.
    - apply replay_step with B; auto.
      + destruct c; simpl in *; intros; rewrite D, H; tauto.
      + destruct F as [s [q [x F]]]. exists s, q, x. rewrite H in F. auto.
  Qed.
  Lemma replay_app : forall l1 l2 T1 T2 T3, replay l1 T1 T2 -> replay l2 T2 T3 -> replay (l1 ++ l2) T1 T3.
  Proof.
    intros l1 l2 T1 T2 T3 R. induction R; simpl; intros R2.
    - eapply replay_ext; eauto.
    - eapply replay_step; eauto.
  Qed.
  Lemma mirrors_refl : forall e, mirrors e e.
  Proof. intros e G. split; auto. exists []. rewrite app_nil_r. split; auto. apply replay_nil. tauto. Qed.
  Lemma mirrors_trans : forall a b c, mirrors a b -> mirrors b c -> mirrors a c.
  Proof.
    intros a b c H1 H2 G. destruct (H1 G) as [G1 [l1 [E1 R1]]]. destruct (H2 G1) as [G2 [l2 [E2 R2]]]. split; auto.
    exists (l1 ++ l2). rewrite E2, E1, app_assoc. split; auto. eapply replay_app; eauto.
  Qed.
  Lemma mute_mirrors : forall e e', mute e e' -> mirrors e e'.
  Proof.
    intros e e' [S [A [B [W N]]]] [[u [U1 U2]] [G2 [G3 G4]]].
    assert (ST : forall sec pt, stored e' sec pt = stored e sec pt) by (intros; apply same_asts_stored; auto).
    split.
    - split; [exists u; rewrite A; auto|]. split; [congruence|]. split.
      + intros sec pt. rewrite ST. auto.
      + intros sec pt. rewrite ST. apply G4.
    - exists []. rewrite app_nil_r. unfold told. rewrite A. split; auto. apply replay_nil. intros. unfold policy. rewrite ST. tauto.
  Qed.
  Lemma steps_mute : forall A (c : M A), keeps mute c -> steps mirrors c.
  Proof. intros A c K. apply steps_keeps. intros e. apply mute_mirrors, K. Qed.
  Lemma steps_mb : forall A B (c : M A) (k : A -> M B), steps mirrors c -> (forall a, steps mirrors (k a)) -> steps mirrors (mbind c k).
  Proof. intros. apply steps_bind; auto. exact mirrors_trans. Qed.
  Lemma steps_mr : forall A (a : A), steps mirrors (ret a).
  Proof. intros. apply steps_ret. exact mirrors_refl. Qed.

  Lemma block : forall A (f : model -> res (model * A)) (g : A -> bool) (k : A -> M unit) ac,
    (forall a, keeps mute (k a)) ->
    (forall e m a, guard e -> f (e_model e) = Ok (m, a) -> all_distinct (set_model m e) /\ (forall sec pt r, In r (rules_in m sec pt) -> rules r) /\
       if g a then does ac (mpol (e_model e)) (mpol m) /\ differ (mpol (e_model e)) (mpol m) else forall s q x, mpol m s q x <-> mpol (e_model e) s q x) ->
    steps mirrors (mbind (on_model f) (fun a => if negb (g a) then ret false else k a ;;; autosave ac ;;; notify ;;; ret true)).
  Proof.
    intros A f g k ac K F e e' b E G. unfold mbind at 1, on_model in E.
    destruct (f (e_model e)) as [[m a]|x|u] eqn:Q; try discriminate. destruct (F e m a G Q) as [D [RL EF]].
    assert (G1 : guard (set_model m e)). { destruct G as [G1 [G2 [G3 G4]]]. split; [exact G1|]. split; [exact G2|]. split; [exact D|exact RL]. }
    destruct (g a); cbn [negb] in E.
    - unfold mbind in E. pose proof (K a (set_model m e)) as KA. destruct (k a (set_model m e)) as [e1 [v|x|u]]; try discriminate. cbn [fst] in KA.
      pose proof KA as KA0. destruct KA as [SA [A1 [A2 [W N]]]]. destruct (mute_mirrors _ _ KA0 G1) as [G2 _].
      destruct G2 as [[u [U1 U2]] [GA [GD GR]]].
      unfold autosave in E. rewrite U1, GA in E. unfold adapter_call in E. rewrite U2 in E. rewrite andb_false_r in E.
      set (u' := mkUA true (ua_filtered u) (ua_valid u) (ua_resp u) (ua_load u) (ua_save u) (ua_log u ++ [ac])) in *.
      assert (E2 : exists w, e' = set_watcher w (set_adapter (Some (AUser u')) e1)).
      { destruct (notify_shape (set_adapter (Some (AUser u')) e1)) as [w NW]. exists w.
        destruct (ua_resp u (ua_log u) ac) as [[]|]; try discriminate; rewrite NW in E; inversion E; auto. }
      destruct E2 as [w ->].
      assert (ST : forall sec pt, stored e1 sec pt = rules_in m sec pt) by (intros; rewrite (same_asts_stored _ _ _ _ SA); reflexivity).
      split.
      + split; [exists u'; split; reflexivity|]. split; [exact GA|]. split; [exact GD|exact GR].
      + exists [ac]. unfold told at 1. cbn [set_watcher set_adapter e_adapter u' ua_log]. unfold told.
        cbn [set_model e_adapter] in A1. rewrite <- A1, U1. split; auto. destruct EF as [EF1 EF2].
        apply replay_step with (mpol m); auto. apply replay_nil. intros s q x. unfold policy. change (stored (set_watcher w (set_adapter (Some (AUser u')) e1)) s q) with (stored e1 s q).
        rewrite ST. unfold mpol. tauto.
    - inversion E; subst. split; auto. exists []. rewrite app_nil_r. split; auto. apply replay_nil. exact EF.
  Qed.
  Lemma tail_mute : forall sec pt op rs, keeps mute (when_g sec (e_BuildIncrementalRoleLinks op pt rs)).
  Proof. intros. apply keeps_when; [exact mute_refl|]. intros. apply mute_incremental. Qed.
  Lemma still_rules : forall c (T T' : table), (forall s q x, T s q x -> rules x) -> does c T T' ->
    match c with CAdd _ _ r => rules r | CAddMany _ _ rs => Forall rules rs | _ => True end -> forall s q x, T' s q x -> rules x.
  Proof.
    intros c T T' H D R s q x X. destruct c; simpl in D; apply D in X.
    - destruct X as [X|[_ [_ ->]]]; eauto.
    - destruct X; eauto.
    - destruct X; eauto.
    - destruct X as [X|[_ [_ X]]]; eauto. rewrite Forall_forall in R. auto.
    - destruct X; eauto.
  Qed.
  Lemma steps_add : forall sec pt r, rules r -> steps mirrors (i_addPolicy sec pt r).
  Proof.
    intros sec pt r HR. apply (block bool (fun m => AddPolicy m sec pt r) (fun b => b) (fun _ => when_g sec (e_BuildIncrementalRoleLinks policy_add pt [r]))); [intros; apply tail_mute|].
    intros e m a G Q. destruct G as [_ [_ [GD GR]]]. pose proof (m_add _ _ _ _ _ _ Q) as X.
    split; [pose proof (distinct_add sec pt r e) as Z; unfold on_model in Z; rewrite Q in Z; apply Z; auto|]. destruct a; [|subst; split; [exact GR|tauto]].
    split; auto. intros s q x I. eapply (still_rules (CAdd sec pt r)); [|apply X|exact HR|exact I]. exact GR.
  Qed.
  Lemma steps_add_many : forall sec pt rs, rs <> [] -> NoDup rs -> Forall rules rs -> steps mirrors (i_addPolicies sec pt rs).
  Proof.
    intros sec pt rs NE ND HR. apply (block bool (fun m => AddPolicies m sec pt rs) (fun b => b) (fun _ => when_g sec (e_BuildIncrementalRoleLinks policy_add pt rs))); [intros; apply tail_mute|].
    intros e m a G Q. destruct G as [_ [_ [GD GR]]]. pose proof (m_add_many _ _ _ _ _ _ NE Q) as X.
    split; [pose proof (distinct_add_many sec pt rs ND e) as Z; unfold on_model in Z; rewrite Q in Z; apply Z; auto|]. destruct a; [|subst; split; [exact GR|tauto]].
    split; auto. intros s q x I. eapply (still_rules (CAddMany sec pt rs)); [|apply X|exact HR|exact I]. exact GR.
  Qed.
  Lemma steps_remove : forall sec pt r, rules r -> steps mirrors (i_removePolicy sec pt r).
  Proof.
    intros sec pt r HR. apply (block bool (fun m => RemovePolicy m sec pt r) (fun b => b) (fun _ => when_g sec (e_BuildIncrementalRoleLinks policy_add pt [r]))); [intros; apply tail_mute|].
    intros e m a G Q. destruct G as [_ [_ [GD GR]]]. assert (NA : no_anagram r (rules_in (e_model e) sec pt)).
    { intros x I P. symmetry. apply rules_apart; auto. eapply GR; eauto. }
    pose proof (m_remove _ _ _ _ _ _ NA (GD sec pt) Q) as X.
    split; [pose proof (distinct_remove sec pt r e) as Z; unfold on_model in Z; rewrite Q in Z; apply Z; auto|]. destruct a; [|subst; split; [exact GR|tauto]].
    split; auto. intros s q x I. eapply (still_rules (CRemove sec pt r)); [|apply X|exact Logic.I|exact I]. exact GR.
  Qed.
  Lemma steps_remove_filtered : forall sec pt i vals, steps mirrors (i_removeFilteredPolicy sec pt i vals).
  Proof.
    intros sec pt i vals.
    assert (B : steps mirrors (mbind (on_model (fun m => RemoveFilteredPolicy m sec pt i vals)) (fun a => if negb (fst a) then ret false else
      when_g sec (e_BuildIncrementalRoleLinks policy_remove pt (snd a)) ;;; autosave (CRemoveFiltered sec pt i vals) ;;; notify ;;; ret true))).
    { apply (block (bool * list rule)); [intros; apply tail_mute|].
      intros e m [b eff] G Q. destruct G as [_ [_ [GD GR]]]. pose proof (m_remove_filtered _ _ _ _ _ _ _ _ Q) as X. cbn [fst].
      split; [pose proof (distinct_remove_filtered sec pt i vals e) as Z; unfold on_model in Z; rewrite Q in Z; apply Z; auto|]. split.
      - intros s q x I. destruct b; [eapply (still_rules (CRemoveFiltered sec pt i vals)); [|apply X|exact Logic.I|exact I]; exact GR|]. apply X in I. eapply GR; eauto.
      - exact X. }
    intros e e' a E. apply (B e e' a). rewrite <- E. unfold i_removeFilteredPolicy, mbind, on_model. destruct (RemoveFilteredPolicy (e_model e) sec pt i vals) as [[m [b eff]]|x|u]; reflexivity.
  Qed.
  Lemma steps_drop : forall A (c : M A), steps mirrors c -> steps mirrors (drop_value c).
  Proof. intros. apply steps_mb; auto. intros. apply steps_mr. Qed.
  Lemma steps_add_grouping : forall pt r, rules r -> steps mirrors (AddNamedGroupingPolicy pt r).
  Proof.
    intros. apply steps_mb. { apply steps_add; auto. } intros. apply steps_mb. { apply steps_mute, mute_links_if. } intros. apply steps_mr.
  Qed.
  Lemma steps_remove_filtered_grouping : forall pt i vals, steps mirrors (RemoveFilteredNamedGroupingPolicy pt i vals).
  Proof.
    intros. apply steps_mb. { apply steps_remove_filtered. } intros. apply steps_mb. { apply steps_mute, mute_rebuild_if. } intros. apply steps_mr.
  Qed.
  Lemma steps_add_roles : forall user roles f, Forall (fun r => rules [user; r]) roles -> steps mirrors (add_roles user roles f).
  Proof.
    induction roles as [|r rs IH]; intros f F. { apply steps_mr. } inversion F; subst. cbn [add_roles]. apply steps_mb. { apply steps_add_grouping. auto. } intros. apply IH; auto.
  Qed.
  Lemma mirrors_same : forall e e', e_model e' = e_model e -> e_adapter e' = e_adapter e -> e_auto_save e' = true -> mirrors e e'.
  Proof.
    intros e e' M A S G. assert (ST : forall sec pt, stored e' sec pt = stored e sec pt) by (intros; apply stored_model; auto).
    destruct G as [[u [U1 U2]] [G2 [G3 G4]]]. split.
    - split; [exists u; rewrite A; auto|]. split; auto. split; intros sec pt; rewrite ST; [auto|apply G4].
    - exists []. rewrite app_nil_r. unfold told. rewrite A. split; auto. apply replay_nil. intros. unfold policy. rewrite ST. tauto.
  Qed.
  Lemma mirrors_same2 : forall e e', e_model e' = e_model e -> e_adapter e' = e_adapter e -> e_auto_save e' = e_auto_save e -> mirrors e e'.
  Proof. intros e e' M A S G. apply mirrors_same; auto. rewrite S. apply G. Qed.
  Lemma steps_save : steps mirrors SavePolicy.
  Proof.
    intros e e' a E G. pose proof G as G0. destruct G as [[u [U1 U2]] _]. unfold SavePolicy, IsFiltered, mbind in E. rewrite U1 in E.
    destruct (adapter_filtered (AUser u)); [discriminate|]. unfold adapter_save in E. rewrite U1 in E. destruct (ua_save u (ua_log u)); [discriminate|].
    unfold notify_always in E. destruct (e_watcher e); inversion E; subst; [|apply mirrors_refl; auto]. apply mirrors_same2 with (e := e); auto.
  Qed.
  Lemma run_mirrors : forall o c, forwarded rules c -> steps mirrors (run o c).
  Proof.
    intros o c F. destruct c; cbn [forwarded] in F; try (destruct F; fail); cbn [run]; try apply steps_drop.
    all: try (intros e e' a E; inversion E; subst; apply mirrors_same2; reflexivity).
    - apply steps_add; auto.
    - apply steps_add_many; tauto.
    - apply steps_remove; auto.
    - apply steps_remove_filtered.
    - apply steps_add_grouping; auto.
    - apply steps_add_many; tauto.
    - apply steps_mb. { apply steps_remove; auto. } intros. apply steps_mb. { apply steps_mute, mute_rebuild_if. } intros. apply steps_mr.
    - apply steps_remove_filtered_grouping.
    - apply steps_add_roles; auto.
    - apply steps_mb. { apply steps_remove_filtered_grouping. } intros. apply steps_mb. { apply steps_remove_filtered. } intros. apply steps_mr.
    - apply steps_mb. { apply steps_remove_filtered_grouping. } intros. apply steps_mb. { apply steps_remove_filtered. } intros. apply steps_mr.
    - apply steps_mute, mute_all_types.
    - apply steps_mute, mute_GetRolesForUser.
    - apply steps_mute, mute_implicit_roles.
    - apply steps_mute, mute_implicit_perms.
    - apply steps_mute, mute_implicit_users.
    - apply steps_mute, mute_enforce.
    - apply steps_mute, mute_enforceMap.
    - apply steps_mute, mute_batch.
    - apply steps_save.
    - apply steps_mute, mute_rebuild.
    - subst. intros e e' a E; inversion E; subst; apply mirrors_same; reflexivity.
    - apply steps_mute, mute_matching.
  Qed.
  Lemma succeeds_mirrors : forall o cs e e', Forall (forwarded rules) cs -> succeeds o e cs e' -> mirrors e e'.
  Proof.
    intros o cs e e' F H. induction H; [apply mirrors_refl|]. inversion F; subst. eapply mirrors_trans; [eapply run_mirrors; eauto|auto].
  Qed.
End Mirror.

(** ** The watcher *)
Definition no_word (e e' : enforcer) : Prop := e_watcher e' = e_watcher e /\ e_notify e' = e_notify e.
Lemma no_word_trans : forall a b c, no_word a b -> no_word b c -> no_word a c.
Proof. unfold no_word. intuition congruence. Qed.
Lemma no_word_refl : forall a, no_word a a.
Proof. unfold no_word. auto. Qed.
Lemma no_word_mute : forall A (c : M A), keeps mute c -> keeps no_word c.
Proof. intros A c K e. destruct (K e) as [_ [_ [_ H]]]. exact H. Qed.
Lemma no_word_autosave : forall c, keeps no_word (autosave c).
Proof. intros c e. destruct (autosave_core c e) as [[_ [_ [_ [_ [_ [_ [_ [_ N]]]]]]]] W]. split; auto. Qed.

Definition word (e e1 : enforcer) (k : nat) : Prop :=
  e_notify e1 = e_notify e /\ e_watcher e1 = option_map (Nat.add k) (e_watcher e).
Definition tells (f : M bool) : Prop := forall e, exists k,
  word e (fst (f e)) k /\ (snd (f e) = Ok true -> k = if e_notify e then 1 else 0) /\ (snd (f e) = Ok false -> k = 0) /\
  k <= 1 /\ (e_notify e = false -> k = 0).
Lemma word_0 : forall e e1, no_word e e1 -> word e e1 0.
Proof. intros e e1 [W N]. split; auto. rewrite W. destruct (e_watcher e); auto. Qed.
Lemma tells_block : forall A (f : model -> res (model * A)) (g : A -> bool) (mid : A -> M unit),
  (forall a, keeps no_word (mid a)) -> tells (mbind (on_model f) (fun a => if negb (g a) then ret false else mid a ;;; notify ;;; ret true)).
Proof.
  intros A f g mid K e. match goal with |- context [fst (?p e)] => remember (p e) as q eqn:Q end. unfold mbind at 1, on_model in Q. revert Q. destruct (f (e_model e)) as [[m a]|x|u].
  2, 3: intros ->; exists 0; (split; [apply word_0, no_word_refl|]); cbn [fst snd ret]; split; [|split; [|split]]; intros; try discriminate; auto; try lia.
  destruct (g a); cbn [negb].
  2: intros ->; exists 0; (split; [apply word_0; split; reflexivity|]); cbn [fst snd ret]; split; [|split; [|split]]; intros; try discriminate; auto; try lia.
  unfold mbind. pose proof (K a (set_model m e)) as KA. destruct (mid a (set_model m e)) as [e1 [v|x|u]]; cbn [fst] in KA.
  2, 3: intros ->; exists 0; (split; [apply word_0; exact KA|]); cbn [fst snd ret]; split; [|split; [|split]]; intros; try discriminate; auto; try lia.
  destruct KA as [W N]. cbn in W, N. unfold notify. rewrite W, N. intros Q. exists (if e_notify e then 1 else 0).
  destruct (e_watcher e) as [n|] eqn:EW; [destruct (e_notify e) eqn:EN|]; subst q; cbn [fst snd ret].
  - split; [split; cbn; rewrite ?W, ?N, ?EW, ?EN; auto|]. split; [|split; [|split]]; intros; try discriminate; auto.
  - split; [split; cbn; rewrite ?W, ?N, ?EW, ?EN; auto|]. split; [|split; [|split]]; intros; try discriminate; auto.
  - split; [split; cbn; rewrite ?W, ?N, ?EW; auto|]. split; [|split; [|split]]; auto; [discriminate|destruct (e_notify e); auto|intros X; rewrite X; auto].
Qed.
Lemma tells_after : forall (f : M bool) (t : M unit), tells f -> keeps no_word t -> tells (b <- f ;; t ;;; ret b).
Proof.
  intros f t T K e. destruct (T e) as [k [W [H1 [H2 [H3 H4]]]]]. exists k. unfold mbind.
  destruct (f e) as [e1 [b|x|u]]; cbn [fst snd] in *; [|split; [exact W|split; [|split; [|split]]; intros; try discriminate; auto; try lia]..].
  specialize (K e1). destruct (t e1) as [e2 [v|x|u]]; cbn [fst snd ret] in *; destruct K as [K1 K2]; destruct W as [W1 W2];
    (split; [split; congruence|]); (split; [|split; [|split]]); intros; try discriminate; auto.
Qed.
Lemma tells_ext : forall f g : M bool, (forall e, g e = f e) -> tells f -> tells g.
Proof. intros f g H T e. rewrite H. apply T. Qed.
Lemma mid_ok : forall sec pt op rs c, keeps no_word (when_g sec (e_BuildIncrementalRoleLinks op pt rs) ;;; autosave c).
Proof. intros. apply keeps_bind; [exact no_word_trans|apply no_word_mute, tail_mute|intros; apply no_word_autosave]. Qed.
Lemma mid_ok2 : forall sec pt olds news, keeps no_word (when_g sec (e_BuildIncrementalRoleLinks policy_remove pt olds ;;; e_BuildIncrementalRoleLinks policy_add pt news)).
Proof.
  intros. apply keeps_when; [exact no_word_refl|]. intros _. apply keeps_bind; [exact no_word_trans|apply no_word_mute, mute_incremental|intros; apply no_word_mute, mute_incremental].
Qed.
Ltac assoc := intros; unfold mbind; repeat (match goal with |- context [match ?x with _ => _ end] => destruct x end; auto).
Lemma tells_add : forall sec pt r, tells (i_addPolicy sec pt r).
Proof.
  intros. eapply tells_ext; [|apply (tells_block bool (fun m => AddPolicy m sec pt r) (fun b => b) (fun _ => when_g sec (e_BuildIncrementalRoleLinks policy_add pt [r]) ;;; autosave (CAdd sec pt r))); intros; apply mid_ok].
  intros e. unfold i_addPolicy, mbind. destruct (on_model _ e) as [e1 [b|x|u]]; auto. destruct b; auto. cbn [negb]. destruct (when_g _ _ e1) as [e2 [v|x|u]]; auto.
Qed.
Lemma tells_add_many : forall sec pt r, tells (i_addPolicies sec pt r).
Proof.
  intros. eapply tells_ext; [|apply (tells_block bool (fun m => AddPolicies m sec pt r) (fun b => b) (fun _ => when_g sec (e_BuildIncrementalRoleLinks policy_add pt r) ;;; autosave (CAddMany sec pt r))); intros; apply mid_ok].
  intros e. unfold i_addPolicies, mbind. destruct (on_model _ e) as [e1 [b|x|u]]; auto. destruct b; auto. cbn [negb]. destruct (when_g _ _ e1) as [e2 [v|x|u]]; auto.
Qed.
Lemma tells_remove : forall sec pt r, tells (i_removePolicy sec pt r).
Proof.
  intros. eapply tells_ext; [|apply (tells_block bool (fun m => RemovePolicy m sec pt r) (fun b => b) (fun _ => when_g sec (e_BuildIncrementalRoleLinks policy_add pt [r]) ;;; autosave (CRemove sec pt r))); intros; apply mid_ok].
  intros e. unfold i_removePolicy, mbind. destruct (on_model _ e) as [e1 [b|x|u]]; auto. destruct b; auto. cbn [negb]. destruct (when_g _ _ e1) as [e2 [v|x|u]]; auto.
Qed.
Lemma tells_remove_many : forall sec pt r, tells (i_removePolicies sec pt r).
Proof.
  intros. eapply tells_ext; [|apply (tells_block bool (fun m => AddPolicies m sec pt r) (fun b => b) (fun _ => when_g sec (e_BuildIncrementalRoleLinks policy_add pt r) ;;; autosave (CRemoveMany sec pt r))); intros; apply mid_ok].
  intros e. unfold i_removePolicies, mbind. destruct (on_model _ e) as [e1 [b|x|u]]; auto. destruct b; auto. cbn [negb]. destruct (when_g _ _ e1) as [e2 [v|x|u]]; auto.
Qed.
Lemma tells_remove_filtered : forall sec pt i vals, tells (i_removeFilteredPolicy sec pt i vals).
Proof.
  intros. eapply tells_ext; [|apply (tells_block (bool * list rule) (fun m => RemoveFilteredPolicy m sec pt i vals) fst (fun a => when_g sec (e_BuildIncrementalRoleLinks policy_remove pt (snd a)) ;;; autosave (CRemoveFiltered sec pt i vals))); intros; apply mid_ok].
  intros e. unfold i_removeFilteredPolicy, mbind. destruct (on_model _ e) as [e1 [[b eff]|x|u]]; auto. destruct b; auto. cbn [negb fst snd]. destruct (when_g _ _ e1) as [e2 [v|x|u]]; auto.
Qed.
Lemma tells_update : forall sec pt old new, tells (i_updatePolicy sec pt old new).
Proof.
  intros. apply (tells_block bool (fun m => UpdatePolicy m sec pt old new) (fun b => b)); intros; apply mid_ok2.
Qed.
Lemma tells_update_many : forall sec pt old new, tells (i_updatePolicies sec pt old new).
Proof.
  intros. apply (tells_block bool (fun m => UpdatePolicies m sec pt old new) (fun b => b)); intros; apply mid_ok2.
Qed.
Lemma changes_tells : forall f, changes f -> tells f.
Proof.
  intros f C. destruct C.
  - apply tells_add.
  - apply tells_add_many.
  - apply tells_remove.
  - apply tells_remove_many.
  - apply tells_remove_filtered.
  - apply tells_update.
  - apply tells_update_many.
  - apply tells_after; [apply tells_add|apply no_word_mute, mute_links_if].
  - apply tells_add_many.
  - apply tells_after; [apply tells_remove|apply no_word_mute, mute_rebuild_if].
  - apply tells_remove_many.
  - apply tells_after; [apply tells_remove_filtered|apply no_word_mute, mute_rebuild_if].
  - apply tells_update.
Qed.

(** ** An answer of true means a change *)
Definition honest (rules : rule -> Prop) (f : M bool) : Prop := forall e e' b, all_distinct e -> (forall sec pt r, In r (stored e sec pt) -> rules r) ->
  f e = (e', Ok b) -> (b = true <-> differ (policy e) (policy e')).
Lemma same_not_differ : forall T T' : table, (forall s q x, T' s q x <-> T s q x) -> ~ differ T T'.
Proof. intros T T' H [s [q [x [[A B]|[A B]]]]]; apply H in B || (apply B, H); auto. Qed.
Lemma differ_ext : forall T T1 T' : table, (forall s q x, T' s q x <-> T1 s q x) -> (differ T T' <-> differ T T1).
Proof.
  intros T T1 T' H. split; intros [s [q [x D]]]; exists s, q, x; specialize (H s q x); tauto.
Qed.
Lemma honest_block : forall (rules : rule -> Prop) A (f : model -> res (model * A)) (g : A -> bool) (t : A -> M bool),
  (forall a, keeps same_asts (t a)) -> (forall a e b, snd (t a e) = Ok b -> b = true) ->
  (forall e m a, all_distinct e -> (forall sec pt r, In r (stored e sec pt) -> rules r) -> f (e_model e) = Ok (m, a) ->
     if g a then differ (mpol (e_model e)) (mpol m) else forall s q x, mpol m s q x <-> mpol (e_model e) s q x) ->
  honest rules (mbind (on_model f) (fun a => if negb (g a) then ret false else t a)).
Proof.
  intros rules A f g t K TR F e e' b D RL E. unfold mbind, on_model in E. destruct (f (e_model e)) as [[m a]|x|u] eqn:Q; try discriminate.
  specialize (F e m a D RL Q). destruct (g a); cbn [negb] in E.
  - assert (b = true) by (apply (TR a (set_model m e)); rewrite E; auto). subst. split; auto. intros _.
    pose proof (K a (set_model m e)) as KA. rewrite E in KA. cbn [fst] in KA.
    apply (differ_ext _ (mpol m)); auto. intros s q x. unfold policy. rewrite (same_asts_stored _ _ _ _ KA). tauto.
  - inversion E; subst. split; [discriminate|]. intros X. exfalso. revert X. apply same_not_differ. exact F.
Qed.
Lemma honest_after : forall rules (f : M bool) (t : M unit), honest rules f -> keeps same_asts t -> honest rules (b <- f ;; t ;;; ret b).
Proof.
  intros rules f t H K e e' b D RL E. unfold mbind in E. destruct (f e) as [e1 [b1|x|u]] eqn:Q; try discriminate. specialize (K e1).
  destruct (t e1) as [e2 [v|x|u]]; try discriminate. inversion E; subst. rewrite (H e e1 b D RL Q). cbn [fst] in K.
  symmetry. apply differ_ext. intros s q x. unfold policy. rewrite (same_asts_stored _ _ _ _ K). tauto.
Qed.
Section Honest.
  Variable rules : rule -> Prop.
  Hypothesis rules_apart : forall r r', rules r -> rules r' -> Permutation r r' -> r = r'.
  Lemma tail_true' : forall sec pt op rs c e b,
    snd ((when_g sec (e_BuildIncrementalRoleLinks op pt rs) ;;; autosave c ;;; notify ;;; ret true) e) = Ok b -> b = true.
  Proof.
    intros sec pt op rs c e b. unfold mbind at 1. destruct (when_g sec (e_BuildIncrementalRoleLinks op pt rs) e) as [e1 [u|x|u]]; simpl; try discriminate.
    apply tail_out_inv.
  Qed.
  Ltac hb := apply honest_block; [intros; apply keeps_tail; [exact same_asts_refl|exact same_asts_trans|auto]|intros; eapply tail_true'; eauto|].
  Lemma honest_add : forall sec pt r, honest rules (i_addPolicy sec pt r).
  Proof.
    intros. unfold i_addPolicy. apply (honest_block rules bool (fun m => AddPolicy m sec pt r) (fun b => b)); [intros; apply keeps_tail; [exact same_asts_refl|exact same_asts_trans|auto]|intros; eapply tail_true'; eauto|].
    intros e m a _ _ Q. pose proof (m_add _ _ _ _ _ _ Q) as X. destruct a; [tauto|subst; tauto].
  Qed.
  Lemma honest_add_many : forall sec pt rs, rs <> [] -> honest rules (i_addPolicies sec pt rs).
  Proof.
    intros sec pt rs NE. unfold i_addPolicies. apply (honest_block rules bool (fun m => AddPolicies m sec pt rs) (fun b => b)); [intros; apply keeps_tail; [exact same_asts_refl|exact same_asts_trans|auto]|intros; eapply tail_true'; eauto|].
    intros e m a _ _ Q. pose proof (m_add_many _ _ _ _ _ _ NE Q) as X. destruct a; [tauto|subst; tauto].
  Qed.
  Lemma honest_remove : forall sec pt r, rules r -> honest rules (i_removePolicy sec pt r).
  Proof.
    intros sec pt r HR. unfold i_removePolicy. apply (honest_block rules bool (fun m => RemovePolicy m sec pt r) (fun b => b)); [intros; apply keeps_tail; [exact same_asts_refl|exact same_asts_trans|auto]|intros; eapply tail_true'; eauto|].
    intros e m a GD GR Q. assert (NA : no_anagram r (rules_in (e_model e) sec pt)).
    { intros x I P. symmetry. apply rules_apart; auto. eapply GR; eauto. }
    pose proof (m_remove _ _ _ _ _ _ NA (GD sec pt) Q) as X. destruct a; [tauto|subst; tauto].
  Qed.
  Lemma honest_remove_filtered : forall sec pt i vals, honest rules (i_removeFilteredPolicy sec pt i vals).
  Proof.
    intros sec pt i vals.
    assert (H : honest rules (mbind (on_model (fun m => RemoveFilteredPolicy m sec pt i vals)) (fun a => if negb (fst a) then ret false else
      when_g sec (e_BuildIncrementalRoleLinks policy_remove pt (snd a)) ;;; autosave (CRemoveFiltered sec pt i vals) ;;; notify ;;; ret true))).
    { apply (honest_block rules (bool * list rule)); [intros; apply keeps_tail; [exact same_asts_refl|exact same_asts_trans|auto]|intros; eapply tail_true'; eauto|].
      intros e m [b eff] GD GR Q. pose proof (m_remove_filtered _ _ _ _ _ _ _ _ Q) as X. destruct b; cbn [fst]; tauto. }
    intros e e' b D R E. apply (H e e' b D R). rewrite <- E. unfold i_removeFilteredPolicy, mbind, on_model. destruct (RemoveFilteredPolicy (e_model e) sec pt i vals) as [[m [b' eff]]|x|u]; reflexivity.
  Qed.
End Honest.

(** ** The adapter hears the call that was made *)
Definition hears (c : acall) (f : M bool) : Prop := forall e u e' b, e_adapter e = Some (AUser u) -> e_auto_save e = true -> f e = (e', Ok b) ->
  exists u', e_adapter e' = Some (AUser u') /\ ua_log u' = ua_log u ++ if b then [c] else [].
Lemma hears_block : forall A (f : model -> res (model * A)) (g : A -> bool) (k : A -> M unit) ac, (forall a, keeps mute (k a)) ->
  hears ac (mbind (on_model f) (fun a => if negb (g a) then ret false else k a ;;; autosave ac ;;; notify ;;; ret true)).
Proof.
  intros A f g k ac K e u e' b U S E. unfold mbind at 1, on_model in E. destruct (f (e_model e)) as [[m a]|x|z]; try discriminate.
  destruct (g a); cbn [negb] in E; [|inversion E; subst; exists u; rewrite app_nil_r; auto].
  unfold mbind in E. pose proof (K a (set_model m e)) as KA. destruct (k a (set_model m e)) as [e1 [v|x|z]]; try discriminate. cbn [fst] in KA.
  destruct KA as [_ [A1 [A2 _]]]. cbn in A1, A2. unfold autosave in E. rewrite A1, U, A2, S in E. unfold adapter_call in E.
  destruct (is_batch_call ac && negb (ua_batch u)); [discriminate|].
  set (u' := mkUA (ua_batch u) (ua_filtered u) (ua_valid u) (ua_resp u) (ua_load u) (ua_save u) (ua_log u ++ [ac])) in *.
  destruct (notify_shape (set_adapter (Some (AUser u')) e1)) as [w NW]. exists u'.
  destruct (ua_resp u (ua_log u) ac) as [[]|]; try discriminate; rewrite NW in E; inversion E; auto.
Qed.
Lemma hears_after : forall c (f : M bool) (t : M unit), hears c f -> keeps mute t -> hears c (b <- f ;; t ;;; ret b).
Proof.
  intros c f t H K e u e' b U S E. unfold mbind in E. destruct (f e) as [e1 [b1|x|z]] eqn:Q; try discriminate. specialize (K e1).
  destruct (t e1) as [e2 [v|x|z]]; try discriminate. inversion E; subst. destruct (H e u e1 b U S Q) as [u' [U1 U2]]. exists u'. split; auto.
  destruct K as [_ [A _]]. cbn [fst] in A. congruence.
Qed.
Lemma hears_add : forall sec pt r, hears (CAdd sec pt r) (i_addPolicy sec pt r).
Proof. intros. apply (hears_block bool (fun m => AddPolicy m sec pt r) (fun b => b) (fun _ => when_g sec (e_BuildIncrementalRoleLinks policy_add pt [r]))). intros; apply tail_mute. Qed.
Lemma hears_add_many : forall sec pt rs, hears (CAddMany sec pt rs) (i_addPolicies sec pt rs).
Proof. intros. apply (hears_block bool (fun m => AddPolicies m sec pt rs) (fun b => b) (fun _ => when_g sec (e_BuildIncrementalRoleLinks policy_add pt rs))). intros; apply tail_mute. Qed.
Lemma hears_remove : forall sec pt r, hears (CRemove sec pt r) (i_removePolicy sec pt r).
Proof. intros. apply (hears_block bool (fun m => RemovePolicy m sec pt r) (fun b => b) (fun _ => when_g sec (e_BuildIncrementalRoleLinks policy_add pt [r]))). intros; apply tail_mute. Qed.
Lemma hears_remove_many : forall sec pt rs, hears (CRemoveMany sec pt rs) (i_removePolicies sec pt rs).
Proof. intros. apply (hears_block bool (fun m => AddPolicies m sec pt rs) (fun b => b) (fun _ => when_g sec (e_BuildIncrementalRoleLinks policy_add pt rs))). intros; apply tail_mute. Qed.
Lemma hears_remove_filtered : forall sec pt i vals, hears (CRemoveFiltered sec pt i vals) (i_removeFilteredPolicy sec pt i vals).
Proof.
  intros. assert (H : hears (CRemoveFiltered sec pt i vals) (mbind (on_model (fun m => RemoveFilteredPolicy m sec pt i vals)) (fun a => if negb (fst a) then ret false else
      when_g sec (e_BuildIncrementalRoleLinks policy_remove pt (snd a)) ;;; autosave (CRemoveFiltered sec pt i vals) ;;; notify ;;; ret true))).
  { apply (hears_block (bool * list rule)). intros; apply tail_mute. }
  intros e u e' b U S E. apply (H e u e' b U S). rewrite <- E. unfold i_removeFilteredPolicy, mbind, on_model. destruct (RemoveFilteredPolicy (e_model e) sec pt i vals) as [[m [b' eff]]|x|z]; reflexivity.
Qed.
Lemma forwards_hears : forall f c, forwards f c -> hears c f.
Proof.
  intros f c F. destruct F.
  - apply hears_add.
  - apply hears_add_many.
  - apply hears_remove.
  - apply hears_remove_many.
  - apply hears_remove_filtered.
  - apply hears_after; [apply hears_add|apply mute_links_if].
  - apply hears_add_many.
  - apply hears_after; [apply hears_remove|apply mute_rebuild_if].
  - apply hears_remove_many.
  - apply hears_after; [apply hears_remove_filtered|apply mute_rebuild_if].
Qed.

(** ** With auto-save off nothing is said *)
Definition silent (e e' : enforcer) : Prop := e_auto_save e = false -> e_auto_save e' = false /\ told e' = told e /\ (forall u, e_adapter e = Some (AUser u) -> e_adapter e' = Some (AUser u)).
Lemma silent_refl : forall e, silent e e.
Proof. intros e H. auto. Qed.
Lemma silent_trans : forall a b c, silent a b -> silent b c -> silent a c.
Proof. intros a b c H1 H2 S. destruct (H1 S) as [S1 [E1 F1]]. destruct (H2 S1) as [S2 [E2 F2]]. split; auto. split; [congruence|auto]. Qed.
Lemma silent_mute : forall A (c : M A), keeps mute c -> keeps silent c.
Proof. intros A c K e S. destruct (K e) as [_ [A1 [A2 _]]]. unfold told. rewrite A1, A2. auto. Qed.
Lemma silent_autosave : forall c, keeps silent (autosave c).
Proof. intros c e S. unfold autosave. destruct (e_adapter e) eqn:A; rewrite ?S; auto; unfold told; cbn; rewrite ?A; auto. Qed.
Lemma silent_notify : keeps silent notify.
Proof. intros e S. destruct (notify_shape e) as [w ->]. auto. Qed.
Lemma silent_on_model : forall A (f : model -> res (model * A)), keeps silent (on_model f).
Proof. intros. apply keeps_on_model; [exact silent_refl|]. intros e m a _ S. auto. Qed.
Ltac sb := intros; apply keeps_bind; [exact silent_trans| |].
Ltac sr := intros; first [apply keeps_ret|apply keeps_fail|apply keeps_undef|apply keeps_lift|apply keeps_read]; exact silent_refl.
Lemma silent_tail : forall sec pt op rs c, keeps silent (when_g sec (e_BuildIncrementalRoleLinks op pt rs) ;;; autosave c ;;; notify ;;; ret true).
Proof. sb. { apply silent_mute, tail_mute. } sb. { apply silent_autosave. } sb. { apply silent_notify. } sr. Qed.
Lemma silent_update_tail : forall sec pt olds news, keeps silent (when_g sec (e_BuildIncrementalRoleLinks policy_remove pt olds ;;; e_BuildIncrementalRoleLinks policy_add pt news) ;;; notify ;;; ret true).
Proof.
  sb. { apply keeps_when; [exact silent_refl|]. sb; intros; apply silent_mute, mute_incremental. } sb. { apply silent_notify. } sr.
Qed.
Lemma silent_add : forall sec pt r, keeps silent (i_addPolicy sec pt r).
Proof. sb. { apply silent_on_model. } intros []; simpl; [apply silent_tail|sr]. Qed.
Lemma silent_add_many : forall sec pt r, keeps silent (i_addPolicies sec pt r).
Proof. sb. { apply silent_on_model. } intros []; simpl; [apply silent_tail|sr]. Qed.
Lemma silent_remove : forall sec pt r, keeps silent (i_removePolicy sec pt r).
Proof. sb. { apply silent_on_model. } intros []; simpl; [apply silent_tail|sr]. Qed.
Lemma silent_remove_many : forall sec pt r, keeps silent (i_removePolicies sec pt r).
Proof. sb. { apply silent_on_model. } intros []; simpl; [apply silent_tail|sr]. Qed.
Lemma silent_remove_filtered : forall sec pt i vals, keeps silent (i_removeFilteredPolicy sec pt i vals).
Proof. sb. { apply silent_on_model. } intros [[] eff]; simpl; [apply silent_tail|sr]. Qed.
Lemma silent_update : forall sec pt old new, keeps silent (i_updatePolicy sec pt old new).
Proof. sb. { apply silent_on_model. } intros []; simpl; [apply silent_update_tail|sr]. Qed.
Lemma silent_update_many : forall sec pt old new, keeps silent (i_updatePolicies sec pt old new).
Proof. sb. { apply silent_on_model. } intros []; simpl; [apply silent_update_tail|sr]. Qed.
Lemma silent_add_grouping : forall pt r, keeps silent (AddNamedGroupingPolicy pt r).
Proof. sb. { apply silent_add. } sb. { apply silent_mute, mute_links_if. } sr. Qed.
Lemma silent_remove_grouping : forall pt r, keeps silent (RemoveNamedGroupingPolicy pt r).
Proof. sb. { apply silent_remove. } sb. { apply silent_mute, mute_rebuild_if. } sr. Qed.
Lemma silent_remove_filtered_grouping : forall pt i vals, keeps silent (RemoveFilteredNamedGroupingPolicy pt i vals).
Proof. sb. { apply silent_remove_filtered. } sb. { apply silent_mute, mute_rebuild_if. } sr. Qed.
Lemma silent_add_roles : forall user roles f, keeps silent (add_roles user roles f).
Proof. induction roles as [|r rs IH]; intros f; simpl. { sr. } sb. { apply silent_add_grouping. } intros; apply IH. Qed.
Lemma silent_clear : keeps silent e_ClearPolicy.
Proof. intros e S. auto. Qed.
Lemma silent_load : keeps silent LoadPolicy.
Proof.
  sb. { apply silent_clear. } sb; [|intros; apply silent_mute, mute_rebuild_if].
  intros e S. unfold adapter_load, told. destruct (e_adapter e) as [[b path|t|path fd|u]|] eqn:A; auto.
  - destruct (FileAdapter_LoadPolicy _ _ _). cbn. rewrite A. auto.
  - destruct (StringAdapter_LoadPolicy _ _). cbn. rewrite A. auto.
  - destruct (Filtered_LoadPolicy _ _ _) as [[? ?] ?]. cbn. split; auto. split; auto. discriminate.
  - destruct (ua_load u (ua_log u)) as [lines ex']. destruct (load_lines lines (e_model e)) as [m [x|y|z]]; cbn; rewrite A; auto.
  - cbn. rewrite A. auto.
Qed.
Lemma silent_load_filtered : forall flt, keeps silent (e_LoadFilteredPolicy flt).
Proof.
  sb. { apply silent_clear. } sb; [|intros; apply silent_mute, mute_rebuild_if].
  intros e S. unfold told. destruct (e_adapter e) as [ad|] eqn:A; [|cbn; rewrite A; auto]. destruct (negb (adapter_filtered ad)); [cbn; rewrite A; auto|].
  destruct ad as [b path|t|path fd|u]; try (cbn; rewrite A; auto; fail).
  destruct (LoadFilteredPolicy _ _ _ _ _) as [[? ?] ?]. cbn. split; auto. split; auto. discriminate.
Qed.
Lemma silent_save : keeps silent SavePolicy.
Proof.
  sb. { intros e. unfold IsFiltered. destruct (e_adapter e); apply silent_refl. }
  intros []; [sr|]. sb.
  - intros e S. unfold adapter_save, told. destruct (e_adapter e) as [[b path|t|path fd|u]|] eqn:A; cbn; rewrite ?A; auto.
    + destruct (FileAdapter_SavePolicy _ _ _) as [[? ?] ?]. cbn. rewrite A. auto.
    + destruct (StringAdapter_SavePolicy _ _) as [[? ?] ?]. cbn. split; auto. split; auto. discriminate.
  - intros _ e S. unfold notify_always. destruct (e_watcher e); auto.
Qed.
Lemma run_silent : forall o c, keeps_saving_off c -> keeps silent (run o c).
Proof.
  intros o c F. destruct c; cbn [keeps_saving_off] in F; try (destruct F; fail); cbn [run]; try (apply keeps_drop; [exact silent_refl|exact silent_trans|]).
  all: try (intros e S; split; [exact S|split; [reflexivity|auto]]; fail).
  - apply silent_add.
  - apply silent_add_many.
  - apply silent_remove.
  - apply silent_remove_many.
  - apply silent_remove_filtered.
  - apply silent_update.
  - apply silent_update_many.
  - apply silent_add_grouping.
  - apply silent_add_many.
  - apply silent_remove_grouping.
  - apply silent_remove_many.
  - apply silent_remove_filtered_grouping.
  - apply silent_update.
  - apply silent_add_roles.
  - sb. { apply silent_remove_filtered_grouping. } sb. { apply silent_remove_filtered. } sr.
  - sb. { apply silent_remove_filtered_grouping. } sb. { apply silent_remove_filtered. } sr.
  - apply silent_mute, mute_GetRolesForUser.
  - apply silent_mute, mute_implicit_roles.
  - apply silent_mute, mute_implicit_perms.
  - apply silent_mute, mute_implicit_users.
  - apply silent_mute, mute_enforce.
  - apply silent_mute, mute_enforceMap.
  - apply silent_mute, mute_batch.
  - apply silent_load.
  - apply silent_load_filtered.
  - apply silent_save.
  - apply silent_mute, mute_rebuild.
  - subst. intros e S. auto.
  - apply silent_mute, mute_matching.
Qed.
