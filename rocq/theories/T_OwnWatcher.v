(** Property C95: a watcher of the caller that fails. *)
From Coq Require Import Permutation.
From Verif Require Import Base P_Base M_Util M_RoleManager M_Model M_Persist M_Evaluator M_Matcher M_Enforcer M_OwnWatcher S_Policy S_History S_Notify S_Roles S_Sync S_Refuse S_OwnWatcher
  P_Enforce P_Decide P_Store P_Group P_Api P_History P_Roles P_Nodup P_Notify P_Sync P_Switch P_OwnWatcher E_Examples T_Policy T_Rbac T_Refuse.

(** With a watcher that always returns and leaves the enforcer alone the calls are those
    of the other properties. *)
Theorem C95_dutiful : forall up o c e, dutiful up -> wrun up o c e = run o c e.
Proof. intros. apply dutiful_run. auto. Qed.

(** Whatever the watcher throws, a call with nothing left to do leaves the enforcer as it
    would with a watcher that returns.  If the watcher was told, the call would have
    returned, and now ends as the watcher's function ended; otherwise it ends as usual. *)
Theorem C95_in_force : forall up o c e, detached up -> told_last c ->
  let e' := fst (run o c e) in
  fst (wrun up o c e) = e' /\
  (was_told e e' -> snd (run o c e) = Ok tt /\ snd (wrun up o c e) = snd (up NUpdate (heard e) e')) /\
  (~ was_told e e' -> snd (wrun up o c e) = snd (run o c e)).
Proof.
  intros up o c e D T e'. destruct (told_last_reports up D o c T e) as [H1 H2]. unfold was_told. fold e' in H1, H2. split; auto.
  destruct H2 as [[N ->]|[N [[] [-> ->]]]]; split; intros W; try lia; auto. split; auto.
  destruct (snd (up NUpdate (heard e) e')) as [[]|t|u]; auto.
Qed.
(** So a caller who catches the exceptions of the watcher has the enforcer they would have
    with a watcher that never fails, after every history of such calls. *)
Theorem C95_history : forall up o cs e e', detached up -> (forall k n e1 u, snd (up k n e1) <> UB u) -> Forall undivided cs ->
  (wreaches up o e cs e' <-> reaches o e cs e').
Proof.
  intros up o cs e e' D NU F.
  assert (K : forall c e1, undivided c -> fst (wrun up o c e1) = fst (run o c e1) /\ ((forall u, snd (wrun up o c e1) <> UB u) <-> forall u, snd (run o c e1) <> UB u)).
  { intros c e1 U. assert (Q : told_last c \/ wrun up o c e1 = run o c e1) by (destruct c; simpl in *; try tauto; right; reflexivity).
    destruct Q as [T|Q]; [|rewrite Q; tauto]. destruct (told_last_reports up D o c T e1) as [H1 H2]. split; auto.
    destruct H2 as [[_ ->]|[_ [a [-> ->]]]]; [tauto|]. specialize (NU NUpdate (heard e1) (fst (run o c e1))).
    destruct (snd (up NUpdate (heard e1) (fst (run o c e1)))) as [[]|t|u]; cbn [bind]; split; intros; try discriminate; auto. }
  split; intros H; revert F; induction H as [|e0 c cs e1 out e2 R N H IH]; intros F; try constructor; inversion F; subst.
  - destruct (K c e0) as [K1 K2]; auto. rewrite R in K1, K2. cbn [fst snd] in *. apply (reach_step o e0 c cs e1 (snd (run o c e0))); auto.
    + rewrite K1. apply surjective_pairing.
    + apply K2. auto.
  - destruct (K c e0) as [K1 K2]; auto. rewrite R in K1, K2. cbn [fst snd] in *. apply (wreach_step up o e0 c cs e1 (snd (wrun up o c e0))); auto.
    + rewrite <- K1. apply surjective_pairing.
    + apply K2. auto.
Qed.
(** A call that makes one change: the rules, and what the storage was told, are the same
    however the watcher ends. *)
Lemma fst_drop : forall A (c : M A) e, fst (drop_value c e) = fst (c e).
Proof. intros A c e. unfold drop_value, mbind. destruct (c e) as [e1 [a|t|u]]; auto. Qed.
Theorem C95_rules_anyway : forall up o c e, detached up -> one_change c ->
  (forall sec pt, stored (fst (wrun up o c e)) sec pt = stored (fst (run o c e)) sec pt) /\
  told (fst (wrun up o c e)) = told (fst (run o c e)).
Proof.
  intros up o c e D [T|T]. { rewrite (proj1 (told_last_reports up D o c T e)). auto. }
  assert (K : forall e1 a b, mute e1 a -> mute e1 b -> (forall sec pt, stored b sec pt = stored a sec pt) /\ told b = told a).
  { intros e1 a b [A1 [A2 _]] [B1 [B2 _]]. split; [|unfold told; rewrite B2, A2; auto]. intros sec pt. rewrite (same_asts_stored _ _ _ _ A1), (same_asts_stored _ _ _ _ B1). auto. }
  destruct c; try (destruct T; fail); cbn [run wrun]; rewrite !fst_drop.
  - destruct (then_same up _ _ _ e (reports_add up D "g" pt r) (mute_links_if pt r) _ eq_refl _ eq_refl) as [H1 H2]. exact (K _ _ _ H1 H2).
  - destruct (then_same up _ _ _ e (reports_remove up D "g" pt r) mute_rebuild_if _ eq_refl _ eq_refl) as [H1 H2]. exact (K _ _ _ H1 H2).
  - destruct (then_same up _ _ _ e (reports_remove_filtered up D "g" pt i vals) mute_rebuild_if _ eq_refl _ eq_refl) as [H1 H2]. exact (K _ _ _ H1 H2).
Qed.
Print Assumptions C95_rules_anyway.

(** An added assignment is in force however the watcher ends, and the links stay those of
    the rules. *)
Theorem C95_added_role : forall o names n rules up e pt ru, tidy names n rules -> managed o names n rules e -> rules ru -> detached up ->
  in_sync names (fst (wrun up o (KAddGrouping pt ru) e)).
Proof.
  intros o names n rules up e pt ru T Mg Rr D. apply (mirror_in_sync names n rules T (level_of e)).
  cbn [wrun]. rewrite fst_drop. destruct (step_add _ _ _ T _ e pt ru (managed_mirror names n rules T o e Mg) Rr) as [M1 A].
  pose proof (step_add_grouping _ _ _ T _ e pt ru (managed_mirror names n rules T o e Mg) Rr) as M2.
  destruct (reports_add up D "g" pt ru e) as [R1 R2]. unfold w_AddNamedGroupingPolicy, AddNamedGroupingPolicy, mbind in *.
  destruct (i_addPolicy "g" pt ru e) as [e1 out], (w_addPolicy up "g" pt ru e) as [e2 outw]. cbn [fst snd] in *. subst e2.
  destruct outw as [bw|t|u]; cbn [fst]; auto. destruct out as [b|t|u]; cbn [bind] in R2.
  - destruct (e_auto_build e1); [|exact M2]. destruct (e_BuildIncrementalRoleLinks policy_add pt [ru] e1) as [e3 [[]|t|u]]; exact M2.
  - destruct R2 as [[_ X]|[_ [a [X _]]]]; discriminate.
  - destruct R2 as [[_ X]|[_ [a [X _]]]]; discriminate.
Qed.
Print Assumptions C95_added_role.

(** ** What does not hold: the role links *)
Definition fails_next (up : notice -> nat -> M unit) (t : exn) (e : enforcer) : Prop :=
  e_watcher e <> None /\ e_notify e = true /\ forall e', up NUpdate (heard e) e' = (e', Throw t).

(** RemoveGroupingPolicy rebuilds the links only after the watcher was told, so a role
    taken from a user while the watcher fails stays in force: the rule is gone, from the
    storage too, but the user still has the role. *)
Lemma removed_links : forall names n rules (T : tidy names n rules) lvl e pt ru l, mirror names n rules lvl e -> rules ru -> declared e "g" pt -> In ru (stored e "g" pt) -> link_of ru = Some l ->
  exists e1 L, i_removePolicy "g" pt ru e = (e1, Ok true) /\ linked_by names n rules lvl L e1 /\ L l.
Proof.
  intros names n rules T lvl e pt r l Mi Rr [a G] IN LK.
  remember (i_removePolicy "g" pt r e) as q eqn:Q. unfold i_removePolicy in Q. unfold mbind at 1, on_model, RemovePolicy in Q.
  rewrite G in Q; cbn [bind] in Q. pose proof (ok_rules _ _ _ _ _ _ _ _ Mi G) as FR.
  unfold stored in IN. rewrite (rules_in_get _ _ _ _ G) in IN.
  destruct (erase_first r (rules_of (a_policy a))) as [l1|] eqn:X.
  2:{ exfalso. apply erase_first_none in X. apply (proj2 (has_rule_in (rules_of (a_policy a)) r (rules_no_anagram _ _ _ T _ _ FR Rr))) in IN. congruence. }
  assert (FE : Forall rules (rules_of (with_rules (a_policy a) l1))).
  { rewrite rules_with. rewrite Forall_forall in *. intros x I. apply erase_first_some in X.
    destruct X as [pre [y [post [E1 [E2 _]]]]]. apply FR. subst l1. rewrite E1. rewrite in_app_iff in *. simpl. tauto. }
  destruct (edit_linked _ _ _ T _ _ _ _ _ _ Mi G FE) as [LB [S D]]. cbn [negb] in Q.
  unfold when_g in Q. simpl in Q. unfold mbind at 1 in Q.
  destruct (incremental_add _ _ _ T _ _ _ pt [r] LB D) as [e2 [IA [LB2 [S2 _]]]]; auto. rewrite IA in Q.
  pose proof (tail_frame (CRemove "g" pt r) e2) as TF. pose proof (tail_ok (CRemove "g" pt r) e2 (lb_calm _ _ _ _ _ _ LB2) eq_refl) as TO.
  destruct ((autosave (CRemove "g" pt r) ;;; notify ;;; ret true) e2) as [e3 out]. simpl in *. subst out.
  subst q. eexists e3, _. split; [reflexivity|]. split. { eapply frame_linked; eauto. } right. exists r. simpl. auto.
Qed.
Theorem C95_revoked_role_stays_refuted : forall o names n rules up e pt ru d u x t,
  tidy names n rules -> managed o names n rules e -> declared e "g" "g" -> declared e "g" pt ->
  rules ru -> link_of ru = Some (d, u, x) -> NoDup (stored e "g" pt) -> In ru (stored e "g" pt) ->
  detached up -> fails_next up t e ->
  let e' := fst (wrun up o (KRemoveGrouping pt ru) e) in
  snd (wrun up o (KRemoveGrouping pt ru) e) = Throw t /\
  ~ In ru (stored e' "g" pt) /\
  exists l, snd (GetRolesForUser u (dom_arg d) e') = Ok l /\ In x l.
Proof.
  intros o names n rules up e pt ru d u x t T Mg Dg Dp Rr Lk ND IN D [FW [FN FU]] e'.
  destruct (removed_links names n rules T _ e pt ru _ (managed_mirror names n rules T o e Mg) Rr Dp IN Lk) as [e1 [L [RM [LB LL]]]].
  destruct (reports_remove up D "g" pt ru e) as [R1 R2]. rewrite RM in R1, R2. cbn [fst snd] in *.
  destruct (tells_remove "g" pt ru e) as [k [[WN WK] [WT _]]]. rewrite RM in WN, WK, WT. cbn [fst snd] in *. specialize (WT eq_refl). rewrite FN in WT. subst k.
  assert (HE : heard e1 = S (heard e)). { unfold heard. rewrite WK. destruct (e_watcher e); [reflexivity|congruence]. }
  destruct R2 as [[X _]|[_ [a [_ R2]]]]; [lia|]. rewrite FU in R2. cbn [snd bind] in R2.
  assert (W : w_removePolicy up "g" pt ru e = (e1, Throw t)). { rewrite (surjective_pairing (w_removePolicy up "g" pt ru e)), R1, R2. auto. }
  assert (WR : wrun up o (KRemoveGrouping pt ru) e = (e1, Throw t)). { cbn [wrun]. unfold drop_value, w_RemoveNamedGroupingPolicy, mbind. rewrite W. auto. }
  split; [rewrite WR; auto|]. split.
  - unfold e'. rewrite (proj1 (C95_rules_anyway up o (KRemoveGrouping pt ru) e D (or_intror Logic.I))). cbn [run]. rewrite fst_drop.
    assert (NA : no_anagram ru (stored e "g" pt)).
    { destruct Dp as [a0 G]. unfold stored. rewrite (rules_in_get _ _ _ _ G). apply (rules_no_anagram _ _ _ T); auto.
      exact (ok_rules _ _ _ _ _ _ _ _ (managed_mirror names n rules T o e Mg) G). }
    pose proof (remove_grouping e pt ru Dp NA ND) as RG. destruct (RemoveNamedGroupingPolicy pt ru e) as [e2 out]. cbn [fst]. destruct RG as [_ [_ [RG _]]]. apply RG. auto.
  - unfold e'. rewrite WR. cbn [fst]. destruct (t_rule _ _ _ T ru Rr) as [_ [d0 [u0 [x0 [L0 [Nu Nx]]]]]]. rewrite Lk in L0. inversion L0; subst d0 u0 x0.
    destruct LB as [[r [H [R Lv]]] _ Wd _ _]. destruct (rep_GetRoles names (t_names _ _ _ T) r L d u R Nu) as [l [E [_ I]]].
    assert (Dg' : declared e1 "g" "g").
    { pose proof (remove_grouping_declared e pt ru) as RD.
      destruct (RemoveNamedGroupingPolicy pt ru e) as [e2 out] eqn:Q. apply (RD e2 out "g" "g" eq_refl) in Dg.
      destruct (then_same up _ _ rebuild_if_auto e (reports_remove up D "g" pt ru) mute_rebuild_if _ eq_refl _ eq_refl) as [H1 _].
      rewrite RM in H1. unfold RemoveNamedGroupingPolicy in Q. rewrite Q in H1. cbn [fst] in H1. destruct H1 as [SA _].
      apply (same_asts_declared _ _ _ _ SA). auto. }
    destruct Dg' as [ga A]. exists l. split; [|apply I; auto]. unfold GetRolesForUser, g_rm. rewrite A. cbn [bind].
    rewrite (Wd _ _ (get_asts _ _ _ A)). rewrite (rm_GetRoles_pure _ _ _ _ r H (rep_plain _ _ _ R)), E. reflexivity.
Qed.
Print Assumptions C95_revoked_role_stays_refuted.

(** DeleteUser stops at the first exception: when the user has a role and the watcher fails,
    all the rules that give the user permissions stay. *)
Theorem C95_delete_user_refuted : forall o up e user l t, declared e "g" "g" ->
  snd (GetFilteredNamedGroupingPolicy "g" 0 [user] e) = Ok l -> l <> [] -> detached up -> fails_next up t e ->
  let e' := fst (wrun up o (KDeleteUser user) e) in
  (forall b, snd (wrun up o (KDeleteUser user) e) <> Ok b) /\ forall pt, stored e' "p" pt = stored e "p" pt.
Proof.
  intros o up e user l t Dg G NE D [FW [FN FU]] e'.
  pose proof (C20_remove_filtered_grouping e "g" 0 [user] l Dg G) as RF.
  assert (NO : forall b, snd (w_removeFilteredPolicy up "g" "g" 0 [user] e) <> Ok b).
  { intros b. destruct (reports_remove_filtered up D "g" "g" 0 [user] e) as [R1 R2]. destruct (tells_remove_filtered "g" "g" 0 [user] e) as [k [[_ WK] [WT _]]].
    assert (NF : snd (i_removeFilteredPolicy "g" "g" 0 [user] e) <> Ok false).
    { intros X. pose proof (edit_remove_filtered "g" "g" 0 [user] e) as AE. unfold after_edit in AE. destruct Dg as [a A].
      unfold GetFilteredNamedGroupingPolicy, read_model, GetFilteredPolicy in G. cbn [snd] in G.
      unfold RemoveFilteredPolicy in AE. rewrite A in *. cbn [bind] in *.
      destruct (partition_rules 0 [user] (rules_of (a_policy a))) as [[eff tmp]|y|v] eqn:P; cbn [bind fst snd] in AE.
      - pose proof (partition_filter _ _ _ _ _ P) as F. rewrite F in G. inversion G; subst eff. destruct AE as [_ AE]. specialize (AE false X). destruct l; [congruence|discriminate].
      - rewrite AE in X. discriminate.
      - rewrite AE in X. discriminate. }
    destruct (snd (i_removeFilteredPolicy "g" "g" 0 [user] e)) as [[]|y|v] eqn:X; try congruence.
    - specialize (WT eq_refl). rewrite FN in WT. subst k.
      assert (HE : heard (fst (i_removeFilteredPolicy "g" "g" 0 [user] e)) = S (heard e)). { unfold heard. rewrite WK. destruct (e_watcher e); [reflexivity|congruence]. }
      destruct R2 as [[Y _]|[_ [a [_ R2]]]]; [lia|]. rewrite FU in R2. cbn [snd bind] in R2. congruence.
    - destruct R2 as [[_ ->]|[_ [a [Y _]]]]; discriminate.
    - destruct R2 as [[_ ->]|[_ [a [Y _]]]]; discriminate. }
  destruct (then_same up _ _ rebuild_if_auto e (reports_remove_filtered up D "g" "g" 0 [user]) mute_rebuild_if _ eq_refl _ eq_refl) as [H1 H2].
  change (mute (fst (i_removeFilteredPolicy "g" "g" 0 [user] e)) (fst (RemoveFilteredNamedGroupingPolicy "g" 0 [user] e))) in H1.
  change (mute (fst (i_removeFilteredPolicy "g" "g" 0 [user] e)) (fst (w_RemoveFilteredNamedGroupingPolicy up "g" 0 [user] e))) in H2.
  assert (SP : forall pt, stored (fst (w_RemoveFilteredNamedGroupingPolicy up "g" 0 [user] e)) "p" pt = stored e "p" pt).
  { intros pt. destruct H1 as [A1 _], H2 as [A2 _]. rewrite (same_asts_stored _ _ _ _ A2), <- (same_asts_stored _ _ _ _ A1).
    destruct (RemoveFilteredNamedGroupingPolicy "g" 0 [user] e) as [e2 out]. destruct RF as [OK _]. apply OK. congruence. }
  assert (NR : forall b, snd (w_RemoveFilteredNamedGroupingPolicy up "g" 0 [user] e) <> Ok b).
  { intros b. unfold w_RemoveFilteredNamedGroupingPolicy, mbind. destruct (w_removeFilteredPolicy up "g" "g" 0 [user] e) as [e1 [c|y|v]]; cbn [snd] in *; try discriminate. destruct (NO c eq_refl). }
  unfold e'. cbn [wrun]. rewrite fst_drop. unfold w_delete, drop_value, mbind.
  destruct (w_RemoveFilteredNamedGroupingPolicy up "g" 0 [user] e) as [e1 [c|y|v]]; cbn [fst snd] in *; [destruct (NR c eq_refl)|split; [discriminate|auto]..].
Qed.
Print Assumptions C95_delete_user_refuted.

(** ** Concrete cases *)
(** A watcher whose server cannot be reached. *)
Definition broken_watcher : notice -> nat -> M unit := fun _ _ e => (e, Throw IOException).
(** One that fails the second time only. *)
Definition flaky_watcher : notice -> nat -> M unit := fun _ n e => (e, if Nat.eqb n 1 then Throw OtherException else Ok tt).
Definition watched_org : enforcer := set_watcher (Some 0) org.
Lemma watched_managed : forall o, managed o plain_names 2 org_rule watched_org.
Proof. intros o. eapply (managed_call o plain_names 2 org_rule org KSetWatcher); [apply org_managed|exact Logic.I|reflexivity|discriminate]. Qed.
Example C95_case : detached broken_watcher /\ fails_next broken_watcher IOException watched_org /\
  In ["alice"; "admin"] (stored watched_org "g" "g") /\ org_rule ["alice"; "admin"] /\ declared watched_org "g" "g" /\
  snd (GetFilteredNamedGroupingPolicy "g" 0 ["alice"] watched_org) = Ok [["alice"; "admin"]].
Proof. repeat split; try discriminate; try (vm_compute; auto; fail). eexists. vm_compute. reflexivity. Qed.
(** The decision: alice's role was taken, the exception came, the access stays until the
    links are built anew. *)
Definition watched_access : enforcer := set_watcher (Some 0) (linked_boot (rbac_model [["admin"; "data1"; "read"]] [["alice"; "admin"]])).
Theorem C95_access_stays_refuted :
  let e' := fst (wrun broken_watcher mini (KRemoveGrouping "g" ["alice"; "admin"]) watched_access) in
  snd (wrun broken_watcher mini (KRemoveGrouping "g" ["alice"; "admin"]) watched_access) = Throw IOException /\
  stored e' "g" "g" = [] /\ snd (Enforce mini (reqs ["alice"; "data1"; "read"]) e') = Ok true /\
  snd (Enforce mini (reqs ["alice"; "data1"; "read"]) (fst (e_BuildRoleLinks e'))) = Ok false.
Proof. repeat split; vm_compute; reflexivity. Qed.
Example C95_case_flaky : detached flaky_watcher /\ exists e', wreaches flaky_watcher mini watched_org
    [KAddPolicy "p" ["carol"; "data1"; "read"]; KAddPolicy "p" ["dan"; "data1"; "read"]; KRemovePolicy "p" ["carol"; "data1"; "read"]] e' /\
  In ["dan"; "data1"; "read"] (stored e' "p" "p") /\ ~ In ["carol"; "data1"; "read"] (stored e' "p" "p") /\ heard e' = 3 /\
  snd (wrun flaky_watcher mini (KAddPolicy "p" ["dan"; "data1"; "read"]) (fst (wrun flaky_watcher mini (KAddPolicy "p" ["carol"; "data1"; "read"]) watched_org))) = Throw OtherException.
Proof.
  split; [intros k n e; reflexivity|]. eexists. split; [repeat (eapply wreach_step; [vm_compute; reflexivity|discriminate|]); apply wreach_nil|].
  split; [vm_compute; tauto|]. split; [vm_compute; intuition discriminate|]. split; vm_compute; reflexivity.
Qed.
Print Assumptions C95_dutiful.
Print Assumptions C95_in_force.
Print Assumptions C95_history.
Print Assumptions C95_access_stays_refuted.
