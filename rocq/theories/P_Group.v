(** What the management functions for grouping rules do to the stored rules. *)
From Coq Require Import Permutation.
From Verif Require Import Base P_Base M_Util M_RoleManager M_Model M_Persist M_Evaluator M_Enforcer S_Policy S_History P_Decide P_Store P_Api P_History P_Nodup.

Lemma edit_then : forall A (f : model -> res (model * A)) (g : A -> bool) (t : A -> M bool) e,
  (forall a, keeps same_asts (t a)) -> (forall a e b, snd (t a e) = Ok b -> b = true) ->
  let prog := mbind (on_model f) (fun a => if negb (g a) then ret false else t a) in
  match f (e_model e) with
  | Ok (m, a) => if g a then same_asts (set_model m e) (fst (prog e)) /\ forall b, snd (prog e) = Ok b -> b = true
                 else prog e = (set_model m e, Ok false)
  | Throw x => prog e = (e, Throw x)
  | UB u => prog e = (e, UB u)
  end.
Proof.
  intros A f g t e K T. simpl. unfold mbind, on_model. destruct (f (e_model e)) as [[m a]|x|u]; auto.
  destruct (g a); simpl; auto. split; [apply K|apply T].
Qed.

Lemma tail_true : forall sec pt op rs c e b,
  snd ((when_g sec (e_BuildIncrementalRoleLinks op pt rs) ;;; autosave c ;;; notify ;;; ret true) e) = Ok b -> b = true.
Proof.
  intros sec pt op rs c e b. unfold mbind at 1. destruct (when_g sec (e_BuildIncrementalRoleLinks op pt rs) e) as [e1 [u|x|u]]; simpl; try discriminate.
  apply tail_out_inv.
Qed.
Lemma update_tail_true : forall sec (c : M unit) e b,
  snd ((when_g sec c ;;; notify ;;; ret true) e) = Ok b -> b = true.
Proof.
  intros sec c e b. unfold mbind at 1. destruct (when_g sec c e) as [e1 [u|x|u]]; simpl; try discriminate.
  unfold mbind. destruct (notify e1) as [e2 [|x|u2]]; simpl; congruence.
Qed.

Definition after_edit {A} (f : model -> res (model * A)) (g : A -> bool) (e : enforcer) (r : enforcer * res bool) : Prop :=
  match f (e_model e) with
  | Ok (m, a) => same_asts (set_model m e) (fst r) /\ forall b, snd r = Ok b -> b = g a
  | Throw x => r = (e, Throw x)
  | UB u => r = (e, UB u)
  end.

Lemma after_edit_bind : forall A (f : model -> res (model * A)) g c (t : M unit) e,
  after_edit f g e (c e) -> keeps same_asts t -> after_edit f g e ((b <- c ;; t ;;; ret b) e).
Proof.
  intros A f g c t e H K. unfold after_edit in *. unfold mbind, ret. destruct (f (e_model e)) as [[m a]|x|u].
  - destruct H as [S B]. destruct (c e) as [e1 [b|x|u]]; simpl in *; auto.
    specialize (K e1). destruct (t e1) as [e2 [v|x|u]]; simpl in *; (split; [eapply same_asts_trans; eauto|]); auto; discriminate.
  - rewrite H. reflexivity.
  - rewrite H. reflexivity.
Qed.

Lemma edit_add : forall sec pt r e, after_edit (fun m => AddPolicy m sec pt r) (fun b => b) e (i_addPolicy sec pt r e).
Proof.
  intros. unfold after_edit.
  pose proof (edit_then bool (fun m => AddPolicy m sec pt r) (fun b => b)
    (fun _ => when_g sec (e_BuildIncrementalRoleLinks policy_add pt [r]) ;;; autosave (CAdd sec pt r) ;;; notify ;;; ret true) e) as E.
  cbv zeta in E. specialize (E (fun _ => keeps_tail _ same_asts_refl same_asts_trans (fun _ _ H => H) _ _ _ _ _) (fun _ => tail_true _ _ _ _ _)).
  unfold i_addPolicy. destruct (AddPolicy (e_model e) sec pt r) as [[m [|]]|x|u]; auto.
  rewrite E. split; [apply same_asts_refl|]. simpl. congruence.
Qed.
Lemma edit_add_many : forall sec pt rs e, after_edit (fun m => AddPolicies m sec pt rs) (fun b => b) e (i_addPolicies sec pt rs e).
Proof.
  intros. unfold after_edit.
  pose proof (edit_then bool (fun m => AddPolicies m sec pt rs) (fun b => b)
    (fun _ => when_g sec (e_BuildIncrementalRoleLinks policy_add pt rs) ;;; autosave (CAddMany sec pt rs) ;;; notify ;;; ret true) e) as E.
  cbv zeta in E. specialize (E (fun _ => keeps_tail _ same_asts_refl same_asts_trans (fun _ _ H => H) _ _ _ _ _) (fun _ => tail_true _ _ _ _ _)).
  unfold i_addPolicies. destruct (AddPolicies (e_model e) sec pt rs) as [[m [|]]|x|u]; auto.
  rewrite E. split; [apply same_asts_refl|]. simpl. congruence.
Qed.
Lemma edit_remove_many : forall sec pt rs e, after_edit (fun m => AddPolicies m sec pt rs) (fun b => b) e (i_removePolicies sec pt rs e).
Proof.
  intros. unfold after_edit.
  pose proof (edit_then bool (fun m => AddPolicies m sec pt rs) (fun b => b)
    (fun _ => when_g sec (e_BuildIncrementalRoleLinks policy_add pt rs) ;;; autosave (CRemoveMany sec pt rs) ;;; notify ;;; ret true) e) as E.
  cbv zeta in E. specialize (E (fun _ => keeps_tail _ same_asts_refl same_asts_trans (fun _ _ H => H) _ _ _ _ _) (fun _ => tail_true _ _ _ _ _)).
  unfold i_removePolicies. destruct (AddPolicies (e_model e) sec pt rs) as [[m [|]]|x|u]; auto.
  rewrite E. split; [apply same_asts_refl|]. simpl. congruence.
Qed.
Lemma edit_remove : forall sec pt r e, after_edit (fun m => RemovePolicy m sec pt r) (fun b => b) e (i_removePolicy sec pt r e).
Proof.
  intros. unfold after_edit.
  pose proof (edit_then bool (fun m => RemovePolicy m sec pt r) (fun b => b)
    (fun _ => when_g sec (e_BuildIncrementalRoleLinks policy_add pt [r]) ;;; autosave (CRemove sec pt r) ;;; notify ;;; ret true) e) as E.
  cbv zeta in E. specialize (E (fun _ => keeps_tail _ same_asts_refl same_asts_trans (fun _ _ H => H) _ _ _ _ _) (fun _ => tail_true _ _ _ _ _)).
  unfold i_removePolicy. destruct (RemovePolicy (e_model e) sec pt r) as [[m [|]]|x|u]; auto.
  rewrite E. split; [apply same_asts_refl|]. simpl. congruence.
Qed.
Lemma edit_remove_filtered : forall sec pt i vals e,
  after_edit (fun m => RemoveFilteredPolicy m sec pt i vals) fst e (i_removeFilteredPolicy sec pt i vals e).
Proof.
  intros. remember (i_removeFilteredPolicy sec pt i vals e) as q eqn:Q.
  unfold i_removeFilteredPolicy, mbind at 1, on_model in Q. unfold after_edit.
  destruct (RemoveFilteredPolicy (e_model e) sec pt i vals) as [[m [[|] eff]]|x|u]; subst q; auto; simpl.
  - split; [apply keeps_tail; auto using same_asts_refl; apply same_asts_trans|]. apply tail_true.
  - split; [apply same_asts_refl|congruence].
Qed.
Lemma edit_update : forall sec pt old new e,
  after_edit (fun m => UpdatePolicy m sec pt old new) (fun b => b) e (i_updatePolicy sec pt old new e).
Proof.
  intros. remember (i_updatePolicy sec pt old new e) as q eqn:Q.
  unfold i_updatePolicy, mbind at 1, on_model in Q. unfold after_edit.
  destruct (UpdatePolicy (e_model e) sec pt old new) as [[m [|]]|x|u]; subst q; auto; simpl.
  - split; [apply keeps_update_tail; auto using same_asts_refl; apply same_asts_trans|]. apply update_tail_true.
  - split; [apply same_asts_refl|congruence].
Qed.

(** ** The grouping functions *)
Lemma others_asts : forall sec pt e m e', writes (e_model e) m sec pt -> same_asts (set_model m e) e' -> others_kept sec pt e e'.
Proof.
  intros sec pt e m e' W S s q N. rewrite (same_asts_stored _ _ _ _ S). eapply writes_other; eauto.
Qed.
Lemma stored_asts : forall e m e' sec pt, same_asts (set_model m e) e' -> stored e' sec pt = rules_in m sec pt.
Proof. intros. rewrite (same_asts_stored _ _ _ _ H). reflexivity. Qed.

Lemma add_grouping : forall e pt r, declared e "g" pt -> no_anagram r (stored e "g" pt) ->
  let (e', out) := AddNamedGroupingPolicy pt r e in
  others_kept "g" pt e e' /\
  (In r (stored e "g" pt) -> stored e' "g" pt = stored e "g" pt) /\
  (~ In r (stored e "g" pt) -> stored e' "g" pt = stored e "g" pt ++ [r]) /\
  (forall b, out = Ok b -> (b = true <-> ~ In r (stored e "g" pt))).
Proof.
  intros e pt r [a A] NA.
  assert (H : after_edit (fun m => AddPolicy m "g" pt r) (fun b => b) e (AddNamedGroupingPolicy pt r e)).
  { apply after_edit_bind; [apply edit_add|apply quiet_links_if]. }
  destruct (AddNamedGroupingPolicy pt r e) as [e' out]. unfold after_edit in H. simpl in H.
  assert (A1 : stored e "g" pt = rules_of (a_policy a)) by (apply rules_in_get; auto).
  rewrite A1 in *. pose proof (writes_add (e_model e) "g" pt r) as W. unfold AddPolicy in *. rewrite A in *. cbn [bind] in *.
  destruct (has_rule (rules_of (a_policy a)) r) eqn:HR; destruct H as [S B].
  - split; [eapply others_asts; eauto|]. rewrite (stored_asts _ _ _ _ _ S), (rules_in_get _ _ _ _ A).
    apply has_rule_in in HR; auto. split; [auto|]. split; [tauto|]. intros b O. rewrite (B b O). split; [discriminate|tauto].
  - split; [eapply others_asts; eauto|]. rewrite (stored_asts _ _ _ _ _ S), rules_in_put.
    rewrite emplace_new by auto. apply has_rule_false in HR; auto.
    split; [tauto|]. split; [auto|]. intros b O. rewrite (B b O). tauto.
Qed.

Lemma remove_grouping : forall e pt r, declared e "g" pt -> no_anagram r (stored e "g" pt) -> NoDup (stored e "g" pt) ->
  let (e', out) := RemoveNamedGroupingPolicy pt r e in
  others_kept "g" pt e e' /\
  (~ In r (stored e "g" pt) -> stored e' "g" pt = stored e "g" pt) /\
  (In r (stored e "g" pt) -> ~ In r (stored e' "g" pt) /\
     exists pre post, stored e "g" pt = pre ++ r :: post /\ stored e' "g" pt = pre ++ post) /\
  (forall b, out = Ok b -> (b = true <-> In r (stored e "g" pt))).
Proof.
  intros e pt r [a A] NA ND.
  assert (H : after_edit (fun m => RemovePolicy m "g" pt r) (fun b => b) e (RemoveNamedGroupingPolicy pt r e)).
  { apply after_edit_bind; [apply edit_remove|apply quiet_rebuild_if]. }
  destruct (RemoveNamedGroupingPolicy pt r e) as [e' out]. unfold after_edit in H. simpl in H.
  assert (A1 : stored e "g" pt = rules_of (a_policy a)) by (apply rules_in_get; auto).
  rewrite A1 in *. pose proof (writes_remove (e_model e) "g" pt r) as W. unfold RemovePolicy in *. rewrite A in *. cbn [bind] in *.
  destruct (erase_first r (rules_of (a_policy a))) as [l|] eqn:E; destruct H as [S B].
  - split; [eapply others_asts; eauto|]. rewrite (stored_asts _ _ _ _ _ S), rules_in_put, rules_with.
    apply erase_first_some in E. destruct E as [pre [x [post [E1 [E2 [P N]]]]]].
    assert (x = r) by (apply NA; auto; rewrite E1, in_app_iff; simpl; auto). subst x.
    assert (In r (rules_of (a_policy a))) by (rewrite E1, in_app_iff; simpl; auto).
    split; [tauto|]. split; [|intros b O; rewrite (B b O); tauto].
    intros _. rewrite E2. split; [|eauto]. rewrite E1 in ND. apply NoDup_remove_2 in ND. auto.
  - split; [eapply others_asts; eauto|]. rewrite (stored_asts _ _ _ _ _ S), (rules_in_get _ _ _ _ A).
    apply erase_first_none in E. apply has_rule_false in E; auto.
    split; [auto|]. split; [tauto|]. intros b O. rewrite (B b O). split; [discriminate|tauto].
Qed.

Lemma remove_filtered_grouping : forall e pt i vals l, declared e "g" pt -> GetFilteredPolicy (e_model e) "g" pt i vals = Ok l ->
  let (e', out) := RemoveFilteredNamedGroupingPolicy pt i vals e in
  others_kept "g" pt e e' /\
  selects (fun r => ~ qualifies i vals r) (stored e "g" pt) (stored e' "g" pt) /\
  (forall b, out = Ok b -> (b = true <-> l <> [])).
Proof.
  intros e pt i vals l [a A] G.
  assert (H : after_edit (fun m => RemoveFilteredPolicy m "g" pt i vals) fst e (RemoveFilteredNamedGroupingPolicy pt i vals e)).
  { apply after_edit_bind; [apply edit_remove_filtered|apply quiet_rebuild_if]. }
  destruct (RemoveFilteredNamedGroupingPolicy pt i vals e) as [e' out]. unfold after_edit in H. simpl in H.
  pose proof (writes_remove_filtered (e_model e) "g" pt i vals) as W. unfold RemoveFilteredPolicy, GetFilteredPolicy in *. rewrite A in *. cbn [bind] in *.
  destruct (partition_rules i vals (rules_of (a_policy a))) as [[eff tmp]|x|u] eqn:P; cbn [bind] in H.
  - destruct H as [S B]. pose proof (partition_filter _ _ _ _ _ P) as F. rewrite F in G. inversion G; subst eff.
    split; [eapply others_asts; [eapply W; reflexivity|exact S]|]. rewrite (stored_asts _ _ _ _ _ S), rules_in_put.
    unfold stored. rewrite (rules_in_get _ _ _ _ A). apply partition_rules_spec in P. split; [tauto|].
    intros b O. rewrite (B b O). simpl. destruct l; split; congruence.
  - exfalso. revert P. generalize (rules_of (a_policy a)) l G. clear. induction l as [|r l IH]; simpl; intros; try discriminate.
    destruct (field_match r i vals) as [b| |]; simpl in *; try discriminate.
    destruct (filter_rules i vals l) eqn:F; simpl in *; try discriminate.
    destruct (partition_rules i vals l) as [[e1 e2]| |] eqn:P'; simpl in *; try discriminate; eapply IH; eauto.
  - exfalso. revert P. generalize (rules_of (a_policy a)) l G. clear. induction l as [|r l IH]; simpl; intros; try discriminate.
    destruct (field_match r i vals) as [b| |]; simpl in *; try discriminate.
    destruct (filter_rules i vals l) eqn:F; simpl in *; try discriminate.
    destruct (partition_rules i vals l) as [[e1 e2]| |] eqn:P'; simpl in *; try discriminate; eapply IH; eauto.
Qed.

Lemma update_grouping : forall e pt old new, declared e "g" pt ->
  no_anagram old (stored e "g" pt) -> NoDup (stored e "g" pt) ->
  let (e', out) := UpdateNamedGroupingPolicy pt old new e in
  others_kept "g" pt e e' /\
  (~ In old (stored e "g" pt) -> stored e' "g" pt = stored e "g" pt /\ out = Ok false) /\
  (forall pre post, stored e "g" pt = pre ++ old :: post -> no_anagram new (pre ++ post) -> ~ In new (pre ++ post) ->
     (forall b, out = Ok b -> b = true) /\ stored e' "g" pt = pre ++ post ++ [new]).
Proof.
  intros e pt old new [a A] NA ND. unfold UpdateNamedGroupingPolicy.
  pose proof (edit_update "g" pt old new e) as H.
  assert (FALSE : forall m, UpdatePolicy (e_model e) "g" pt old new = Ok (m, false) -> snd (i_updatePolicy "g" pt old new e) = Ok false).
  { intros m Q. unfold i_updatePolicy, mbind at 1, on_model. rewrite Q. reflexivity. }
  destruct (i_updatePolicy "g" pt old new e) as [e' out]. unfold after_edit in H. simpl in H, FALSE.
  assert (A1 : stored e "g" pt = rules_of (a_policy a)) by (apply rules_in_get; auto).
  rewrite A1 in *. pose proof (writes_update (e_model e) "g" pt old new) as W. unfold UpdatePolicy in *. rewrite A in *. cbn [bind] in *.
  destruct (erase_first old (rules_of (a_policy a))) as [l|] eqn:E.
  - apply erase_first_some in E. destruct E as [pre [x [post [E1 [E2 [P N]]]]]].
    assert (x = old) by (apply NA; auto; rewrite E1, in_app_iff; simpl; auto). subst x.
    assert (In old (rules_of (a_policy a))) by (rewrite E1, in_app_iff; simpl; auto).
    assert (U : forall p q, rules_of (a_policy a) = p ++ old :: q -> p = pre /\ q = post).
    { intros p q Q. rewrite E1 in Q, ND. clear - Q ND. revert p Q.
      induction pre as [|y pre IH]; simpl; intros.
      - destruct p; simpl in Q; inversion Q; subst; auto. simpl in ND. inversion ND; subst. exfalso. apply H1. rewrite in_app_iff. simpl; auto.
      - destruct p; simpl in Q; inversion Q; subst.
        + inversion ND; subst. exfalso. apply H1. rewrite in_app_iff. simpl; auto.
        + inversion ND; subst. destruct (IH H3 p H1) as [-> ->]. auto. }
    destruct (has_rule l new) eqn:HN; destruct H as [S B].
    + split; [eapply others_asts; eauto|]. split; [tauto|].
      intros p q Q NN NI. destruct (U p q Q) as [-> ->]. exfalso. subst l. apply has_rule_in in HN; auto.
    + split; [eapply others_asts; eauto|]. split; [tauto|].
      intros p q Q NN NI. destruct (U p q Q) as [-> ->]. split; [auto|].
      rewrite (stored_asts _ _ _ _ _ S), rules_in_put, emplace_new by (rewrite rules_with; auto).
      rewrite rules_with, E2, <- app_assoc. reflexivity.
  - destruct H as [S B]. apply erase_first_none in E. apply has_rule_false in E; auto.
    split; [eapply others_asts; eauto|]. split.
    + intros _. rewrite (stored_asts _ _ _ _ _ S), (rules_in_get _ _ _ _ A). eauto.
    + intros pre post Q. exfalso. apply E. rewrite Q, in_app_iff. simpl; auto.
Qed.
