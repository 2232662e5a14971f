(** Property C74: what the policy calls do to the stored rules, in every state. *)
From Coq Require Import Permutation.
From Verif Require Import Base P_Base M_Util M_RoleManager M_Effector M_Model M_Persist M_Eval M_Evaluator M_Enforcer M_Matcher
  S_Policy S_History S_Calls P_Decide P_Store P_Api P_History P_Nodup P_Group E_Examples T_Policy.

Lemma has_similar : forall l r, has_rule l r = true <-> similar r l.
Proof. intros. rewrite has_rule_true. reflexivity. Qed.
Lemma has_not_similar : forall l r, has_rule l r = false <-> ~ similar r l.
Proof. intros. rewrite <- has_similar. destruct (has_rule l r); intuition congruence. Qed.
Lemma first_out_some : forall r l l', erase_first r l = Some l' -> first_out r l l'.
Proof.
  intros r l l' H. apply erase_first_some in H. destruct H as [pre [x [post [E [E' [P N]]]]]].
  exists pre, x, post. repeat split; auto. intros [y [I Q]]. eapply N; eauto.
Qed.
Lemma first_out_similar : forall r l l', first_out r l l' -> similar r l.
Proof. intros r l l' [pre [x [post [-> [_ [P _]]]]]]. exists x. rewrite in_app_iff. simpl. auto. Qed.
Lemma first_out_fun : forall r l l1 l2, first_out r l l1 -> first_out r l l2 -> l1 = l2.
Proof.
  intros r l l1 l2 [pre [x [post [E [E1 [P N]]]]]] [pre' [x' [post' [E' [E2 [P' N']]]]]]. subst l1 l2. rewrite E in E'. clear E.
  revert pre' E' N'. induction pre as [|y pre IH]; intros [|y' pre'] E' N'; simpl in *; inversion E'; subst; auto.
  - exfalso. apply N'. exists y'. simpl. auto.
  - exfalso. apply N. exists x'. simpl. auto.
  - f_equal. apply IH; auto; intros [z [I Q]]; [apply N|apply N']; exists z; simpl; auto.
Qed.
(** Every call of a table comes down to one edit of the model. *)
Lemma of_adds : forall c sec pt r e, adds c sec pt r -> after_edit (fun m => AddPolicy m sec pt r) (fun b => b) e (c e).
Proof.
  intros c sec pt r e A. destruct A; try apply edit_add;
    (apply after_edit_bind; [apply edit_add|apply quiet_links_if]).
Qed.
Lemma of_removes : forall c sec pt r e, removes c sec pt r -> after_edit (fun m => RemovePolicy m sec pt r) (fun b => b) e (c e).
Proof.
  intros c sec pt r e A. destruct A; try apply edit_remove;
    (apply after_edit_bind; [apply edit_remove|apply quiet_rebuild_if]).
Qed.
Lemma of_removes_filtered : forall c sec pt i vals e, removes_filtered c sec pt i vals ->
  after_edit (fun m => RemoveFilteredPolicy m sec pt i vals) fst e (c e).
Proof.
  intros c sec pt i vals e A. destruct A; try apply edit_remove_filtered;
    (apply after_edit_bind; [apply edit_remove_filtered|apply quiet_rebuild_if]).
Qed.
Lemma edit_update_many : forall sec pt olds news e,
  after_edit (fun m => UpdatePolicies m sec pt olds news) (fun b => b) e (i_updatePolicies sec pt olds news e).
Proof.
  intros. remember (i_updatePolicies sec pt olds news e) as q eqn:Q.
  unfold i_updatePolicies, mbind at 1, on_model in Q. unfold after_edit.
  destruct (UpdatePolicies (e_model e) sec pt olds news) as [[m [|]]|x|u]; subst q; auto; simpl.
  - split; [apply keeps_update_tail; auto using same_asts_refl; apply same_asts_trans|]. apply update_tail_true.
  - split; [apply same_asts_refl|congruence].
Qed.

(** ** Queries *)
Theorem C74_asking : forall c sec pt r e, asks c sec pt r -> declared e sec pt ->
  exists b, c e = (e, Ok b) /\ (b = true <-> similar r (stored e sec pt)).
Proof.
  intros c sec pt r e A [a D].
  assert (H : c e = (e, HasPolicy (e_model e) sec pt r)) by (destruct A; reflexivity).
  unfold HasPolicy in H. rewrite D in H. cbn [bind] in H. eexists. split; [exact H|].
  unfold stored. rewrite (rules_in_get _ _ _ _ D). apply has_similar.
Qed.
Theorem C74_listing : forall c sec pt e, lists c sec pt -> declared e sec pt -> c e = (e, Ok (stored e sec pt)).
Proof.
  intros c sec pt e A [a D]. unfold stored. rewrite (rules_in_get _ _ _ _ D).
  destruct A; unfold e_GetPolicy, GetNamedPolicy, GetGroupingPolicy, GetNamedGroupingPolicy, read_policy, read_model, GetPolicy; rewrite D; reflexivity.
Qed.
Theorem C74_filtering : forall c sec pt i vals e, filters c sec pt i vals -> declared e sec pt ->
  exists out, c e = (e, out) /\
  match out with
  | Ok l => selects (qualifies i vals) (stored e sec pt) l
  | Throw _ => False
  | UB _ => ~ filter_in_range i vals (stored e sec pt)
  end.
Proof.
  intros c sec pt i vals e A D. pose proof (get_filtered e sec pt i vals D) as G.
  exists (GetFilteredPolicy (e_model e) sec pt i vals). split; auto. destruct A; reflexivity.
Qed.

(** ** Changes *)
Theorem C74_adding : forall c sec pt r e e' out, adds c sec pt r -> declared e sec pt -> c e = (e', out) ->
  others_kept sec pt e e' /\
  (similar r (stored e sec pt) -> stored e' sec pt = stored e sec pt) /\
  (~ similar r (stored e sec pt) -> stored e' sec pt = stored e sec pt ++ [r]) /\
  returns out (~ similar r (stored e sec pt)).
Proof.
  intros c sec pt r e e' out A [a D] H. pose proof (of_adds c sec pt r e A) as AE. rewrite H in AE. unfold after_edit in AE. simpl in AE.
  pose proof (writes_add (e_model e) sec pt r) as W. unfold AddPolicy in *. rewrite D in *. cbn [bind] in *.
  assert (A1 : stored e sec pt = rules_of (a_policy a)) by (apply rules_in_get; auto). rewrite A1.
  destruct (has_rule (rules_of (a_policy a)) r) eqn:HR; destruct AE as [S B]; (split; [eapply others_asts; [eapply W; reflexivity|exact S]|]);
    rewrite (stored_asts _ _ _ _ _ S).
  - apply has_similar in HR. rewrite (rules_in_get _ _ _ _ D). split; auto. split; [tauto|]. intros b O. rewrite (B b O). intuition congruence.
  - rewrite rules_in_put, emplace_new by auto. apply has_not_similar in HR. split; [tauto|]. split; auto.
    intros b O. rewrite (B b O). tauto.
Qed.
Theorem C74_adding_many : forall c sec pt rs e e' out, adds_many c sec pt rs \/ removes_many c sec pt rs -> declared e sec pt -> c e = (e', out) ->
  others_kept sec pt e e' /\
  ((exists r, In r rs /\ similar r (stored e sec pt)) -> stored e' sec pt = stored e sec pt) /\
  (~ (exists r, In r rs /\ similar r (stored e sec pt)) ->
     (forall x, In x (stored e' sec pt) <-> In x (stored e sec pt) \/ In x rs) /\
     (NoDup rs -> stored e' sec pt = stored e sec pt ++ rs)) /\
  returns out (~ exists r, In r rs /\ similar r (stored e sec pt)).
Proof.
  intros c sec pt rs e e' out A [a D] H.
  assert (AE : after_edit (fun m => AddPolicies m sec pt rs) (fun b => b) e (c e)).
  { destruct A as [A|A]; destruct A; try apply edit_add_many; apply edit_remove_many. }
  rewrite H in AE. unfold after_edit in AE. simpl in AE.
  pose proof (writes_add_many (e_model e) sec pt rs) as W.
  assert (A1 : stored e sec pt = rules_of (a_policy a)) by (apply rules_in_get; auto). rewrite A1.
  unfold AddPolicies in *. destruct rs as [|r0 rs].
  { destruct AE as [S B]. split; [eapply others_asts; [eapply W; reflexivity|exact S]|]. rewrite (stored_asts _ _ _ _ _ S), (rules_in_get _ _ _ _ D).
    split; auto. split; [intros _; split; [simpl; tauto|rewrite app_nil_r; auto]|]. intros b O. rewrite (B b O). split; auto.
    intros _ [r [[] _]]. }
  rewrite D in *. cbn [bind] in *.
  destruct (existsb (has_rule (rules_of (a_policy a))) (r0 :: rs)) eqn:HR; destruct AE as [S B];
    (split; [eapply others_asts; [eapply W; reflexivity|exact S]|]); rewrite (stored_asts _ _ _ _ _ S).
  - rewrite (rules_in_get _ _ _ _ D). apply existsb_exists in HR. destruct HR as [r [I HR]]. apply has_similar in HR.
    split; auto. split; [intros X; exfalso; eauto|]. intros b O. rewrite (B b O). split; [discriminate|]. intros X. exfalso. eauto.
  - assert (NE : ~ exists r, In r (r0 :: rs) /\ similar r (rules_of (a_policy a))).
    { intros [r [I X]]. apply has_similar in X. assert (existsb (has_rule (rules_of (a_policy a))) (r0 :: rs) = true) by (apply existsb_exists; eauto). congruence. }
    rewrite rules_in_put. split; [tauto|]. split; [intros _|intros b O; rewrite (B b O); tauto]. split.
    + intros x. pose proof (fold_emplace_in (r0 :: rs) (a_policy a) x) as F. tauto.
    + intros ND. destruct (a_policy a) as [l|l]; cbn [rules_of] in *.
      * rewrite fold_emplace_vec. reflexivity.
      * rewrite fold_emplace_hash; auto. intros r I J. apply NE. exists r. split; auto. exists r. auto.
Qed.
Theorem C74_removing : forall c sec pt r e e' out, removes c sec pt r -> declared e sec pt -> c e = (e', out) ->
  others_kept sec pt e e' /\
  (~ similar r (stored e sec pt) -> stored e' sec pt = stored e sec pt) /\
  (similar r (stored e sec pt) -> first_out r (stored e sec pt) (stored e' sec pt)) /\
  returns out (similar r (stored e sec pt)).
Proof.
  intros c sec pt r e e' out A [a D] H. pose proof (of_removes c sec pt r e A) as AE. rewrite H in AE. unfold after_edit in AE. simpl in AE.
  pose proof (writes_remove (e_model e) sec pt r) as W. unfold RemovePolicy in *. rewrite D in *. cbn [bind] in *.
  assert (A1 : stored e sec pt = rules_of (a_policy a)) by (apply rules_in_get; auto). rewrite A1.
  destruct (erase_first r (rules_of (a_policy a))) as [l|] eqn:ER; destruct AE as [S B]; (split; [eapply others_asts; [eapply W; reflexivity|exact S]|]);
    rewrite (stored_asts _ _ _ _ _ S).
  - rewrite rules_in_put, rules_with. apply first_out_some in ER. pose proof (first_out_similar _ _ _ ER). split; [tauto|]. split; auto.
    intros b O. rewrite (B b O). tauto.
  - rewrite (rules_in_get _ _ _ _ D). apply erase_first_none in ER. apply has_not_similar in ER. split; auto. split; [tauto|].
    intros b O. rewrite (B b O). intuition congruence.
Qed.
Theorem C74_removing_filtered : forall c sec pt i vals e e' out, removes_filtered c sec pt i vals -> declared e sec pt -> c e = (e', out) ->
  others_kept sec pt e e' /\
  (filter_in_range i vals (stored e sec pt) ->
     selects (fun r => ~ qualifies i vals r) (stored e sec pt) (stored e' sec pt) /\
     returns out (exists r, In r (stored e sec pt) /\ qualifies i vals r)).
Proof.
  intros c sec pt i vals e e' out A [a D] H. pose proof (of_removes_filtered c sec pt i vals e A) as AE. rewrite H in AE. unfold after_edit in AE. simpl in AE.
  pose proof (writes_remove_filtered (e_model e) sec pt i vals) as W. unfold RemoveFilteredPolicy in *. rewrite D in *. cbn [bind] in *.
  assert (A1 : stored e sec pt = rules_of (a_policy a)) by (apply rules_in_get; auto). rewrite A1.
  destruct (partition_rules i vals (rules_of (a_policy a))) as [[eff tmp]|x|u] eqn:P; cbn [bind] in AE, W.
  - destruct AE as [S B]. split; [eapply others_asts; [eapply W; reflexivity|exact S]|]. intros _.
    rewrite (stored_asts _ _ _ _ _ S), rules_in_put. apply partition_rules_spec in P. destruct P as [P1 P2]. cbn [rules_of]. split; auto.
    intros b O. rewrite (B b O). cbn [fst]. split.
    + intros NE. destruct eff as [|r eff]; [discriminate|]. exists r. apply (selects_in _ _ _ _ P1). simpl; auto.
    + intros [r X]. apply (selects_in _ _ _ _ P1) in X. destruct eff; [destruct X|reflexivity].
  - inversion AE; subst. split; [intros ? ? ?; reflexivity|]. intros R. apply partition_rules_range in R. destruct R as [e1 [e2 R]]. congruence.
  - inversion AE; subst. split; [intros ? ? ?; reflexivity|]. intros R. apply partition_rules_range in R. destruct R as [e1 [e2 R]]. congruence.
Qed.
Theorem C74_updating : forall c sec pt old new e e' out, updates c sec pt old new -> declared e sec pt -> c e = (e', out) ->
  others_kept sec pt e e' /\
  (~ similar old (stored e sec pt) -> stored e' sec pt = stored e sec pt /\ returns out False) /\
  (forall l, first_out old (stored e sec pt) l ->
     (similar new l -> stored e' sec pt = l) /\ (~ similar new l -> stored e' sec pt = l ++ [new]) /\
     returns out (~ similar new l)).
Proof.
  intros c sec pt old new e e' out A [a D] H.
  assert (AE : after_edit (fun m => UpdatePolicy m sec pt old new) (fun b => b) e (c e)) by (destruct A; apply edit_update).
  rewrite H in AE. unfold after_edit in AE. simpl in AE.
  pose proof (writes_update (e_model e) sec pt old new) as W. unfold UpdatePolicy in *. rewrite D in *. cbn [bind] in *.
  assert (A1 : stored e sec pt = rules_of (a_policy a)) by (apply rules_in_get; auto). rewrite A1.
  destruct (erase_first old (rules_of (a_policy a))) as [l|] eqn:ER.
  - apply first_out_some in ER. pose proof (first_out_similar _ _ _ ER) as SO.
    destruct (has_rule l new) eqn:HN; destruct AE as [S B]; (split; [eapply others_asts; [eapply W; reflexivity|exact S]|]); (split; [tauto|]);
      intros l0 F; rewrite (first_out_fun _ _ _ _ F ER); rewrite (stored_asts _ _ _ _ _ S), rules_in_put.
    + apply has_similar in HN. rewrite rules_with. split; auto. split; [tauto|]. intros b O. rewrite (B b O). intuition congruence.
    + rewrite emplace_new by (rewrite rules_with; auto). apply has_not_similar in HN. rewrite rules_with. split; [tauto|]. split; auto.
      intros b O. rewrite (B b O). tauto.
  - apply erase_first_none in ER. apply has_not_similar in ER. destruct AE as [S B].
    split; [eapply others_asts; [eapply W; reflexivity|exact S]|]. split.
    + intros _. rewrite (stored_asts _ _ _ _ _ S), (rules_in_get _ _ _ _ D). split; auto. intros b O. rewrite (B b O). intuition congruence.
    + intros l F. exfalso. apply ER. eapply first_out_similar; eauto.
Qed.
(** The calls that replace several rules. *)
Lemma erase_all_each : forall olds l l', erase_all olds l = (l', true) -> each_out olds l l'.
Proof.
  induction olds as [|r olds IH]; simpl; intros l l' H; [inversion H; subst; constructor|].
  destruct (erase_first r l) as [l1|] eqn:E; [|discriminate]. econstructor; [apply first_out_some; eauto|auto].
Qed.
Lemma each_out_erase : forall olds l l', each_out olds l l' -> erase_all olds l = (l', true).
Proof.
  intros olds l l' H. induction H; simpl; auto. destruct (erase_first r l) as [l3|] eqn:E.
  - apply first_out_some in E. rewrite (first_out_fun _ _ _ _ E H). auto.
  - apply erase_first_none in E. apply has_not_similar in E. exfalso. apply E. eapply first_out_similar; eauto.
Qed.
Lemma erase_all_missing : forall olds l l', erase_all olds l = (l', false) ->
  exists pre r post, olds = pre ++ r :: post /\ each_out pre l l' /\ ~ similar r l'.
Proof.
  induction olds as [|r olds IH]; simpl; intros l l' H; [discriminate|].
  destruct (erase_first r l) as [l1|] eqn:E.
  - destruct (IH _ _ H) as [pre [r' [post [-> [X N]]]]]. exists (r :: pre), r', post. split; auto. split; auto.
    econstructor; [apply first_out_some; eauto|auto].
  - inversion H; subst. apply erase_first_none in E. apply has_not_similar in E. exists [], r, olds. split; auto. split; auto. constructor.
Qed.
Theorem C74_updating_many : forall c sec pt olds news e e' out, updates_many c sec pt olds news -> declared e sec pt -> c e = (e', out) ->
  others_kept sec pt e e' /\
  (~ (exists l, each_out olds (stored e sec pt) l) ->
     returns out False /\
     exists pre r post, olds = pre ++ r :: post /\ each_out pre (stored e sec pt) (stored e' sec pt) /\ ~ similar r (stored e' sec pt)) /\
  (forall l, each_out olds (stored e sec pt) l ->
     ((exists r, In r news /\ similar r l) -> stored e' sec pt = l) /\
     (~ (exists r, In r news /\ similar r l) ->
        (forall x, In x (stored e' sec pt) <-> In x l \/ In x news) /\ (NoDup news -> stored e' sec pt = l ++ news)) /\
     returns out (~ exists r, In r news /\ similar r l)).
Proof.
  intros c sec pt olds news e e' out A [a D] H.
  assert (AE : after_edit (fun m => UpdatePolicies m sec pt olds news) (fun b => b) e (c e)) by (destruct A; apply edit_update_many).
  rewrite H in AE. unfold after_edit in AE. simpl in AE.
  pose proof (writes_update_many (e_model e) sec pt olds news) as W. unfold UpdatePolicies in *. rewrite D in *. cbn [bind] in *.
  assert (A1 : stored e sec pt = rules_of (a_policy a)) by (apply rules_in_get; auto). rewrite A1.
  destruct (erase_all olds (rules_of (a_policy a))) as [l [|]] eqn:ER; cbn [negb] in *.
  - apply erase_all_each in ER.
    assert (U : forall l0, each_out olds (rules_of (a_policy a)) l0 -> l0 = l).
    { intros l0 F. apply each_out_erase in F. apply each_out_erase in ER. congruence. }
    destruct (existsb (has_rule l) news) eqn:HN; destruct AE as [S B]; (split; [eapply others_asts; [eapply W; reflexivity|exact S]|]);
      (split; [intros X; exfalso; eauto|]); intros l0 F; rewrite (U _ F); rewrite (stored_asts _ _ _ _ _ S), rules_in_put.
    + rewrite rules_with. apply existsb_exists in HN. destruct HN as [r [I HN]]. apply has_similar in HN.
      split; auto. split; [intros X; exfalso; eauto|]. intros b O. rewrite (B b O). split; [discriminate|]. intros X. exfalso; eauto.
    + assert (NE : ~ exists r, In r news /\ similar r l).
      { intros [r [I X]]. apply has_similar in X. assert (existsb (has_rule l) news = true) by (apply existsb_exists; eauto). congruence. }
      split; [tauto|]. split; [intros _|intros b O; rewrite (B b O); tauto]. split.
      * intros x. pose proof (fold_emplace_in news (with_rules (a_policy a) l) x) as Q. rewrite rules_with in Q. tauto.
      * intros ND. destruct (a_policy a) as [l2|l2]; cbn [with_rules] in *.
        -- rewrite fold_emplace_vec. reflexivity.
        -- rewrite fold_emplace_hash; auto. intros r I J. apply NE. exists r. split; auto. exists r. auto.
  - destruct AE as [S B]. split; [eapply others_asts; [eapply W; reflexivity|exact S]|].
    rewrite (stored_asts _ _ _ _ _ S), rules_in_put, rules_with. split.
    + intros _. split; [intros b O; rewrite (B b O); intuition congruence|]. apply erase_all_missing. auto.
    + intros l0 F. apply each_out_erase in F. congruence.
Qed.

(** Every kind of call does something to a store that holds rearrangements. *)
Example C74_case : declared ex "p" "p" /\ declared ex "g" "g" /\
  similar ["read"; "alice"; "data1"] (stored ex "p" "p") /\
  stored (fst (e_AddPolicy ["read"; "alice"; "data1"] ex)) "p" "p" = stored ex "p" "p" /\
  snd (e_AddPolicy ["read"; "alice"; "data1"] ex) = Ok false /\
  stored (fst (e_RemovePolicy ["read"; "alice"; "data1"] ex)) "p" "p" = [r_bob] /\
  snd (e_UpdatePolicies [r_alice; r_bob] [["x"; "y"; "z"]] ex) = Ok true /\
  stored (fst (e_UpdatePolicies [r_alice; r_bob] [["x"; "y"; "z"]] ex)) "p" "p" = [["x"; "y"; "z"]] /\
  stored (fst (DeletePermissionsForUser "alice" ex)) "p" "p" = [r_bob] /\
  snd (GetPermissionsForUserInDomain "alice" "data1" ex) = Ok [r_alice].
Proof.
  split; [eexists; reflexivity|]. split; [eexists; reflexivity|]. split.
  - exists r_alice. split; [vm_compute; auto|]. apply ArrayEquals_perm. reflexivity.
  - repeat split; reflexivity.
Qed.
Print Assumptions C74_adding.
Print Assumptions C74_updating_many.
