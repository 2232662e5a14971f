(** Absence of duplicate rules as an invariant of histories; ClearPolicy. *)
From Coq Require Import Permutation.
From Verif Require Import Base P_Base M_Util M_RoleManager M_Model M_Persist M_Evaluator M_Enforcer S_Policy S_History P_Decide P_Store P_Api P_History.

Definition all_distinct (e : enforcer) : Prop := forall sec pt, NoDup (stored e sec pt).

(** Calls that do not bring in a duplicate themselves: batches of distinct rules, no
    loading from outside. *)
Definition brings_distinct (c : call) : Prop :=
  match c with
  | KAddPolicies _ rs | KRemovePolicies _ rs | KAddGroupings _ rs | KRemoveGroupings _ rs => NoDup rs
  | KUpdatePolicies _ _ news => NoDup news
  | KLoadPolicy | KLoadFilteredPolicy _ => False
  | KSetModel m => forall sec pt, NoDup (rules_in m sec pt)
  | _ => True
  end.

Lemma has_rule_not_in : forall l r, has_rule l r = false -> ~ In r l.
Proof.
  intros l r H C. assert (has_rule l r = true); [|congruence]. apply has_rule_true. exists r. auto.
Qed.
Lemma nodup_emplace : forall s r, NoDup (rules_of s) -> has_rule (rules_of s) r = false -> NoDup (rules_of (emplace s r)).
Proof.
  intros. rewrite emplace_new by auto. apply NoDup_app; auto. { repeat constructor. simpl. tauto. }
  intros x I [<-|[]]. eapply has_rule_not_in; eauto.
Qed.
Lemma nodup_fold : forall rs s, NoDup (rules_of s) -> NoDup rs -> (forall r, In r rs -> ~ In r (rules_of s)) ->
  NoDup (rules_of (fold_left emplace rs s)).
Proof.
  intros rs s N1 N2 D. destruct s as [l|l].
  - rewrite fold_emplace_vec. simpl in *. apply NoDup_app; auto. intros x I1 I2. eapply D; eauto.
  - rewrite fold_emplace_hash by auto. simpl in *. apply NoDup_app; auto. intros x I1 I2. eapply D; eauto.
Qed.
Lemma nodup_erase_first : forall r l l', erase_first r l = Some l' -> NoDup l -> NoDup l'.
Proof.
  intros r l l' E N. apply erase_first_some in E. destruct E as [pre [x [post [-> [-> _]]]]].
  apply NoDup_remove_1 in N. auto.
Qed.
Lemma nodup_erase_all : forall olds l, NoDup l -> NoDup (fst (erase_all olds l)).
Proof.
  induction olds; simpl; intros; auto. destruct (erase_first a l) eqn:E; auto.
  apply IHolds. eapply nodup_erase_first; eauto.
Qed.
Lemma nodup_selects : forall P l l', selects P l l' -> NoDup l -> NoDup l'.
Proof.
  intros P l l' S. induction S; intros N; auto; inversion N; subst; auto.
  constructor; auto. intro C. eapply selects_in in C; eauto. tauto.
Qed.

Lemma distinct_put : forall e sec pt a p, all_distinct e -> get_ast (e_model e) sec pt = Ok a -> NoDup (rules_of p) ->
  all_distinct (set_model (put_policy (e_model e) sec pt a p) e).
Proof.
  intros e sec pt a p D G N s q. unfold stored. simpl. destruct (pair_dec s q sec pt) as [E|E].
  - inversion E; subst. rewrite rules_in_put. auto.
  - rewrite rules_in_put_other by auto. apply D.
Qed.

Definition keeps_distinct (e e' : enforcer) : Prop := all_distinct e -> all_distinct e'.

Lemma distinct_add : forall sec pt r, keeps keeps_distinct (on_model (fun m => AddPolicy m sec pt r)).
Proof.
  intros. apply keeps_on_model. { intros e D. auto. } intros e m b. unfold AddPolicy.
  destruct (get_ast (e_model e) sec pt) as [a| |] eqn:G; try discriminate. cbn [bind].
  destruct (has_rule (rules_of (a_policy a)) r) eqn:H; intros Q; inversion Q; subst; intros D.
  - rewrite set_model_id. auto.
  - apply distinct_put; auto. apply nodup_emplace; auto. specialize (D sec pt). unfold stored in D. rewrite (rules_in_get _ _ _ _ G) in D. auto.
Qed.
Lemma distinct_add_many : forall sec pt rs, NoDup rs -> keeps keeps_distinct (on_model (fun m => AddPolicies m sec pt rs)).
Proof.
  intros sec pt rs N. apply keeps_on_model. { intros e D. auto. } intros e m b. unfold AddPolicies.
  destruct rs as [|r0 rs0]. { intros Q; inversion Q; subst. intros D. rewrite set_model_id. auto. }
  set (rs := r0 :: rs0) in *. clearbody rs.
  destruct (get_ast (e_model e) sec pt) as [a| |] eqn:G; try discriminate. cbn [bind].
  destruct (existsb (has_rule (rules_of (a_policy a))) rs) eqn:H; intros Q; inversion Q; subst; intros D.
  - rewrite set_model_id. auto.
  - apply distinct_put; auto. specialize (D sec pt). unfold stored in D. rewrite (rules_in_get _ _ _ _ G) in D.
    apply nodup_fold; auto. intros r I C.
    assert (existsb (has_rule (rules_of (a_policy a))) rs = true); [|congruence].
    apply existsb_exists. exists r. split; auto. apply has_rule_true. exists r. auto.
Qed.
Lemma distinct_remove : forall sec pt r, keeps keeps_distinct (on_model (fun m => RemovePolicy m sec pt r)).
Proof.
  intros. apply keeps_on_model. { intros e D. auto. } intros e m b. unfold RemovePolicy.
  destruct (get_ast (e_model e) sec pt) as [a| |] eqn:G; try discriminate. cbn [bind].
  destruct (erase_first r (rules_of (a_policy a))) eqn:H; intros Q; inversion Q; subst; intros D.
  - apply distinct_put; auto. rewrite rules_with. eapply nodup_erase_first; eauto.
    specialize (D sec pt). unfold stored in D. rewrite (rules_in_get _ _ _ _ G) in D. auto.
  - rewrite set_model_id. auto.
Qed.
Lemma distinct_remove_filtered : forall sec pt i vals, keeps keeps_distinct (on_model (fun m => RemoveFilteredPolicy m sec pt i vals)).
Proof.
  intros. apply keeps_on_model. { intros e D. auto. } intros e m b. unfold RemoveFilteredPolicy.
  destruct (get_ast (e_model e) sec pt) as [a| |] eqn:G; try discriminate. cbn [bind].
  destruct (partition_rules i vals (rules_of (a_policy a))) as [[eff tmp]| |] eqn:H; try discriminate. cbn [bind].
  intros Q; inversion Q; subst; intros D.
  apply distinct_put; auto. simpl. apply partition_rules_spec in H. destruct H as [_ S]. eapply nodup_selects; eauto.
  specialize (D sec pt). unfold stored in D. rewrite (rules_in_get _ _ _ _ G) in D. auto.
Qed.
Lemma distinct_update : forall sec pt old new, keeps keeps_distinct (on_model (fun m => UpdatePolicy m sec pt old new)).
Proof.
  intros. apply keeps_on_model. { intros e D. auto. } intros e m b. unfold UpdatePolicy.
  destruct (get_ast (e_model e) sec pt) as [a| |] eqn:G; try discriminate. cbn [bind].
  destruct (erase_first old (rules_of (a_policy a))) as [l|] eqn:H.
  - intros Q D. assert (N : NoDup l).
    { eapply nodup_erase_first; eauto. specialize (D sec pt). unfold stored in D. rewrite (rules_in_get _ _ _ _ G) in D. auto. }
    destruct (has_rule l new) eqn:HN; inversion Q; subst; apply distinct_put; auto.
    + rewrite rules_with. auto.
    + apply nodup_emplace; rewrite rules_with; auto.
  - intros Q; inversion Q; subst; intros D. rewrite set_model_id. auto.
Qed.
Lemma distinct_update_many : forall sec pt olds news, NoDup news -> keeps keeps_distinct (on_model (fun m => UpdatePolicies m sec pt olds news)).
Proof.
  intros sec pt olds news NN. apply keeps_on_model. { intros e D. auto. } intros e m b. unfold UpdatePolicies.
  destruct (get_ast (e_model e) sec pt) as [a| |] eqn:G; try discriminate. cbn [bind].
  pose proof (nodup_erase_all olds (rules_of (a_policy a))) as N.
  destruct (erase_all olds (rules_of (a_policy a))) as [l ok]. simpl in N.
  intros Q D. assert (NL : NoDup l).
  { apply N. specialize (D sec pt). unfold stored in D. rewrite (rules_in_get _ _ _ _ G) in D. auto. }
  destruct (negb ok); [|destruct (existsb (has_rule l) news) eqn:X]; inversion Q; subst; apply distinct_put; auto; try (rewrite rules_with; auto).
  apply nodup_fold; auto; rewrite rules_with; auto. intros r I C.
  assert (existsb (has_rule l) news = true); [|congruence].
  apply existsb_exists. exists r. split; auto. apply has_rule_true. exists r. auto.
Qed.

(** ClearPolicy *)
Lemma get_clear_sec : forall am pt, aget pt (clear_sec am) =
  option_map (fun a => with_policy a (store_clear (a_policy a))) (aget pt am).
Proof. induction am as [|[k a] am IH]; simpl; intros; auto. destruct (String.eqb pt k); auto. Qed.
Lemma clear_get : forall m sec pt, get_ast (ClearPolicy m) sec pt =
  if String.eqb sec "p" || String.eqb sec "g"
  then let! a := get_ast m sec pt in Ok (with_policy a (store_clear (a_policy a)))
  else get_ast m sec pt.
Proof.
  intros. unfold ClearPolicy, get_ast.
  assert (T : forall m s s', sec_of (touch m s) s' = sec_of m s').
  { intros. unfold touch, sec_of. rewrite aget_ainsert. seqb s' s; auto. subst. destruct (aget s m0); auto. }
  assert (A : forall m s (x : assertion_map) s', sec_of (aset s x m) s' = if String.eqb s' s then x else sec_of m s').
  { intros. unfold sec_of. rewrite aget_aset. destruct (String.eqb s' s); auto. }
  cbv zeta. repeat (rewrite A || rewrite T). simpl (String.eqb "g" "p"). cbv iota.
  destruct (String.eqb_spec sec "g") as [->|Ng].
  - simpl. rewrite get_clear_sec. destruct (aget pt (sec_of m "g")); reflexivity.
  - rewrite orb_false_r. destruct (String.eqb_spec sec "p") as [->|Np]; rewrite ?T; auto.
    rewrite get_clear_sec. destruct (aget pt (sec_of m "p")); reflexivity.
Qed.
Lemma clear_rules : forall m pt sec, sec = "p" \/ sec = "g" -> rules_in (ClearPolicy m) sec pt = [].
Proof.
  intros m pt sec S. unfold rules_in. rewrite clear_get.
  assert (String.eqb sec "p" || String.eqb sec "g" = true) as -> by (destruct S; subst; reflexivity).
  destruct (get_ast m sec pt); simpl; auto. apply rules_clear.
Qed.
Lemma clear_rules_other : forall m pt sec, sec <> "p" -> sec <> "g" -> rules_in (ClearPolicy m) sec pt = rules_in m sec pt.
Proof.
  intros m pt sec P G. unfold rules_in. rewrite clear_get. apply String.eqb_neq in P, G. rewrite P, G. reflexivity.
Qed.

Lemma edits_distinct : forall c, brings_distinct c -> edits_keep keeps_distinct c.
Proof.
  intros c B. destruct c; simpl in *; auto; try tauto;
    auto using distinct_add, distinct_add_many, distinct_remove, distinct_remove_filtered, distinct_update, distinct_update_many.
  - intros e D sec pt. unfold stored. simpl. destruct (string_dec sec "p"); [rewrite clear_rules by auto; constructor|].
    destruct (string_dec sec "g"); [rewrite clear_rules by auto; constructor|].
    rewrite clear_rules_other by auto. apply D.
  - intros e D sec pt. apply B.
Qed.
Lemma history_distinct : forall o cs e e', Forall brings_distinct cs -> all_distinct e -> reaches o e cs e' -> all_distinct e'.
Proof.
  intros o cs e e' F D H. revert D. change (keeps_distinct e e').
  apply (reaches_keeps keeps_distinct) with (o := o) (cs := cs); auto.
  - intros e1 D. exact D.
  - intros a b c H1 H2 D. apply H2, H1, D.
  - intros e1 e2 Q D sec pt. erewrite same_asts_stored by eauto. apply D.
  - clear H. induction F; constructor; auto. apply edits_distinct. auto.
Qed.
