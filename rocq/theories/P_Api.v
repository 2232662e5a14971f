(** Lemmas about the management functions of the enforcer. *)
From Coq Require Import Permutation.
From Verif Require Import Base P_Base M_Util M_RoleManager M_Model M_Persist M_Evaluator M_Enforcer S_Policy P_Decide P_Store.

(** ** The common tail of the internal functions: save, notify, return true *)
Definition tail (c : acall) : M bool := autosave c ;;; notify ;;; ret true.

(** Everything but adapter and watcher. *)
Definition same_core (e e' : enforcer) : Prop :=
  e_model e' = e_model e /\ e_heap e' = e_heap e /\ e_rm e' = e_rm e /\ e_fs e' = e_fs e /\ e_ev e' = e_ev e /\
  e_enabled e' = e_enabled e /\ e_auto_save e' = e_auto_save e /\ e_auto_build e' = e_auto_build e /\ e_notify e' = e_notify e.

Lemma autosave_core : forall c e, same_core e (fst (autosave c e)) /\ e_watcher (fst (autosave c e)) = e_watcher e.
Proof.
  intros. unfold autosave. destruct (e_adapter e); [|repeat split]. destruct (e_auto_save e) eqn:A; [|repeat split; auto].
  destruct (adapter_call a c) as [a' out]. destruct out as [|[]|]; simpl; repeat split; auto.
Qed.
Lemma autosave_out : forall c e, save_fine e c -> snd (autosave c e) = Ok tt.
Proof.
  intros c e S. unfold autosave, save_fine in *. destruct (e_adapter e); auto.
  destruct (e_auto_save e); auto. destruct (adapter_call a c) as [a' out]. simpl in S.
  destruct S as [S|[->| ->]]; try discriminate; destruct e; reflexivity.
Qed.
Lemma notify_core : forall e, same_core e (fst (notify e)) /\ e_adapter (fst (notify e)) = e_adapter e /\ snd (notify e) = Ok tt.
Proof.
  intros. unfold notify. destruct (e_watcher e); [|repeat split]. destruct (e_notify e) eqn:N; repeat split; auto.
Qed.
Lemma same_core_trans : forall a b c, same_core a b -> same_core b c -> same_core a c.
Proof. unfold same_core. intuition congruence. Qed.
Lemma same_core_refl : forall a, same_core a a.
Proof. intros. repeat split. Qed.
Lemma tail_core : forall c e, same_core e (fst (tail c e)).
Proof.
  intros. unfold tail, mbind. destruct (autosave_core c e) as [A _].
  destruct (autosave c e) as [e1 [u|t|u]]; auto. simpl in A.
  destruct (notify_core e1) as [B [_ C]]. destruct (notify e1) as [e2 out]. simpl in *. subst. simpl.
  eapply same_core_trans; eauto.
Qed.
Lemma tail_model : forall c e, e_model (fst (tail c e)) = e_model e.
Proof. intros. apply tail_core. Qed.
Lemma tail_out : forall c e, save_fine e c -> snd (tail c e) = Ok true.
Proof.
  intros c e S. unfold tail, mbind. pose proof (autosave_out c e S) as A.
  destruct (autosave c e) as [e1 o1]. simpl in A. subst.
  destruct (notify_core e1) as [_ [_ B]]. destruct (notify e1) as [e2 o2]. simpl in B. subst. reflexivity.
Qed.
Lemma tail_out_inv : forall c e b, snd (tail c e) = Ok b -> b = true.
Proof.
  intros c e b. unfold tail, mbind. destruct (autosave c e) as [e1 [u|t|u]]; simpl; try discriminate.
  destruct (notify e1) as [e2 [u2|t|u2]]; simpl; congruence.
Qed.

(** ** The internal functions on section p *)
Lemma i_addPolicy_p : forall pt r e, i_addPolicy "p" pt r e =
  match AddPolicy (e_model e) "p" pt r with
  | Ok (m, true) => tail (CAdd "p" pt r) (set_model m e)
  | Ok (m, false) => (set_model m e, Ok false)
  | Throw t => (e, Throw t)
  | UB u => (e, UB u)
  end.
Proof.
  intros. unfold i_addPolicy, mbind at 1, on_model.
  destruct (AddPolicy (e_model e) "p" pt r) as [[m []]|t|u]; reflexivity.
Qed.
Lemma i_removePolicy_p : forall pt r e, i_removePolicy "p" pt r e =
  match RemovePolicy (e_model e) "p" pt r with
  | Ok (m, true) => tail (CRemove "p" pt r) (set_model m e)
  | Ok (m, false) => (set_model m e, Ok false)
  | Throw t => (e, Throw t)
  | UB u => (e, UB u)
  end.
Proof.
  intros. unfold i_removePolicy, mbind at 1, on_model.
  destruct (RemovePolicy (e_model e) "p" pt r) as [[m []]|t|u]; reflexivity.
Qed.
Lemma i_addPolicies_p : forall pt rs e, i_addPolicies "p" pt rs e =
  match AddPolicies (e_model e) "p" pt rs with
  | Ok (m, true) => tail (CAddMany "p" pt rs) (set_model m e)
  | Ok (m, false) => (set_model m e, Ok false)
  | Throw t => (e, Throw t)
  | UB u => (e, UB u)
  end.
Proof.
  intros. unfold i_addPolicies, mbind at 1, on_model.
  destruct (AddPolicies (e_model e) "p" pt rs) as [[m []]|t|u]; reflexivity.
Qed.
Lemma i_removePolicies_p : forall pt rs e, i_removePolicies "p" pt rs e =
  match AddPolicies (e_model e) "p" pt rs with
  | Ok (m, true) => tail (CRemoveMany "p" pt rs) (set_model m e)
  | Ok (m, false) => (set_model m e, Ok false)
  | Throw t => (e, Throw t)
  | UB u => (e, UB u)
  end.
Proof.
  intros. unfold i_removePolicies, mbind at 1, on_model.
  destruct (AddPolicies (e_model e) "p" pt rs) as [[m []]|t|u]; reflexivity.
Qed.
Lemma i_removeFilteredPolicy_p : forall pt i vals e, i_removeFilteredPolicy "p" pt i vals e =
  match RemoveFilteredPolicy (e_model e) "p" pt i vals with
  | Ok (m, (true, _)) => tail (CRemoveFiltered "p" pt i vals) (set_model m e)
  | Ok (m, (false, _)) => (set_model m e, Ok false)
  | Throw t => (e, Throw t)
  | UB u => (e, UB u)
  end.
Proof.
  intros. unfold i_removeFilteredPolicy, mbind at 1, on_model.
  destruct (RemoveFilteredPolicy (e_model e) "p" pt i vals) as [[m [[] eff]]|t|u]; reflexivity.
Qed.
Lemma i_updatePolicy_p : forall pt old new e, i_updatePolicy "p" pt old new e =
  match UpdatePolicy (e_model e) "p" pt old new with
  | Ok (m, true) => (fst (notify (set_model m e)), Ok true)
  | Ok (m, false) => (set_model m e, Ok false)
  | Throw t => (e, Throw t)
  | UB u => (e, UB u)
  end.
Proof.
  intros. unfold i_updatePolicy, mbind at 1, on_model.
  destruct (UpdatePolicy (e_model e) "p" pt old new) as [[m []]|t|u]; try reflexivity.
  cbn [negb]. unfold mbind. cbn. destruct (notify_core (set_model m e)) as [_ [_ N]].
  destruct (notify (set_model m e)) as [e2 o2]. simpl in N. subst. reflexivity.
Qed.
Lemma i_updatePolicies_p : forall pt olds news e, i_updatePolicies "p" pt olds news e =
  match UpdatePolicies (e_model e) "p" pt olds news with
  | Ok (m, true) => (fst (notify (set_model m e)), Ok true)
  | Ok (m, false) => (set_model m e, Ok false)
  | Throw t => (e, Throw t)
  | UB u => (e, UB u)
  end.
Proof.
  intros. unfold i_updatePolicies, mbind at 1, on_model.
  destruct (UpdatePolicies (e_model e) "p" pt olds news) as [[m []]|t|u]; try reflexivity.
  cbn [negb]. unfold mbind. cbn. destruct (notify_core (set_model m e)) as [_ [_ N]].
  destruct (notify (set_model m e)) as [e2 o2]. simpl in N. subst. reflexivity.
Qed.

Lemma set_model_id : forall e, set_model (e_model e) e = e.
Proof. intros []. reflexivity. Qed.
Lemma save_fine_model : forall m e c, save_fine (set_model m e) c <-> save_fine e c.
Proof. intros. unfold save_fine. simpl. tauto. Qed.
Lemma stored_model : forall e e' sec pt, e_model e' = e_model e -> stored e' sec pt = stored e sec pt.
Proof. intros. unfold stored. rewrite H. reflexivity. Qed.

(** ** AddNamedPolicy and friends *)
Lemma add_named : forall e pt r, declared e "p" pt -> no_anagram r (stored e "p" pt) ->
  let (e', out) := AddNamedPolicy pt r e in
  others_kept "p" pt e e' /\
  (In r (stored e "p" pt) -> out = Ok false /\ e' = e) /\
  (~ In r (stored e "p" pt) ->
     stored e' "p" pt = stored e "p" pt ++ [r] /\ (save_fine e (CAdd "p" pt r) -> out = Ok true)).
Proof.
  intros e pt r [a A] NA. unfold AddNamedPolicy. rewrite i_addPolicy_p. unfold AddPolicy. rewrite A. cbn [bind].
  unfold stored in *. rewrite (rules_in_get _ _ _ _ A) in *.
  destruct (has_rule (rules_of (a_policy a)) r) eqn:H.
  - rewrite set_model_id. apply has_rule_in in H; auto. split; [intros ? ? _; auto|]. tauto.
  - pose proof H as H0. apply has_rule_false in H; auto.
    set (m := put_policy (e_model e) "p" pt a (emplace (a_policy a) r)).
    pose proof (tail_model (CAdd "p" pt r) (set_model m e)) as TM.
    pose proof (tail_out (CAdd "p" pt r) (set_model m e)) as TO.
    destruct (tail (CAdd "p" pt r) (set_model m e)) as [e' out]. simpl in *.
    split; [|split; [tauto|]].
    + intros s q N. unfold stored. rewrite TM. unfold m. apply rules_in_put_other. auto.
    + intros _. split; [|auto]. rewrite TM. unfold m. rewrite rules_in_put. apply emplace_new. auto.
Qed.

Lemma has_named : forall e pt r, declared e "p" pt -> no_anagram r (stored e "p" pt) ->
  exists b, HasNamedPolicy pt r e = (e, Ok b) /\ (b = true <-> In r (stored e "p" pt)).
Proof.
  intros e pt r [a A] NA. unfold HasNamedPolicy, read_model, HasPolicy. rewrite A. cbn [bind].
  unfold stored in *. rewrite (rules_in_get _ _ _ _ A) in *. eexists. split; [reflexivity|]. apply has_rule_in. auto.
Qed.

Lemma remove_named : forall e pt r, declared e "p" pt -> no_anagram r (stored e "p" pt) -> NoDup (stored e "p" pt) ->
  let (e', out) := RemoveNamedPolicy pt r e in
  others_kept "p" pt e e' /\
  (~ In r (stored e "p" pt) -> out = Ok false /\ e' = e) /\
  (In r (stored e "p" pt) ->
     (save_fine e (CRemove "p" pt r) -> out = Ok true) /\ ~ In r (stored e' "p" pt) /\
     exists pre post, stored e "p" pt = pre ++ r :: post /\ stored e' "p" pt = pre ++ post).
Proof.
  intros e pt r [a A] NA ND. unfold RemoveNamedPolicy. rewrite i_removePolicy_p. unfold RemovePolicy. rewrite A. cbn [bind].
  unfold stored in *. rewrite (rules_in_get _ _ _ _ A) in *.
  destruct (erase_first r (rules_of (a_policy a))) as [l|] eqn:E.
  - apply erase_first_some in E. destruct E as [pre [x [post [E1 [E2 [P N]]]]]].
    assert (x = r) by (apply NA; auto; rewrite E1, in_app_iff; simpl; auto). subst x.
    set (m := put_policy (e_model e) "p" pt a (with_rules (a_policy a) l)).
    pose proof (tail_model (CRemove "p" pt r) (set_model m e)) as TM.
    pose proof (tail_out (CRemove "p" pt r) (set_model m e)) as TO.
    destruct (tail (CRemove "p" pt r) (set_model m e)) as [e' out]. simpl in *.
    split; [|split].
    + intros s q N'. unfold stored. rewrite TM. unfold m. apply rules_in_put_other. auto.
    + intros C. exfalso. apply C. rewrite E1, in_app_iff. simpl. auto.
    + intros _. split; auto. rewrite TM. unfold m. rewrite rules_in_put, rules_with, E2. split; [|eauto].
      rewrite E1 in ND. apply NoDup_remove_2 in ND. auto.
  - rewrite set_model_id. apply erase_first_none in E. apply has_rule_false in E; auto.
    split; [intros ? ? _; auto|]. tauto.
Qed.

Lemma add_many : forall e pt rs, declared e "p" pt -> (forall r, In r rs -> no_anagram r (stored e "p" pt)) ->
  let (e', out) := AddNamedPolicies pt rs e in
  others_kept "p" pt e e' /\
  ((exists r, In r rs /\ In r (stored e "p" pt)) -> out = Ok false /\ e' = e) /\
  ((forall r, In r rs -> ~ In r (stored e "p" pt)) ->
     (forall x, In x (stored e' "p" pt) <-> In x rs \/ In x (stored e "p" pt)) /\
     (NoDup rs -> stored e' "p" pt = stored e "p" pt ++ rs) /\
     (save_fine e (CAddMany "p" pt rs) -> out = Ok true)).
Proof.
  intros e pt rs [a A] NA. unfold AddNamedPolicies. rewrite i_addPolicies_p. unfold AddPolicies. rewrite A. cbn [bind].
  destruct rs as [|r0 rs0].
  - rewrite set_model_id. pose proof (tail_model (CAddMany "p" pt []) e) as TM.
    pose proof (tail_out (CAddMany "p" pt []) e) as TO.
    destruct (tail (CAddMany "p" pt []) e) as [e' out]. simpl in *. split; [|split].
    + intros s q _. apply stored_model. auto.
    + intros [r [[] _]].
    + intros _. rewrite (stored_model e e') by auto. split; [tauto|]. split; auto. intros _. rewrite app_nil_r. auto.
  - set (rs := r0 :: rs0) in *. clearbody rs. clear r0 rs0.
    unfold stored in *. rewrite (rules_in_get _ _ _ _ A) in *.
    destruct (existsb (has_rule (rules_of (a_policy a))) rs) eqn:H.
    + rewrite set_model_id. apply existsb_exists in H. destruct H as [r [I H]]. apply has_rule_in in H; auto.
      split; [intros ? ? _; auto|]. split; auto. intros N. exfalso. eapply N; eauto.
    + assert (H0 : forall r, In r rs -> ~ In r (rules_of (a_policy a))).
      { intros r I C. assert (existsb (has_rule (rules_of (a_policy a))) rs = true); [|congruence].
        apply existsb_exists. exists r. split; auto. apply has_rule_in; auto. }
      set (m := put_policy (e_model e) "p" pt a (fold_left emplace rs (a_policy a))).
      pose proof (tail_model (CAddMany "p" pt rs) (set_model m e)) as TM.
      pose proof (tail_out (CAddMany "p" pt rs) (set_model m e)) as TO.
      destruct (tail (CAddMany "p" pt rs) (set_model m e)) as [e' out]. simpl in *. split; [|split].
      * intros s q N'. unfold stored. rewrite TM. unfold m. apply rules_in_put_other. auto.
      * intros [r [I C]]. exfalso. eapply H0; eauto.
      * intros _. rewrite TM. unfold m. rewrite rules_in_put. split; [|split; auto].
        -- intros x. apply fold_emplace_in.
        -- intros ND. destruct (a_policy a) as [l|l].
           ++ rewrite fold_emplace_vec. reflexivity.
           ++ rewrite fold_emplace_hash; auto.
Qed.

Lemma remove_many_adds : forall e pt rs,
  stored (fst (RemoveNamedPolicies pt rs e)) "p" pt = stored (fst (AddNamedPolicies pt rs e)) "p" pt.
Proof.
  intros. unfold RemoveNamedPolicies, AddNamedPolicies. rewrite i_addPolicies_p, i_removePolicies_p.
  destruct (AddPolicies (e_model e) "p" pt rs) as [[m []]|t|u]; auto.
  unfold stored. rewrite !tail_model. reflexivity.
Qed.

Lemma update_named : forall e pt old new, declared e "p" pt ->
  no_anagram old (stored e "p" pt) -> NoDup (stored e "p" pt) ->
  let (e', out) := UpdateNamedPolicy pt old new e in
  others_kept "p" pt e e' /\
  (~ In old (stored e "p" pt) -> out = Ok false /\ e' = e) /\
  (forall pre post, stored e "p" pt = pre ++ old :: post -> no_anagram new (pre ++ post) -> ~ In new (pre ++ post) ->
     out = Ok true /\ stored e' "p" pt = pre ++ post ++ [new]) /\
  (forall pre post, stored e "p" pt = pre ++ old :: post -> In new (pre ++ post) ->
     out = Ok false /\ stored e' "p" pt = pre ++ post).
Proof.
  intros e pt old new [a A] NA ND. unfold UpdateNamedPolicy. rewrite i_updatePolicy_p. unfold UpdatePolicy. rewrite A. cbn [bind].
  unfold stored in *. rewrite (rules_in_get _ _ _ _ A) in *.
  destruct (erase_first old (rules_of (a_policy a))) as [l|] eqn:E.
  - apply erase_first_some in E. destruct E as [pre [x [post [E1 [E2 [P N]]]]]].
    assert (x = old) by (apply NA; auto; rewrite E1, in_app_iff; simpl; auto). subst x.
    assert (U : forall p q, rules_of (a_policy a) = p ++ old :: q -> p = pre /\ q = post).
    { intros p q Q. rewrite E1 in Q, ND. clear - Q ND. revert p Q.
      induction pre as [|y pre IH]; simpl; intros.
      - destruct p; simpl in Q; inversion Q; subst; auto. simpl in ND. inversion ND; subst. exfalso. apply H1. rewrite in_app_iff. simpl; auto.
      - destruct p; simpl in Q; inversion Q; subst.
        + inversion ND; subst. exfalso. apply H1. rewrite in_app_iff. simpl; auto.
        + inversion ND; subst. destruct (IH H3 p H1) as [-> ->]. auto. }
    destruct (has_rule l new) eqn:HN.
    + split; [|split; [|split]].
      * intros s q N'. unfold stored. simpl. apply rules_in_put_other. auto.
      * intros C. exfalso. apply C. rewrite E1, in_app_iff. simpl. auto.
      * intros p q Q NN NI. destruct (U p q Q) as [-> ->]. exfalso. subst l. apply has_rule_in in HN; auto.
      * intros p q Q NI. destruct (U p q Q) as [-> ->]. split; auto. simpl. rewrite rules_in_put, rules_with. auto.
    + set (m := put_policy (e_model e) "p" pt a (emplace (with_rules (a_policy a) l) new)).
      destruct (notify_core (set_model m e)) as [[NM _] _]. simpl in NM.
      split; [|split; [|split]].
      * intros s q N'. unfold stored. rewrite NM. unfold m. apply rules_in_put_other. auto.
      * intros C. exfalso. apply C. rewrite E1, in_app_iff. simpl. auto.
      * intros p q Q NN NI. destruct (U p q Q) as [-> ->]. split; auto. rewrite NM. unfold m. rewrite rules_in_put.
        rewrite emplace_new by (rewrite rules_with; auto). rewrite rules_with, E2, <- app_assoc. reflexivity.
      * intros p q Q NI. destruct (U p q Q) as [-> ->]. exfalso. subst l.
        assert (has_rule (pre ++ post) new = true); [|congruence]. apply has_rule_true. exists new. auto.
  - rewrite set_model_id. apply erase_first_none in E. apply has_rule_false in E; auto.
    split; [intros ? ? _; auto|]. split; [tauto|]. split; intros pre post Q; exfalso; apply E; rewrite Q, in_app_iff; simpl; auto.
Qed.

(** ** UpdatePolicies *)
Lemma erase_all_app : forall olds l, (forall r, In r olds -> no_anagram r l) -> NoDup l -> NoDup olds ->
  (forall r, In r olds -> In r l) ->
  exists l', erase_all olds l = (l', true) /\ selects (fun r => ~ In r olds) l l'.
Proof.
  induction olds as [|o os IH]; simpl; intros l NA ND NO IN.
  - exists l. split; auto. clear. induction l; constructor; auto.
  - destruct (erase_first o l) as [l1|] eqn:E.
    + apply erase_first_some in E. destruct E as [pre [x [post [-> [-> [P N]]]]]].
      assert (x = o) by (apply (NA o); auto; rewrite in_app_iff; simpl; auto). subst x.
      pose proof (NoDup_remove_1 _ _ _ ND) as ND1. pose proof (NoDup_remove_2 _ _ _ ND) as ND2.
      inversion NO; subst.
      destruct (IH (pre ++ post)) as [l' [E S]]; auto.
      * intros r I x X. apply NA; auto. rewrite in_app_iff in *. simpl. tauto.
      * intros r I. specialize (IN r (or_intror I)). rewrite in_app_iff in *. simpl in IN.
        destruct IN as [|[<-|]]; tauto.
      * exists l'. split; auto. clear - S ND2.
        assert (G : forall p l', selects (fun r => ~ In r os) (p ++ post) l' -> ~ In o (p ++ post) ->
                    selects (fun r => ~ (o = r \/ In r os)) (p ++ o :: post) l').
        { induction p as [|y p IHp]; simpl; intros l1 S1 N1.
          - apply sel_drop; [tauto|]. clear - S1 N1. induction S1; simpl in N1; [apply sel_nil|apply sel_keep; [intros [V|V]; [apply N1; auto|auto]|apply IHS1; tauto]|apply sel_drop; [tauto|apply IHS1; tauto]].
          - inversion S1; subst; [apply sel_keep; [intros [V|V]; [apply N1; auto|auto]|]|apply sel_drop; [tauto|]]; apply IHp; auto; tauto. }
        apply G; auto.
    + exfalso. apply erase_first_none in E. apply has_rule_false in E; auto.
Qed.

Lemma update_many : forall e pt olds news, declared e "p" pt ->
  (forall r, In r (olds ++ news) -> no_anagram r (stored e "p" pt)) -> NoDup (stored e "p" pt) ->
  NoDup olds -> NoDup news ->
  (forall r, In r olds -> In r (stored e "p" pt)) ->
  (forall r, In r news -> In r (stored e "p" pt) -> In r olds) ->
  let (e', out) := UpdateNamedPolicies pt olds news e in
  others_kept "p" pt e e' /\ out = Ok true /\
  exists kept, selects (fun r => ~ In r olds) (stored e "p" pt) kept /\ stored e' "p" pt = kept ++ news.
Proof.
  intros e pt olds news [a A] NA ND NO NN IN NEW. unfold UpdateNamedPolicies. rewrite i_updatePolicies_p. unfold UpdatePolicies. rewrite A. cbn [bind].
  unfold stored in *. rewrite (rules_in_get _ _ _ _ A) in *.
  destruct (erase_all_app olds (rules_of (a_policy a))) as [kept [E S]]; auto.
  { intros. apply NA. rewrite in_app_iff. auto. }
  rewrite E. cbn [negb].
  assert (K : forall r, In r news -> ~ In r kept).
  { intros r I C. eapply selects_in in C; eauto. destruct C as [C1 C2]. auto. }
  destruct (existsb (has_rule kept) news) eqn:X.
  - exfalso. apply existsb_exists in X. destruct X as [r [I X]]. apply has_rule_in in X. { eapply K; eauto. }
    intros x Ix. apply NA. { rewrite in_app_iff; auto. } eapply selects_in in Ix; eauto. tauto.
  - set (m := put_policy (e_model e) "p" pt a (fold_left emplace news (with_rules (a_policy a) kept))).
    destruct (notify_core (set_model m e)) as [[NM _] _]. simpl in NM. split; [|split; auto].
    + intros s q N'. unfold stored. rewrite NM. unfold m. apply rules_in_put_other. auto.
    + exists kept. split; auto. rewrite NM. unfold m. rewrite rules_in_put. destruct (a_policy a); simpl.
      * rewrite fold_emplace_vec. reflexivity.
      * rewrite fold_emplace_hash; auto.
Qed.

(** ** Filters *)
Lemma get_filtered : forall e sec pt i vals, declared e sec pt ->
  match GetFilteredPolicy (e_model e) sec pt i vals with
  | Ok l => selects (qualifies i vals) (stored e sec pt) l
  | Throw _ => False
  | UB _ => ~ filter_in_range i vals (stored e sec pt)
  end.
Proof.
  intros e sec pt i vals [a A]. unfold GetFilteredPolicy. rewrite A. cbn [bind]. unfold stored. rewrite (rules_in_get _ _ _ _ A).
  destruct (filter_rules i vals (rules_of (a_policy a))) as [l|t|u] eqn:F.
  - apply filter_rules_spec. auto.
  - clear A. revert F. generalize (rules_of (a_policy a)) as l. intros l. revert t.
    induction l as [|r l IH]; simpl; intros; try discriminate.
    assert (FM : forall vs j t', field_match r j vs <> Throw t').
    { clear. induction vs; simpl; intros; try discriminate. destruct (String.eqb a ""); auto.
      destruct (nth_error r j); try discriminate. destruct (String.eqb s a); auto; discriminate. }
    destruct (field_match r i vals) eqn:E; simpl in F; try discriminate.
    + destruct (filter_rules i vals l) eqn:G; simpl in F; try discriminate. eapply IH; eauto.
    + eapply FM; eauto.
  - intro R. apply filter_rules_range in R. destruct R as [l' L]. congruence.
Qed.

Lemma remove_filtered : forall e pt i vals l, declared e "p" pt -> GetFilteredPolicy (e_model e) "p" pt i vals = Ok l ->
  let (e', out) := RemoveFilteredNamedPolicy pt i vals e in
  others_kept "p" pt e e' /\
  selects (fun r => ~ qualifies i vals r) (stored e "p" pt) (stored e' "p" pt) /\
  (l = [] -> out = Ok false) /\
  (l <> [] -> (save_fine e (CRemoveFiltered "p" pt i vals) -> out = Ok true) /\ forall b, out = Ok b -> b = true).
Proof.
  intros e pt i vals l [a A] G. unfold RemoveFilteredNamedPolicy. rewrite i_removeFilteredPolicy_p. unfold RemoveFilteredPolicy.
  unfold GetFilteredPolicy in G. rewrite A in *. cbn [bind] in *. unfold stored. rewrite (rules_in_get _ _ _ _ A).
  assert (PR : exists tmp, partition_rules i vals (rules_of (a_policy a)) = Ok (l, tmp)).
  { clear A. revert l G. generalize (rules_of (a_policy a)) as rs. induction rs as [|r rs IH]; simpl; intros.
    - inversion G; eauto.
    - destruct (field_match r i vals) as [b| |]; simpl in *; try discriminate.
      destruct (filter_rules i vals rs) as [l1| |]; simpl in *; try discriminate.
      destruct (IH l1 eq_refl) as [tmp T]. rewrite T. simpl. destruct b; inversion G; eauto. }
  destruct PR as [tmp PR]. rewrite PR. cbn [bind]. apply partition_rules_spec in PR. destruct PR as [S1 S2].
  set (m := put_policy (e_model e) "p" pt a (Vec tmp)).
  destruct l as [|l0 ls].
  - split; [|split; [|split; [auto|congruence]]].
    + intros s q N'. unfold stored. simpl. apply rules_in_put_other. auto.
    + simpl. unfold m. rewrite rules_in_put. auto.
  - pose proof (tail_model (CRemoveFiltered "p" pt i vals) (set_model m e)) as TM.
    pose proof (tail_out (CRemoveFiltered "p" pt i vals) (set_model m e)) as TO.
    pose proof (tail_out_inv (CRemoveFiltered "p" pt i vals) (set_model m e)) as TI.
    destruct (tail (CRemoveFiltered "p" pt i vals) (set_model m e)) as [e' out]. simpl in *.
    split; [|split; [|split; [congruence|]]].
    + intros s q N'. unfold stored. rewrite TM. unfold m. apply rules_in_put_other. auto.
    + rewrite TM. unfold m. rewrite rules_in_put. auto.
    + intros _. split; auto.
Qed.

(** ** Listings *)
Lemma values_spec : forall m sec pt i a, get_ast m sec pt = Ok a ->
  match GetValuesForFieldInPolicy m sec pt i with
  | Ok vs => NoDup vs /\ forall v, In v vs <-> exists r, In r (rules_in m sec pt) /\ nth_error r i = Some v
  | Throw _ => False
  | UB _ => exists r, In r (rules_in m sec pt) /\ List.length r <= i
  end.
Proof.
  intros m sec pt i a A. unfold GetValuesForFieldInPolicy. rewrite A. cbn [bind]. rewrite (rules_in_get _ _ _ _ A).
  generalize (rules_of (a_policy a)) as l. intros l.
  pose (f := fun r : list string => match nth_error r i with Some x => Ok x | None => UB OutOfBounds end).
  assert (H : match mapr f l with
              | Ok vs => forall v, In v vs <-> exists r, In r l /\ nth_error r i = Some v
              | Throw _ => False
              | UB _ => exists r, In r l /\ List.length r <= i end).
  { induction l as [|r l IH]; simpl.
    - intros v. split; [tauto|]. intros [r [[] _]].
    - unfold f at 1. destruct (nth_error r i) as [x|] eqn:E; cbn [bind].
      + destruct (mapr f l) as [vs| |]; cbn [bind].
        * intros v. simpl. rewrite IH. split.
          -- intros [->|[r' [I N]]]; eauto.
          -- intros [r' [[<-|I] N]]; [left; congruence|right; eauto].
        * auto.
        * destruct IH as [r' [I N]]. eauto.
      + exists r. split; auto. apply nth_error_None. auto. }
  change (fun r : list string => match nth_error r i with Some x => Ok x | None => UB OutOfBounds end) with f.
  destruct (mapr f l) as [vs| |]; cbn [bind]; auto.
  split; [apply dedup_nodup|]. intros v. unfold ArrayRemoveDuplicates. rewrite dedup_in, H. simpl. tauto.
Qed.
