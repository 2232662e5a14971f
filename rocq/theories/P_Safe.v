(** No undefined behaviour for well-formed use. *)
From Coq Require Import Permutation.
From Verif Require Import Base P_Base M_Util M_RoleManager M_Model M_Persist M_Evaluator M_Enforcer S_Policy S_History S_Safe
  P_Decide P_Store P_Api P_History P_Sync P_Ready P_Implicit P_Nodup.

Lemma hset_length : forall h i r, List.length (hset h i r) = List.length h.
Proof. induction h as [|x h IH]; intros [|i] r; simpl; auto. Qed.
Lemma hget_some : forall h i, i < List.length h -> exists r, hget h i = Ok r.
Proof.
  intros h i L. unfold hget. destruct (nth_error h i) eqn:E; eauto. apply nth_error_None in E. lia.
Qed.
Lemma defined_ok : forall A (a : A), defined (Ok a).
Proof. intros A a u H. discriminate. Qed.
Lemma defined_throw : forall A x, defined (@Throw A x).
Proof. intros A a u H. discriminate. Qed.
#[export] Hint Resolve defined_ok defined_throw : core.

Lemma defined_ub : forall A u, ~ defined (@UB A u).
Proof. intros A u H. apply (H u). reflexivity. Qed.
Lemma defined_bind : forall A B (x : res A) (k : A -> res B), defined x -> (forall a, x = Ok a -> defined (k a)) -> defined (bind x k).
Proof. intros A B [a|t|u] k D K; simpl; auto. exfalso. eapply defined_ub; eauto. Qed.

Lemma mapr_defined : forall A B (f : A -> res B) l, (forall x, In x l -> defined (f x)) -> defined (mapr f l).
Proof.
  intros A B f l. induction l as [|x l IH]; simpl; intros H; auto.
  apply defined_bind; auto. intros b _. apply defined_bind; auto.
Qed.

(** ** Role links: no outcome is undefined *)
Lemma link_rule_defined : forall op n r ru, 2 <= n -> defined (snd (link_rule op n r ru)).
Proof.
  intros op n r ru N. unfold link_rule. destruct (Nat.ltb (List.length ru) n) eqn:L; simpl; auto.
  apply Nat.ltb_ge in L. destruct ru as [|a [|b ru]]; simpl in L; try lia.
  destruct n as [|[|n]]; try lia. cbn [firstn]. destruct op.
  - unfold AddLink. destruct (Nat.ltb 1 (List.length (firstn n ru))); simpl; auto.
  - unfold DeleteLink. destruct (Nat.ltb 1 (List.length (firstn n ru))); simpl; auto.
    destruct (negb _ || negb _); simpl; auto.
Qed.
Lemma link_rules_defined : forall op n rs r, 2 <= n -> defined (snd (link_rules op n r rs)).
Proof.
  intros op n rs. induction rs as [|x xs IH]; intros r N; simpl; auto.
  pose proof (link_rule_defined op n r x N) as D. destruct (link_rule op n r x) as [r' [[]|t|u]]; simpl in *; auto.
Qed.
Lemma ast_links_defined : forall op v r rs, defined (snd (ast_links op v r rs)).
Proof.
  intros op v r rs. unfold ast_links. destruct (Nat.ltb (scount "_" v) 2) eqn:N; simpl; auto.
  apply Nat.ltb_ge in N. apply link_rules_defined. auto.
Qed.
Lemma build_asts_defined : forall todo h rm, rm < List.length h ->
  defined (snd (build_asts h rm todo)) /\ List.length (snd (fst (build_asts h rm todo))) = List.length h /\
  forall k a i, aget k (fst (fst (build_asts h rm todo))) = Some a -> a_rm a = Some i ->
    i = rm \/ exists a0, aget k todo = Some a0 /\ a_rm a0 = Some i.
Proof.
  induction todo as [|[k0 a0] rest IH]; intros h rm L; simpl.
  { split; auto. split; auto. intros; discriminate. }
  destruct (hget_some h rm L) as [r H]. rewrite H.
  pose proof (ast_links_defined policy_add (a_value a0) r (rules_of (a_policy a0))) as D.
  destruct (ast_links policy_add (a_value a0) r (rules_of (a_policy a0))) as [r' [u|t|u]]; simpl in *.
  - destruct (IH (hset h rm r') rm) as [I1 [I2 I3]]. { rewrite hset_length. auto. }
    destruct (build_asts (hset h rm r') rm rest) as [[am h'] out]. simpl in *. rewrite hset_length in I2.
    split; auto. split; auto. intros k a i A R. destruct (String.eqb k k0) eqn:E.
    + inversion A; subst. simpl in R. left. congruence.
    + apply (I3 k a i A R).
  - split; auto. rewrite hset_length. split; auto. intros k a i A R. destruct (String.eqb k k0) eqn:E.
    + inversion A; subst. simpl in R. left. congruence.
    + right. exists a. auto.
  - exfalso. apply (D u). reflexivity.
Qed.

(** ** A logic of well-formed states *)
Section Safe.
  Variable ar : arity.
  Variable e0 : enforcer.

  Record inv (e : enforcer) : Prop := mkInv {
    i_wf : well_formed ar e;
    i_shape : same_shape e0 e;
    i_batch : batch_saveable e0 -> batch_saveable e;
    i_built : links_built e0 -> links_built e }.

  Definition safe {A} (c : M A) : Prop := forall e, inv e -> defined (snd (c e)) /\ inv (fst (c e)).

  Lemma declared_shape : forall e sec pt, same_shape e0 e -> (declared e sec pt <-> declared e0 sec pt).
  Proof.
    intros e sec pt S. specialize (S sec pt). unfold declared, outline in *.
    destruct (get_ast (e_model e) sec pt), (get_ast (e_model e0) sec pt); simpl in S; try discriminate;
      split; intros [x X]; try discriminate; eauto.
  Qed.
  Lemma inv_declared : forall e sec pt, inv e -> declared e0 sec pt -> declared e sec pt.
  Proof. intros e sec pt I D. apply (declared_shape e sec pt (i_shape _ I)). auto. Qed.

  Lemma safe_ret : forall A (a : A), safe (ret a).
  Proof. intros A a e I. split; simpl; auto. Qed.
  Lemma safe_fail : forall A x, safe (@fail A x).
  Proof. intros A a e I. split; simpl; auto. Qed.
  Lemma safe_bind : forall A B (c : M A) (k : A -> M B), safe c -> (forall a, safe (k a)) -> safe (mbind c k).
  Proof.
    intros A B c k C K e I. unfold mbind. destruct (C e I) as [D I1]. destruct (c e) as [e1 [a|t|u]]; simpl in *; auto.
    - apply K. auto.
    - exfalso. apply (D u). reflexivity.
  Qed.
  Lemma safe_drop : forall A (c : M A), safe c -> safe (drop_value c).
  Proof. intros A c C. apply safe_bind; auto. intros. apply safe_ret. Qed.

  (** Only the switches, the watcher or the evaluator change. *)
  Lemma inv_other : forall e e', inv e -> e_model e' = e_model e -> e_heap e' = e_heap e -> e_rm e' = e_rm e ->
    (e_ev e' = e_ev e \/ forall v f i n, e_ev e' = Some v -> In (f, FG (Some i) n) (ev_funs v) -> i < List.length (e_heap e)) ->
    (batch_saveable e -> batch_saveable e') -> inv e'.
  Proof.
    intros e e' [[W1 W2 W3 W4] S B L] M H R EV BS. constructor; auto.
    - constructor.
      + intros sec pt r. rewrite (stored_model e e' sec pt M). auto.
      + rewrite H, R. auto.
      + rewrite M, H. auto.
      + rewrite H. destruct EV as [EV|EV]; [rewrite EV|]; auto.
    - intros sec pt. rewrite M. apply S.
    - unfold links_built in *. rewrite M. auto.
  Qed.
  (** Only the contents of a role manager change. *)
  Lemma inv_heap : forall e i r, inv e -> inv (set_heap (hset (e_heap e) i r) e).
  Proof.
    intros e i r [[W1 W2 W3 W4] S B L]. constructor; auto. constructor; simpl; auto; rewrite hset_length; auto.
  Qed.
  (** The assertions change at most in their role managers. *)
  Lemma inv_links : forall e e', inv e -> same_asts e e' -> List.length (e_heap e') = List.length (e_heap e) ->
    e_rm e' = e_rm e -> e_adapter e' = e_adapter e -> e_auto_save e' = e_auto_save e -> e_ev e' = e_ev e ->
    (forall sec pt a i, get_ast (e_model e') sec pt = Ok a -> a_rm a = Some i -> i < List.length (e_heap e)) ->
    (links_built e -> links_built e') -> inv e'.
  Proof.
    intros e e' [[W1 W2 W3 W4] S B L] A H R AD AS EV P LB. constructor; auto.
    - constructor.
      + intros sec pt r. rewrite (same_asts_stored e e' sec pt A). auto.
      + rewrite H, R. auto.
      + rewrite H. auto.
      + rewrite H, EV. auto.
    - eapply same_shape_trans; eauto. apply asts_shape. auto.
    - unfold batch_saveable in *. rewrite AD, AS. auto.
  Qed.
  (** The rules of one policy type change. *)
  Lemma inv_put : forall e sec pt a p, inv e -> get_ast (e_model e) sec pt = Ok a ->
    (forall r, In r (rules_of p) -> List.length r = ar sec pt) -> inv (set_model (put_policy (e_model e) sec pt a p) e).
  Proof.
    intros e sec pt a p [[W1 W2 W3 W4] S B L] A P. constructor.
    - constructor; simpl; auto.
      + intros s q r. unfold stored. simpl. destruct (pair_dec s q sec pt) as [V|V].
        * inversion V; subst. rewrite rules_in_put. auto.
        * rewrite rules_in_put_other by auto. apply W1.
      + intros s q a1 i. destruct (pair_dec s q sec pt) as [V|V].
        * inversion V; subst. rewrite get_put_same. intros X. inversion X; subst. simpl. intros R. eapply W3; eauto.
        * rewrite get_put_other by auto. eauto.
    - eapply same_shape_trans; eauto. eapply writes_shape. right. eauto.
    - auto.
    - intros LB. destruct (L LB) as [a1 [i [G R]]]. unfold links_built. simpl. destruct (pair_dec "g" "g" sec pt) as [V|V].
      + inversion V; subst. rewrite G in A. inversion A; subst. rewrite get_put_same. exists (with_policy a p), i. auto.
      + rewrite get_put_other by auto. eauto.
  Qed.

  Lemma safe_incremental : forall op pt rs, declared e0 "g" pt -> safe (e_BuildIncrementalRoleLinks op pt rs).
  Proof.
    intros op pt rs D e I. pose proof (quiet_incremental op pt rs e) as Q.
    destruct (inv_declared _ _ _ I D) as [a A].
    unfold e_BuildIncrementalRoleLinks, BuildIncrementalRoleLinks in *. change (String.eqb "g" "g") with true in *. cbv iota in *. rewrite A in *.
    destruct (hget_some _ _ (wf_rm _ _ (i_wf _ I))) as [r H]. rewrite H in *.
    pose proof (ast_links_defined op (a_value a) r rs) as DF. destruct (ast_links op (a_value a) r rs) as [r' out]. cbn [fst snd] in *.
    split; auto. eapply inv_links; eauto.
    - simpl. apply hset_length.
    - simpl. intros sec q a1 i G R. destruct (pair_dec sec q "g" pt) as [V|V].
      + inversion V; subst. rewrite get_put_ast_same in G. inversion G; subst. simpl in R. inversion R; subst.
        apply (wf_rm _ _ (i_wf _ I)).
      + rewrite get_put_ast_other in G by auto. eapply (wf_links _ _ (i_wf _ I)); eauto.
    - intros [a1 [i [G R]]]. unfold links_built. simpl. destruct (pair_dec "g" "g" "g" pt) as [V|V].
      + inversion V; subst. rewrite get_put_ast_same. exists (with_rm a (Some (e_rm e))), (e_rm e). auto.
      + rewrite get_put_ast_other by auto. eauto.
  Qed.
  Lemma build_asts_built : forall todo h rm k, rm < List.length h -> (exists a i, aget k todo = Some a /\ a_rm a = Some i) ->
    exists a i, aget k (fst (fst (build_asts h rm todo))) = Some a /\ a_rm a = Some i.
  Proof.
    induction todo as [|[k0 a0] rest IH]; intros h rm k L [a [i [A R]]]; simpl in *; [discriminate|].
    destruct (hget_some h rm L) as [r H]. rewrite H.
    destruct (ast_links policy_add (a_value a0) r (rules_of (a_policy a0))) as [r' [u|t|u]]; simpl.
    - specialize (IH (hset h rm r') rm k). rewrite hset_length in IH.
      destruct (build_asts (hset h rm r') rm rest) as [[am h'] out]. simpl in *. destruct (String.eqb k k0); eauto.
      exists (with_rm a0 (Some rm)), rm. auto.
    - destruct (String.eqb k k0); eauto. exists (with_rm a0 (Some rm)), rm. auto.
    - destruct (String.eqb k k0); eauto. exists (with_rm a0 (Some rm)), rm. auto.
  Qed.
  Lemma safe_rebuild : safe e_BuildRoleLinks.
  Proof.
    intros e I. pose proof (quiet_rebuild e) as Q. unfold e_BuildRoleLinks, BuildRoleLinks in *.
    pose proof (wf_rm _ _ (i_wf _ I)) as LT.
    destruct (hget_some _ _ LT) as [r H]. rewrite H in *.
    set (h := hset (e_heap e) (e_rm e) (Clear r)) in *. set (todo := sec_of (touch (e_model e) "g") "g") in *.
    assert (LH : e_rm e < List.length h) by (unfold h; rewrite hset_length; auto).
    destruct (build_asts_defined todo h (e_rm e) LH) as [D [N P]].
    pose proof (build_asts_built todo h (e_rm e) "g" LH) as BB.
    destruct (build_asts h (e_rm e) todo) as [[am h'] out]. cbn [fst snd] in *. split; auto.
    assert (TD : forall k a, aget k todo = Some a <-> get_ast (e_model e) "g" k = Ok a).
    { intros k a. rewrite <- (get_touch (e_model e) "g" "g" k). unfold get_ast. fold todo.
      destruct (aget k todo); split; intros X; inversion X; auto. }
    eapply inv_links; eauto.
    - simpl. rewrite N. unfold h. apply hset_length.
    - simpl. intros sec pt a i G R. unfold get_ast, sec_of in G. rewrite aget_aset in G. revert G. seqb sec "g".
      + subst. intros G. destruct (aget pt am) as [a1|] eqn:A1; [|discriminate]. inversion G; subst.
        destruct (P _ _ _ A1 R) as [->|[a2 [A2 R2]]]; auto. apply TD in A2. eapply (wf_links _ _ (i_wf _ I)); eauto.
      + intros G. assert (G' : get_ast (e_model e) sec pt = Ok a).
        { rewrite <- (get_touch (e_model e) "g" sec pt). exact G. }
        eapply (wf_links _ _ (i_wf _ I)); eauto.
    - intros [a [i [G R]]]. apply TD in G. destruct (BB (ex_intro _ a (ex_intro _ i (conj G R)))) as [a1 [i1 [A1 R1]]].
      exists a1, i1. simpl. unfold get_ast, sec_of. rewrite aget_aset_same, A1. auto.
  Qed.
  Lemma safe_rebuild_if : safe rebuild_if_auto.
  Proof. intros e I. unfold rebuild_if_auto. destruct (e_auto_build e); [apply safe_rebuild; auto|]. split; simpl; auto. Qed.
  Lemma safe_notify : safe notify.
  Proof.
    intros e I. unfold notify. destruct (e_watcher e); [|split; simpl; auto]. destruct (e_notify e); split; simpl; auto.
    eapply inv_other; eauto.
  Qed.
  Lemma safe_autosave : forall c, (is_batch_call c = true -> batch_saveable e0) -> safe (autosave c).
  Proof.
    intros c BC e I. unfold autosave. destruct (e_adapter e) as [a|] eqn:A; [|split; simpl; auto].
    destruct (e_auto_save e) eqn:AS; [|split; simpl; auto].
    assert (K : defined (snd (adapter_call a c)) /\ is_batch_adapter (fst (adapter_call a c)) = is_batch_adapter a).
    { assert (IB : is_batch_call c = true -> is_batch_adapter a = true).
      { intros X. pose proof (i_batch _ I (BC X)) as BS. unfold batch_saveable in BS. rewrite A, AS in BS. destruct BS; [discriminate|auto]. }
      destruct a as [b p|l|p f|u]; simpl in *.
      - split; auto. destruct (is_batch_call c); simpl; auto. rewrite IB by auto. simpl. auto.
      - destruct c; simpl in *; split; auto; exfalso; discriminate IB; auto.
      - split; auto. destruct (is_batch_call c); auto. exfalso; discriminate IB; auto.
      - destruct (is_batch_call c); simpl.
        + rewrite IB by auto. simpl. split; auto. destruct (ua_resp u (ua_log u) c); auto.
        + split; auto. destruct (ua_resp u (ua_log u) c); auto. }
    destruct (adapter_call a c) as [a' out]. cbn [fst snd] in K. destruct K as [K1 K2].
    assert (I' : inv (set_adapter (Some a') e)).
    { eapply inv_other; eauto. unfold batch_saveable. simpl. rewrite A, K2. auto. }
    destruct out as [[]|[]|u]; split; simpl; auto.
  Qed.
  Lemma safe_when : forall sec c, (sec = "g" -> safe c) -> safe (when_g sec c).
  Proof.
    intros sec c H. unfold when_g. destruct (String.eqb sec "g") eqn:E; [|apply safe_ret]. apply String.eqb_eq in E. auto.
  Qed.
  Lemma safe_tail : forall sec pt op rs c, declared e0 sec pt -> (is_batch_call c = true -> batch_saveable e0) ->
    safe (when_g sec (e_BuildIncrementalRoleLinks op pt rs) ;;; autosave c ;;; notify ;;; ret true).
  Proof.
    intros. apply safe_bind. { apply safe_when. intros ->. apply safe_incremental. auto. }
    intros _. apply safe_bind. { apply safe_autosave. auto. }
    intros _. apply safe_bind. { apply safe_notify. } intros _. apply safe_ret.
  Qed.
  Lemma safe_update_tail : forall sec pt olds news, declared e0 sec pt ->
    safe (when_g sec (e_BuildIncrementalRoleLinks policy_remove pt olds ;;;
                      e_BuildIncrementalRoleLinks policy_add pt news) ;;; notify ;;; ret true).
  Proof.
    intros. apply safe_bind.
    { apply safe_when. intros ->. apply safe_bind; intros; apply safe_incremental; auto. }
    intros _. apply safe_bind. { apply safe_notify. } intros _. apply safe_ret.
  Qed.

  (** ** The model's operations *)
  Lemma stored_of : forall e sec pt a, get_ast (e_model e) sec pt = Ok a -> stored e sec pt = rules_of (a_policy a).
  Proof. intros. unfold stored. apply rules_in_get. auto. Qed.
  Lemma erase_incl : forall r l l', erase_first r l = Some l' -> forall x, In x l' -> In x l.
  Proof.
    intros r l. induction l as [|y l IH]; simpl; intros l' E x I; [discriminate|].
    destruct (ArrayEquals r y). { inversion E; subst. auto. }
    destruct (erase_first r l) as [l2|]; simpl in E; [|discriminate]. inversion E; subst. destruct I as [->|I]; auto.
    right. eapply IH; eauto.
  Qed.
  Lemma erase_all_incl : forall olds l x, In x (fst (erase_all olds l)) -> In x l.
  Proof.
    induction olds as [|o os IH]; simpl; intros l x I; auto. destruct (erase_first o l) as [l'|] eqn:E; auto.
    eapply erase_incl; eauto.
  Qed.
  Lemma set_model_same : forall e, set_model (e_model e) e = e.
  Proof. intros []. reflexivity. Qed.

  Lemma safe_m_add : forall sec pt r, declared e0 sec pt -> List.length r = ar sec pt ->
    safe (on_model (fun m => AddPolicy m sec pt r)).
  Proof.
    intros sec pt r D L e I. destruct (inv_declared _ _ _ I D) as [a A].
    assert (W : forall x, In x (rules_of (a_policy a)) -> List.length x = ar sec pt).
    { intros x X. apply (wf_rules _ _ (i_wf _ I)). rewrite (stored_of e sec pt a A). auto. }
    unfold on_model, AddPolicy. rewrite A. simpl. destruct (has_rule (rules_of (a_policy a)) r).
    - rewrite set_model_same. split; simpl; auto.
    - split; simpl; auto. apply inv_put; auto. intros x X. apply emplace_in in X. destruct X as [->|X]; auto.
  Qed.
  Lemma safe_m_add_many : forall sec pt rs, declared e0 sec pt -> (forall r, In r rs -> List.length r = ar sec pt) ->
    safe (on_model (fun m => AddPolicies m sec pt rs)).
  Proof.
    intros sec pt rs D L e I. destruct (inv_declared _ _ _ I D) as [a A].
    assert (W : forall x, In x (rules_of (a_policy a)) -> List.length x = ar sec pt).
    { intros x X. apply (wf_rules _ _ (i_wf _ I)). rewrite (stored_of e sec pt a A). auto. }
    unfold on_model, AddPolicies. destruct rs as [|r0 rs]. { rewrite set_model_same. split; simpl; auto. }
    rewrite A. cbn [bind]. destruct (existsb (has_rule (rules_of (a_policy a))) (r0 :: rs)).
    - rewrite set_model_same. split; simpl; auto.
    - split; [apply defined_ok|]. cbn [fst]. apply inv_put; auto. intros x X. apply fold_emplace_in in X. destruct X as [X|X]; auto.
  Qed.
  Lemma safe_m_remove : forall sec pt r, declared e0 sec pt -> safe (on_model (fun m => RemovePolicy m sec pt r)).
  Proof.
    intros sec pt r D e I. destruct (inv_declared _ _ _ I D) as [a A].
    assert (W : forall x, In x (rules_of (a_policy a)) -> List.length x = ar sec pt).
    { intros x X. apply (wf_rules _ _ (i_wf _ I)). rewrite (stored_of e sec pt a A). auto. }
    unfold on_model, RemovePolicy. rewrite A. simpl. destruct (erase_first r (rules_of (a_policy a))) as [l|] eqn:E.
    - split; simpl; auto. apply inv_put; auto. intros x. rewrite rules_with. intros X. apply W. eapply erase_incl; eauto.
    - rewrite set_model_same. split; simpl; auto.
  Qed.
  Lemma safe_m_remove_filtered : forall sec pt i vals, declared e0 sec pt -> i + List.length vals <= ar sec pt ->
    safe (on_model (fun m => RemoveFilteredPolicy m sec pt i vals)).
  Proof.
    intros sec pt i vals D L e I. destruct (inv_declared _ _ _ I D) as [a A].
    assert (W : forall x, In x (rules_of (a_policy a)) -> List.length x = ar sec pt).
    { intros x X. apply (wf_rules _ _ (i_wf _ I)). rewrite (stored_of e sec pt a A). auto. }
    unfold on_model, RemoveFilteredPolicy. rewrite A. cbn [bind].
    destruct (partition_rules_range i vals (rules_of (a_policy a))) as [eff [tmp E]].
    { intros x X. rewrite (W x X). auto. }
    rewrite E. cbn [bind]. split; [apply defined_ok|]. cbn [fst]. apply inv_put; auto. intros x X. simpl in X. apply W.
    apply partition_rules_spec in E. destruct E as [_ E]. eapply selects_in in X; [|exact E]. tauto.
  Qed.
  Lemma safe_m_update : forall sec pt old new, declared e0 sec pt -> List.length new = ar sec pt ->
    safe (on_model (fun m => UpdatePolicy m sec pt old new)).
  Proof.
    intros sec pt old new D L e I. destruct (inv_declared _ _ _ I D) as [a A].
    assert (W : forall x, In x (rules_of (a_policy a)) -> List.length x = ar sec pt).
    { intros x X. apply (wf_rules _ _ (i_wf _ I)). rewrite (stored_of e sec pt a A). auto. }
    unfold on_model, UpdatePolicy. rewrite A. simpl. destruct (erase_first old (rules_of (a_policy a))) as [l|] eqn:E.
    - assert (W' : forall x, In x l -> List.length x = ar sec pt). { intros x X. apply W. eapply erase_incl; eauto. }
      destruct (has_rule l new); split; simpl; auto; apply inv_put; auto; intros x.
      + rewrite rules_with. auto.
      + rewrite emplace_in, rules_with. intros [->|X]; auto.
    - rewrite set_model_same. split; simpl; auto.
  Qed.
  Lemma safe_m_update_many : forall sec pt olds news, declared e0 sec pt -> (forall r, In r news -> List.length r = ar sec pt) ->
    safe (on_model (fun m => UpdatePolicies m sec pt olds news)).
  Proof.
    intros sec pt olds news D L e I. destruct (inv_declared _ _ _ I D) as [a A].
    assert (W : forall x, In x (rules_of (a_policy a)) -> List.length x = ar sec pt).
    { intros x X. apply (wf_rules _ _ (i_wf _ I)). rewrite (stored_of e sec pt a A). auto. }
    unfold on_model, UpdatePolicies. rewrite A. cbn [bind].
    pose proof (erase_all_incl olds (rules_of (a_policy a))) as EI.
    destruct (erase_all olds (rules_of (a_policy a))) as [l ok]. simpl in EI.
    assert (P : inv (set_model (put_policy (e_model e) sec pt a (with_rules (a_policy a) l)) e)).
    { apply inv_put; auto. intros x. rewrite rules_with. auto. }
    destruct ok; cbn [negb]; [|split; simpl; auto].
    destruct (existsb (has_rule l) news); [split; simpl; auto|]. split; [apply defined_ok|]. cbn [fst]. apply inv_put; auto.
    intros x X. apply fold_emplace_in in X. rewrite rules_with in X. destruct X; auto.
  Qed.

  (** ** The calls *)
  Lemma safe_add : forall sec pt r, declared e0 sec pt -> List.length r = ar sec pt -> safe (i_addPolicy sec pt r).
  Proof. intros. apply safe_bind. { apply safe_m_add; auto. } intros []; simpl; [apply safe_tail; auto; discriminate|apply safe_ret]. Qed.
  Lemma safe_remove : forall sec pt r, declared e0 sec pt -> safe (i_removePolicy sec pt r).
  Proof. intros. apply safe_bind. { apply safe_m_remove; auto. } intros []; simpl; [apply safe_tail; auto; discriminate|apply safe_ret]. Qed.
  Lemma safe_add_many : forall sec pt rs, declared e0 sec pt -> (forall r, In r rs -> List.length r = ar sec pt) -> batch_saveable e0 ->
    safe (i_addPolicies sec pt rs).
  Proof. intros. apply safe_bind. { apply safe_m_add_many; auto. } intros []; simpl; [apply safe_tail; auto|apply safe_ret]. Qed.
  Lemma safe_remove_many : forall sec pt rs, declared e0 sec pt -> (forall r, In r rs -> List.length r = ar sec pt) -> batch_saveable e0 ->
    safe (i_removePolicies sec pt rs).
  Proof. intros. apply safe_bind. { apply safe_m_add_many; auto. } intros []; simpl; [apply safe_tail; auto|apply safe_ret]. Qed.
  Lemma safe_remove_filtered : forall sec pt i vals, declared e0 sec pt -> i + List.length vals <= ar sec pt ->
    safe (i_removeFilteredPolicy sec pt i vals).
  Proof. intros. apply safe_bind. { apply safe_m_remove_filtered; auto. } intros [[] eff]; simpl; [apply safe_tail; auto; discriminate|apply safe_ret]. Qed.
  Lemma safe_update : forall sec pt old new, declared e0 sec pt -> List.length new = ar sec pt -> safe (i_updatePolicy sec pt old new).
  Proof. intros. apply safe_bind. { apply safe_m_update; auto. } intros []; simpl; [apply safe_update_tail; auto|apply safe_ret]. Qed.
  Lemma safe_update_many : forall sec pt olds news, declared e0 sec pt -> (forall r, In r news -> List.length r = ar sec pt) ->
    safe (i_updatePolicies sec pt olds news).
  Proof. intros. apply safe_bind. { apply safe_m_update_many; auto. } intros []; simpl; [apply safe_update_tail; auto|apply safe_ret]. Qed.
  Lemma safe_add_grouping : forall pt r, declared e0 "g" pt -> List.length r = ar "g" pt -> safe (AddNamedGroupingPolicy pt r).
  Proof.
    intros. apply safe_bind. { apply safe_add; auto. } intros b. apply safe_bind; [|intros; apply safe_ret].
    intros e I. simpl. destruct (e_auto_build e); [apply safe_incremental; auto|split; simpl; auto].
  Qed.
  Lemma safe_remove_grouping : forall pt r, declared e0 "g" pt -> safe (RemoveNamedGroupingPolicy pt r).
  Proof.
    intros. apply safe_bind. { apply safe_remove; auto. } intros b. apply safe_bind; [apply safe_rebuild_if|intros; apply safe_ret].
  Qed.
  Lemma safe_remove_filtered_grouping : forall pt i vals, declared e0 "g" pt -> i + List.length vals <= ar "g" pt ->
    safe (RemoveFilteredNamedGroupingPolicy pt i vals).
  Proof.
    intros. apply safe_bind. { apply safe_remove_filtered; auto. } intros b. apply safe_bind; [apply safe_rebuild_if|intros; apply safe_ret].
  Qed.
  Lemma safe_add_roles : forall user roles f, declared e0 "g" "g" -> ar "g" "g" = 2 -> safe (add_roles user roles f).
  Proof.
    intros user roles f D A. revert f. induction roles as [|r rs IH]; intros f; simpl. { apply safe_ret. }
    apply safe_bind. { apply safe_add_grouping; auto. } intros b. apply IH.
  Qed.
  Lemma safe_delete_user : forall u, declared e0 "g" "g" -> 1 <= ar "g" "g" -> declared e0 "p" "p" -> 1 <= ar "p" "p" -> safe (DeleteUser u).
  Proof.
    intros. apply safe_bind. { apply safe_remove_filtered_grouping; auto. } intros r1.
    apply safe_bind; [apply safe_remove_filtered; auto|intros; apply safe_ret].
  Qed.
  Lemma safe_delete_role : forall u, declared e0 "g" "g" -> 2 <= ar "g" "g" -> declared e0 "p" "p" -> 1 <= ar "p" "p" -> safe (DeleteRole u).
  Proof.
    intros. apply safe_bind. { apply safe_remove_filtered_grouping; auto. } intros r1.
    apply safe_bind; [apply safe_remove_filtered; auto|intros; apply safe_ret].
  Qed.

  Lemma values_defined : forall e sec pt i, well_formed ar e -> declared e sec pt -> i < ar sec pt ->
    defined (GetValuesForFieldInPolicy (e_model e) sec pt i).
  Proof.
    intros e sec pt i W [a A] L. pose proof (values_spec (e_model e) sec pt i a A) as V.
    destruct (GetValuesForFieldInPolicy (e_model e) sec pt i) as [vs|t|u]; auto.
    destruct V as [r [I G]]. apply (wf_rules _ _ W) in I. lia.
  Qed.
  Lemma safe_all_types : forall sec i, (forall pt, declared e0 sec pt -> i < ar sec pt) -> safe (all_types sec i).
  Proof.
    intros sec i H e I. pose proof (quiet_all_types sec i e) as Q. unfold all_types, GetValuesForFieldInPolicyAllTypes in *. simpl in *.
    assert (I' : inv (set_model (touch (e_model e) sec) e)).
    { eapply inv_links; eauto.
      - simpl. intros s pt a j. rewrite get_touch. apply (wf_links _ _ (i_wf _ I)).
      - intros [a [j [G R]]]. exists a, j. simpl. rewrite get_touch. auto. }
    split; auto.
    assert (D : defined (mapr (fun kv => GetValuesForFieldInPolicy (touch (e_model e) sec) sec (fst kv) i) (sec_of (touch (e_model e) sec) sec))).
    { apply mapr_defined. intros [k a] J. simpl.
      assert (DK : declared (set_model (touch (e_model e) sec) e) sec k).
      { unfold declared. simpl. unfold get_ast. destruct (aget k (sec_of (touch (e_model e) sec) sec)) eqn:X; eauto.
        exfalso. apply aget_None in X. apply X. apply in_map_iff. exists (k, a). auto. }
      apply (values_defined (set_model (touch (e_model e) sec) e)); [apply (i_wf _ I')|auto|].
      apply H. apply (declared_shape _ _ _ (i_shape _ I')). auto. }
    apply defined_bind; auto.
  Qed.
End Safe.

(** ** The work list of GetImplicitRolesForUser ends for every role manager *)

(** A role manager mentions a name as a role or as the target of a link. *)
Definition mentioned (g : list (string * list string)) : list string := map fst g ++ List.concat (map snd g).
Lemma mentioned_length : forall r, List.length (mentioned (all_roles r)) = List.length (all_roles r) + edge_count r.
Proof. intros r. unfold mentioned. rewrite app_length, map_length, edge_count_concat. reflexivity. Qed.

Lemma roles_of_mentioned : forall g k n, In n (roles_of g k) -> In n (mentioned g).
Proof.
  intros g k n I. unfold roles_of in I. destruct (aget k g) as [l|] eqn:E; [|destruct I].
  unfold mentioned. apply in_app_iff. right. apply in_concat. exists l. split; auto. apply in_map_iff. exists (k, l).
  split; auto. apply aget_In. auto.
Qed.
Lemma Role_AddRole_in : forall roles role x, In x (Role_AddRole roles role) -> x = role \/ In x roles.
Proof.
  intros roles role x. unfold Role_AddRole. destruct (existsb _ roles); auto. rewrite in_app_iff. simpl. intuition.
Qed.
Lemma fold_AddRole_in : forall hits roles x, In x (fold_left Role_AddRole hits roles) -> In x hits \/ In x roles.
Proof.
  induction hits as [|h hits IH]; simpl; intros roles x I; auto. apply IH in I. destruct I as [I|I]; auto.
  apply Role_AddRole_in in I. intuition.
Qed.
Lemma mentioned_aset : forall g k v x, In x (mentioned (aset k v g)) -> x = k \/ In x v \/ In x (mentioned g).
Proof.
  intros g k v x. unfold mentioned. rewrite in_app_iff, keys_aset_in.
  assert (C : In x (List.concat (map snd (aset k v g))) -> In x v \/ In x (List.concat (map snd g))).
  { induction g as [|[k' v'] g IH]; simpl; rewrite ?app_nil_r; auto. destruct (String.eqb k k'); simpl; rewrite !in_app_iff; intuition. }
  rewrite in_app_iff. tauto.
Qed.
Lemma create_mentioned : forall r n x, In x (mentioned (all_roles (CreateRole r n))) -> x = n \/ In x (mentioned (all_roles r)).
Proof.
  intros r n x.
  assert (G : forall y, In y (mentioned (ainsert n [] (all_roles r))) -> y = n \/ In y (mentioned (all_roles r))).
  { intros y. unfold ainsert. destruct (ahas n (all_roles r)); auto. unfold mentioned.
    rewrite !map_app, concat_app, !in_app_iff. simpl. intuition. }
  unfold CreateRole. destruct (matching r) as [f|]; cbn [all_roles with_roles]; auto. intros I.
  apply mentioned_aset in I. destruct I as [I|[I|I]]; auto.
  apply fold_AddRole_in in I. destruct I as [I|I].
  - apply filter_In in I. destruct I as [I _]. apply G. unfold mentioned. apply in_app_iff. auto.
  - apply G. eapply roles_of_mentioned; eauto.
Qed.

(** A name without the prefix of the domain. *)
Definition without (domain : list string) (n : string) : string :=
  match domain with d :: _ => sdrop (String.length d + 2) n | [] => n end.
Lemma without_prefixed : forall domain n, without domain (prefixed domain n) = n.
Proof.
  intros [|d ds] n; [reflexivity|]. cbn [without prefixed]. rewrite <- app_assoc_s. replace (String.length d + 2) with (String.length (d ++ "::")%string).
  - apply sdrop_app.
  - rewrite length_app_s. reflexivity.
Qed.
Lemma unprefix_without : forall domain n x, unprefix domain n = Ok x -> x = without domain n.
Proof.
  intros [|d ds] n x; simpl; [congruence|]. destruct (Nat.ltb (String.length n) (String.length d + 2)); congruence.
Qed.
Lemma unprefix_defined : forall domain n, defined (unprefix domain n).
Proof. intros [|d ds] n; simpl; auto. destruct (Nat.ltb _ _); auto. Qed.
Lemma GetRoles_facts : forall r name domain,
  defined (snd (GetRoles r name domain)) /\
  (forall x, In x (mentioned (all_roles (fst (GetRoles r name domain)))) ->
     x = prefixed domain name \/ In x (mentioned (all_roles r))) /\
  (forall l x, snd (GetRoles r name domain) = Ok l -> In x l ->
     x = name \/ exists n, In n (mentioned (all_roles r)) /\ x = without domain n).
Proof.
  intros r name domain. unfold GetRoles. destruct (Nat.ltb 1 (List.length domain)); simpl.
  { split; auto. split; auto. intros; discriminate. }
  destruct (HasRole r (prefixed domain name)); cbn [negb fst snd].
  2:{ split; auto. split; auto. intros l x E I. inversion E; subst. destruct I. }
  split. { apply mapr_defined. intros. apply unprefix_defined. }
  split. { intros x I. apply create_mentioned. auto. }
  intros l x E I.
  assert (K : exists n, In n (roles_of (all_roles (CreateRole r (prefixed domain name))) (prefixed domain name)) /\ unprefix domain n = Ok x).
  { revert l E I. generalize (roles_of (all_roles (CreateRole r (prefixed domain name))) (prefixed domain name)) as ns.
    induction ns as [|n ns IH]; simpl; intros l E I. { inversion E; subst. destruct I. }
    destruct (unprefix domain n) as [y|t|u] eqn:U; simpl in E; try discriminate.
    destruct (mapr (unprefix domain) ns) as [ys|t|u] eqn:V; simpl in E; try discriminate. inversion E; subst.
    destruct I as [->|I]; eauto. destruct (IH ys eq_refl I) as [m [M1 M2]]. eauto. }
  destruct K as [n [N U]]. apply unprefix_without in U. subst x. apply roles_of_mentioned, create_mentioned in N.
  destruct N as [->|N]; [left; apply without_prefixed|right; eauto].
Qed.

Section Ends.
  Variable ar : arity.
  Variable e0 : enforcer.
  Variable domain : list string.
  Variable u : string.
  Variable names : list string.            (* mentioned at the start *)

  Definition known (seen : list string) (r : role_manager) : Prop :=
    forall n, In n (mentioned (all_roles r)) -> In n names \/ exists x, In x seen /\ n = prefixed domain x.

  Lemma implicit_loop_ends : forall fuel q seen acc e r, inv ar e0 e -> hget (e_heap e) (e_rm e) = Ok r -> known seen r ->
    NoDup seen -> (forall x, In x seen -> x = u \/ In x (map (without domain) names)) -> (forall x, In x q -> In x seen) ->
    fuel + List.length seen >= S (List.length names) + List.length q ->
    defined (snd (implicit_loop fuel domain q seen acc e)) /\ inv ar e0 (fst (implicit_loop fuel domain q seen acc e)).
  Proof.
    induction fuel as [|fuel IH]; intros q seen acc e r I H K N U Q F.
    - assert (L : List.length seen <= S (List.length names)).
      { rewrite <- (map_length (without domain) names). change (S (List.length (map (without domain) names))) with (List.length (u :: map (without domain) names)).
        apply NoDup_incl_length; auto. intros x X. apply U in X. simpl. intuition. }
      destruct q as [|x q]; simpl in *; [|lia]. split; auto.
    - destruct q as [|x q]; simpl. { split; auto. }
      unfold mbind, rm_GetRoles. rewrite H.
      destruct (GetRoles_facts r x domain) as [G1 [G2 G3]]. destruct (GetRoles r x domain) as [r' out]. cbn [fst snd] in *.
      destruct out as [bs|t|t].
      + destruct (new_roles_spec bs seen) as [NF FF]. set (fresh := new_roles seen bs) in *.
        apply IH with (r := r').
        * apply inv_heap. auto.
        * simpl. eapply hget_hset. eauto.
        * intros n J. apply G2 in J. destruct J as [->|J].
          -- right. exists x. split; auto. apply in_app_iff. right. apply Q. simpl. auto.
          -- destruct (K n J) as [J'|[y [Y ->]]]; auto. right. exists y. split; auto. apply in_app_iff. auto.
        * apply NoDup_app_iff. split; [apply NoDup_rev; auto|]. split; auto. intros y J1 J2. rewrite <- in_rev in J1. apply FF in J1. tauto.
        * intros y J. rewrite in_app_iff, <- in_rev in J. destruct J as [J|J]; auto. apply FF in J. destruct J as [J NS].
          destruct (G3 bs y eq_refl J) as [->|[n [M ->]]]. { exfalso. apply NS, Q. simpl. auto. }
          destruct (K n M) as [J'|[z [Z ->]]]; [right; apply in_map_iff; eauto|]. rewrite without_prefixed in NS. tauto.
        * intros y J. rewrite in_app_iff in J |- *. rewrite <- in_rev. destruct J; auto. right. apply Q. simpl. auto.
        * rewrite !app_length, rev_length. simpl in F. lia.
      + simpl. split; auto. apply inv_heap. auto.
      + exfalso. eapply defined_ub; eauto.
  Qed.
End Ends.

Section Calls.
  Variable ar : arity.
  Variable e0 : enforcer.
  Notation safe := (safe ar e0).

  Lemma safe_implicit_roles : forall name domain, safe (GetImplicitRolesForUser name domain).
  Proof.
    intros name domain e I. unfold GetImplicitRolesForUser. destruct (hget_some _ _ (wf_rm _ _ (i_wf _ _ _ I))) as [r H]. rewrite H.
    apply implicit_loop_ends with (u := name) (names := mentioned (all_roles r)) (r := r); auto.
    - intros n J. auto.
    - repeat constructor. simpl. tauto.
    - intros x [<-|[]]. auto.
    - rewrite mentioned_length. simpl. lia.
  Qed.
  Lemma safe_filtered : forall i vals, declared e0 "p" "p" -> i + List.length vals <= ar "p" "p" -> safe (e_GetFilteredPolicy i vals).
  Proof.
    intros i vals D L e I. split; auto. cbn [e_GetFilteredPolicy]. unfold e_GetFilteredPolicy, GetFilteredNamedPolicy, read_model, GetFilteredPolicy. cbn [snd].
    destruct (inv_declared _ _ _ _ _ I D) as [a A]. rewrite A. cbn [bind].
    destruct (filter_rules_range i vals (rules_of (a_policy a))) as [l E]; [|rewrite E; auto].
    intros x X. rewrite (wf_rules _ _ (i_wf _ _ _ I) "p" "p" x); auto. rewrite (stored_of e "p" "p" a A). auto.
  Qed.
  Lemma safe_perms : forall domain roles, declared e0 "p" "p" -> 1 + List.length domain <= ar "p" "p" -> safe (perms_of domain roles).
  Proof.
    intros domain roles D L. induction roles as [|r rs IH]; simpl. { apply safe_ret. }
    apply safe_bind.
    - destruct domain as [|d ds]; simpl in *; apply safe_filtered; simpl; auto; lia.
    - intros ps. apply safe_bind; auto. intros rest. apply safe_ret.
  Qed.
  Lemma safe_implicit_perms : forall name domain, declared e0 "p" "p" -> 1 + List.length domain <= ar "p" "p" ->
    safe (GetImplicitPermissionsForUser name domain).
  Proof.
    intros name domain D L. apply safe_bind. { apply safe_implicit_roles. } intros roles.
    destruct (Nat.ltb 1 (List.length domain)); [apply safe_fail|apply safe_perms; auto].
  Qed.
  Lemma safe_roles_for_user : forall name domain, links_built e0 -> safe (GetRolesForUser name domain).
  Proof.
    intros name domain B e I. unfold GetRolesForUser, g_rm. destruct (i_built _ _ _ I B) as [a [i [A R]]]. rewrite A. cbn [bind]. rewrite R.
    unfold rm_GetRoles. destruct (hget_some _ _ (wf_links _ _ (i_wf _ _ _ I) _ _ _ _ A R)) as [r H]. rewrite H.
    destruct (GetRoles_facts r name domain) as [G1 _]. destruct (GetRoles r name domain) as [r' out]. cbn [fst snd] in *.
    split; auto. apply inv_heap. auto.
  Qed.
  Lemma safe_clear : safe e_ClearPolicy.
  Proof.
    intros e I. split; simpl; auto. destruct I as [[W1 W2 W3 W4] S B L].
    assert (G : forall sec pt a, get_ast (ClearPolicy (e_model e)) sec pt = Ok a ->
              exists a', get_ast (e_model e) sec pt = Ok a' /\ a_rm a = a_rm a').
    { intros sec pt a. rewrite clear_get. destruct (get_ast (e_model e) sec pt) as [a'| |]; destruct (String.eqb sec "p" || String.eqb sec "g"); cbn [bind];
        intros X; inversion X; subst; eexists; split; reflexivity. }
    constructor; auto.
    - constructor; simpl; auto.
      + intros sec pt r. unfold stored. simpl.
        destruct (string_dec sec "p") as [->|P]; [rewrite clear_rules by auto; intros []|].
        destruct (string_dec sec "g") as [->|P']; [rewrite clear_rules by auto; intros []|].
        rewrite clear_rules_other by auto. apply W1.
      + intros sec pt a i A R. destruct (G _ _ _ A) as [a' [A' E]]. eapply W3; eauto. congruence.
    - eapply same_shape_trans; eauto. intros sec pt. simpl. rewrite clear_get.
      destruct (get_ast (e_model e) sec pt) as [a'| |]; destruct (String.eqb sec "p" || String.eqb sec "g"); reflexivity.
    - intros LB. destruct (L LB) as [a [i [A R]]]. unfold links_built. simpl. rewrite clear_get, A. simpl.
      exists (with_policy a (store_clear (a_policy a))), i. auto.
  Qed.
  Lemma safe_matching : forall fn, safe (AddNamedMatchingFunc fn).
  Proof.
    intros fn e I. unfold AddNamedMatchingFunc. destruct (hget_some _ _ (wf_rm _ _ (i_wf _ _ _ I))) as [r H]. rewrite H.
    split; simpl; auto. apply inv_heap. auto.
  Qed.
End Calls.

Lemma inv_start : forall ar e, well_formed ar e -> inv ar e e.
Proof. intros ar e W. constructor; auto. apply same_shape_refl. Qed.
