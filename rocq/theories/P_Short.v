(** Proofs about grouping rules with too few fields (C108). *)
From Coq Require Import Permutation Lia.
From Verif Require Import Base M_Util M_RoleManager M_Model M_Persist M_Evaluator M_Enforcer S_Policy S_History S_Short P_Base P_Store.

(** ** What a decision depends on *)
Definition g_view (m : model) := map (fun kv => (fst kv, (a_rm (snd kv), a_value (snd kv)))) (sec_of m "g").
Record same_view (e e' : enforcer) : Prop := mkSV {
  sv_ast : forall sec pt, sec <> "g" -> get_ast (e_model e') sec pt = get_ast (e_model e) sec pt;
  sv_g : g_view (e_model e') = g_view (e_model e);
  sv_heap : e_heap e' = e_heap e;
  sv_ev : e_ev e' = e_ev e;
  sv_on : e_enabled e' = e_enabled e }.

Lemma load_g_view : forall m ev, load_g_functions m ev =
  fold_left (fun ev kv => LoadGFunction ev (fst (snd kv)) (fst kv) (scount "_" (snd (snd kv)))) (g_view m) ev.
Proof.
  intros m. unfold load_g_functions, g_view. generalize (sec_of m "g") as l.
  induction l as [|[k a] l IH]; intros ev; [reflexivity|]. exact (IH _).
Qed.
Lemma view_enforce : forall o e e' ev matcher, same_view e e' -> m_enforce o e' ev matcher = m_enforce o e ev matcher.
Proof.
  intros o e e' ev matcher V. destruct V as [A G H E N]. unfold m_enforce, selected_policies. rewrite N, H, !load_g_view, G.
  rewrite !A by discriminate. reflexivity.
Qed.
Lemma view_ex : forall o e e' matcher params, same_view e e' ->
  snd (EnforceExWithMatcher o matcher params e') = snd (EnforceExWithMatcher o matcher params e).
Proof.
  intros o e e' matcher params V. unfold EnforceExWithMatcher, own_evaluator. rewrite (sv_ast _ _ V), (sv_ev _ _ V) by discriminate.
  destruct (get_ast (e_model e) "r" "r") as [a|?|?]; try reflexivity. destruct (negb _); [reflexivity|].
  destruct (push_r _ _ params) as [ev1 [[]|x|x]]; try reflexivity. rewrite (view_enforce o e e') by exact V.
  destruct (m_enforce o e ev1 matcher). reflexivity.
Qed.
Lemma view_map : forall o e e' matcher params, same_view e e' ->
  snd (EnforceExWithMatcherMap o matcher params e') = snd (EnforceExWithMatcherMap o matcher params e).
Proof.
  intros o e e' matcher params V. unfold EnforceExWithMatcherMap, own_evaluator. rewrite (sv_ev _ _ V).
  destruct (push_map _ params) as [ev1 [[]|x|x]]; try reflexivity. rewrite (view_enforce o e e') by exact V.
  destruct (m_enforce o e ev1 matcher). reflexivity.
Qed.
Lemma view_get : forall m pt, option_map (fun a => (a_rm a, a_value a)) (aget pt (sec_of m "g")) = aget pt (g_view m).
Proof.
  intros m pt. unfold g_view. induction (sec_of m "g") as [|[k a] l IH]; [reflexivity|]. cbn [map fst snd aget].
  destruct (String.eqb pt k); [reflexivity|exact IH].
Qed.
Lemma view_g_rm : forall e e', same_view e e' -> M_Enforcer.g_rm e' = M_Enforcer.g_rm e.
Proof.
  intros e e' V. unfold M_Enforcer.g_rm, get_ast. pose proof (view_get (e_model e) "g") as A. pose proof (view_get (e_model e') "g") as B.
  rewrite (sv_g _ _ V), <- A in B. clear A.
  destruct (aget "g" (sec_of (e_model e') "g")) as [a|], (aget "g" (sec_of (e_model e) "g")) as [b|]; try discriminate; [|reflexivity].
  assert (Q : a_rm a = a_rm b) by (cbn [option_map] in B; congruence). cbn [bind]. rewrite Q. reflexivity.
Qed.
Lemma view_alike : forall o e e', same_view e e' -> answers_alike o e e'.
Proof.
  intros o e e' V. split; [|split; [|split]].
  - intros. apply view_ex. exact V.
  - intros. apply view_map. exact V.
  - intros. unfold GetRolesForUser. rewrite (view_g_rm _ _ V). destruct (M_Enforcer.g_rm e); try reflexivity.
    unfold rm_GetRoles. rewrite (sv_heap _ _ V). destruct (hget (e_heap e) _); try reflexivity. destruct (GetRoles _ _ _). reflexivity.
  - intros. unfold GetUsersForRole. cbn [snd]. rewrite (view_g_rm _ _ V), (sv_heap _ _ V). reflexivity.
Qed.

(** ** One short rule *)
Lemma hset_id : forall i h r, hget h i = Ok r -> hset h i r = h.
Proof.
  unfold hget. induction i; intros [|x h] r H; cbn in *; try discriminate; [congruence|]. rewrite (IHi h r); auto.
Qed.
Lemma short_links : forall op value r x, List.length x < scount "_" value -> ast_links op value r [x] = (r, Throw IllegalArgument).
Proof.
  intros op value r x H. unfold ast_links. destruct (Nat.ltb _ 2); [reflexivity|]. cbn [link_rules]. unfold link_rule.
  apply Nat.ltb_lt in H. rewrite H. reflexivity.
Qed.
Lemma g_view_put : forall m pt a a', aget pt (sec_of m "g") = Some a -> a_rm a' = a_rm a -> a_value a' = a_value a ->
  g_view (put_ast m "g" pt a') = g_view m.
Proof.
  intros m pt a a' H R V. unfold g_view, put_ast, sec_of at 1. rewrite aget_aset_same. revert H.
  generalize (sec_of m "g") as l. induction l as [|[k b] l IH]; intros H; [discriminate|]. cbn [aget aset] in *.
  destruct (String.eqb pt k) eqn:Q; cbn [map fst snd].
  - inversion H; subst. apply String.eqb_eq in Q. subst. rewrite R, V. reflexivity.
  - rewrite IH by exact H. reflexivity.
Qed.
Lemma put_put : forall m sec pt a b, put_ast (put_ast m sec pt a) sec pt b = put_ast m sec pt b.
Proof. intros. unfold put_ast. unfold sec_of at 1. rewrite aget_aset_same, !aset_aset. reflexivity. Qed.
Lemma put_id : forall m sec pt a, get_ast m sec pt = Ok a -> put_ast m sec pt a = m.
Proof.
  intros m sec pt a H. unfold put_ast. unfold get_ast, sec_of in *. destruct (aget sec m) as [am|] eqn:E; [|discriminate].
  destruct (aget pt am) eqn:F; [|discriminate]. inversion H; subst. rewrite (aset_same pt a am F). apply aset_same. exact E.
Qed.
Lemma erase_last : forall l r, has_rule l r = false -> erase_first r (l ++ [r]) = Some l.
Proof.
  induction l as [|x l IH]; intros r H; cbn in *. { rewrite ArrayEquals_refl. reflexivity. }
  apply orb_false_elim in H. destruct H as [H1 H2]. rewrite H1, IH by exact H2. reflexivity.
Qed.

(** The enforcer after it was offered the rule [r] for the definition [a] of [pt]. *)
Definition with_short (e : enforcer) (pt : string) (a : assertion) (l : list rule) (r : rule) : enforcer :=
  set_model (put_ast (e_model e) "g" pt (with_policy a (Vec (l ++ [r])))) e.

Section Short.
  Variables (e : enforcer) (pt : string) (a : assertion) (l : list rule) (r : rule) (rm : role_manager).
  Hypothesis A : get_ast (e_model e) "g" pt = Ok a.
  Hypothesis R : a_rm a = Some (e_rm e).
  Hypothesis H : hget (e_heap e) (e_rm e) = Ok rm.
  Hypothesis L : a_policy a = Vec l.
  Hypothesis S : List.length r < scount "_" (a_value a).
  Hypothesis N : has_rule l r = false.

  Lemma eta : forall m, set_heap (e_heap e) (set_model m e) = set_model m e.
  Proof. reflexivity. Qed.
  Lemma with_rm_id : forall b, a_rm b = a_rm a -> with_rm b (Some (e_rm e)) = b.
  Proof. intros [] Q. cbn in Q. unfold with_rm. cbn. rewrite Q, R. reflexivity. Qed.

  Lemma short_add : AddNamedGroupingPolicy pt r e = (with_short e pt a l r, Throw IllegalArgument).
  Proof.
    unfold AddNamedGroupingPolicy, i_addPolicy, mbind, on_model, AddPolicy. rewrite A. cbn [bind]. rewrite L. cbn [rules_of]. rewrite N.
    cbn [negb emplace]. unfold when_g. cbn [String.eqb Ascii.eqb Bool.eqb]. unfold e_BuildIncrementalRoleLinks, BuildIncrementalRoleLinks.
    cbn [String.eqb Ascii.eqb Bool.eqb e_model set_model e_heap e_rm]. unfold put_policy. rewrite get_put_ast_same, H. cbn [a_value with_policy].
    rewrite short_links by exact S. rewrite put_put, hset_id by exact H. rewrite with_rm_id by reflexivity. reflexivity.
  Qed.
  Lemma short_remove : RemoveNamedGroupingPolicy pt r (with_short e pt a l r) = (e, Throw IllegalArgument).
  Proof.
    unfold RemoveNamedGroupingPolicy, i_removePolicy, mbind, on_model, RemovePolicy, with_short. cbn [e_model set_model]. rewrite get_put_ast_same.
    cbn [bind a_policy with_policy rules_of]. rewrite erase_last by exact N.
    cbn [negb with_rules]. unfold when_g. cbn [String.eqb Ascii.eqb Bool.eqb]. unfold e_BuildIncrementalRoleLinks, BuildIncrementalRoleLinks.
    cbn [String.eqb Ascii.eqb Bool.eqb e_model set_model e_heap e_rm]. unfold put_policy. rewrite put_put, get_put_ast_same, H. cbn [a_value with_policy].
    rewrite short_links by exact S. rewrite put_put, hset_id by exact H. rewrite with_rm_id by reflexivity.
    assert (Q : with_policy (with_policy a (Vec (l ++ [r]))) (Vec l) = a) by (destruct a; cbn in L |- *; rewrite L; reflexivity).
    rewrite Q, put_id by exact A. destruct e; reflexivity.
  Qed.
  Lemma short_view : same_view e (with_short e pt a l r).
  Proof.
    constructor; try reflexivity.
    - intros sec q D. unfold with_short. cbn [e_model set_model]. apply get_put_ast_other. congruence.
    - unfold with_short. cbn [e_model set_model]. apply g_view_put with (a := a); try reflexivity.
      unfold get_ast in A. destruct (aget pt _); congruence.
  Qed.
  Lemma short_stored : stored (with_short e pt a l r) "g" pt = stored e "g" pt ++ [r].
  Proof. unfold stored, rules_in, with_short. cbn [e_model set_model]. rewrite get_put_ast_same, A, L. reflexivity. Qed.
  Lemma short_others : others_kept "g" pt e (with_short e pt a l r).
  Proof. intros sec q D. unfold stored, rules_in, with_short. cbn [e_model set_model]. rewrite get_put_ast_other by exact D. reflexivity. Qed.
End Short.

(** ** While a short rule is stored *)
Lemma short_in_links : forall op n x rs r, In x rs -> List.length x < n -> snd (link_rules op n r rs) <> Ok tt.
Proof.
  intros op n x. induction rs as [|y rs IH]; intros r I S; [destruct I|]. cbn [link_rules].
  destruct I as [->|I].
  - unfold link_rule. apply Nat.ltb_lt in S. rewrite S. discriminate.
  - destruct (link_rule op n r y) as [r' [[]|t|u]]; [apply IH; auto|discriminate|discriminate].
Qed.
Lemma short_in_ast : forall op value x rs r, In x rs -> List.length x < scount "_" value -> snd (ast_links op value r rs) <> Ok tt.
Proof. intros. unfold ast_links. destruct (Nat.ltb _ 2); [discriminate|]. eapply short_in_links; eauto. Qed.
Lemma short_in_build : forall rm k a x am h, In (k, a) am -> In x (rules_of (a_policy a)) -> List.length x < scount "_" (a_value a) ->
  snd (build_asts h rm am) <> Ok tt.
Proof.
  intros rm k a x. induction am as [|[k' a'] am IH]; intros h I X S; [destruct I|]. cbn [build_asts].
  destruct (hget h rm) as [r|t|u]; try discriminate. destruct I as [Q|I].
  - inversion Q; subst. pose proof (short_in_ast policy_add (a_value a) x (rules_of (a_policy a)) r X S) as W.
    destruct (ast_links policy_add (a_value a) r (rules_of (a_policy a))) as [r' [[]|t|u]]; [destruct W; reflexivity|discriminate|discriminate].
  - destruct (ast_links policy_add (a_value a') r (rules_of (a_policy a'))) as [r' [[]|t|u]]; try discriminate.
    specialize (IH (hset h rm r') I X S). destruct (build_asts (hset h rm r') rm am) as [[? ?] ?]. exact IH.
Qed.
Lemma sec_touch : forall m sec, sec_of (touch m sec) sec = sec_of m sec.
Proof. intros. unfold sec_of, touch. rewrite aget_ainsert. rewrite String.eqb_refl. destruct (aget sec m); reflexivity. Qed.
Lemma stuck_build : forall e, holds_short e -> snd (e_BuildRoleLinks e) <> Ok tt.
Proof.
  intros e [pt [n [r [[a [A V]] [I S]]]]]. unfold e_BuildRoleLinks. destruct (hget (e_heap e) (e_rm e)) as [rm|t|u]; try discriminate.
  unfold BuildRoleLinks. rewrite sec_touch. unfold get_ast in A. destruct (aget pt (sec_of (e_model e) "g")) as [b|] eqn:G; [|discriminate].
  inversion A; subst. unfold stored, rules_in, get_ast in I. rewrite G in I.
  pose proof (short_in_build (e_rm e) pt a r (sec_of (e_model e) "g") (hset (e_heap e) (e_rm e) (Clear rm)) (aget_In _ _ _ G) I S) as W.
  destruct (build_asts _ _ _) as [[? ?] ?]. exact W.
Qed.
Lemma stuck_rebuild : forall e, e_auto_build e = true -> holds_short e -> snd (rebuild_if_auto e) <> Ok tt.
Proof. intros e B S. unfold rebuild_if_auto. rewrite B. apply stuck_build. exact S. Qed.

(** Role definitions, their rules and the switch for automatic building are kept. *)
Definition defs_kept (e e' : enforcer) : Prop :=
  e_auto_build e' = e_auto_build e /\
  forall pt a, get_ast (e_model e) "g" pt = Ok a ->
    exists a', get_ast (e_model e') "g" pt = Ok a' /\ a_value a' = a_value a /\ rules_of (a_policy a') = rules_of (a_policy a).
Lemma defs_refl : forall e, defs_kept e e.
Proof. intros. split; eauto. Qed.
Lemma defs_trans : forall e1 e2 e3, defs_kept e1 e2 -> defs_kept e2 e3 -> defs_kept e1 e3.
Proof.
  intros e1 e2 e3 [B1 D1] [B2 D2]. split; [congruence|]. intros pt a A. destruct (D1 pt a A) as [a1 [A1 [V1 R1]]].
  destruct (D2 pt a1 A1) as [a2 [A2 [V2 R2]]]. exists a2. split; [exact A2|split; congruence].
Qed.
Lemma defs_same : forall e e', e_model e' = e_model e -> e_auto_build e' = e_auto_build e -> defs_kept e e'.
Proof. intros e e' M B. split; [exact B|]. intros pt a A. exists a. rewrite M. auto. Qed.
Lemma defs_short : forall e e', defs_kept e e' -> holds_short e -> holds_short e'.
Proof.
  intros e e' [_ D] [pt [n [r [[a [A V]] [I S]]]]]. destruct (D pt a A) as [a' [A' [V' R']]]. exists pt, n, r. split; [|split; [|exact S]].
  - exists a'. split; [exact A'|congruence].
  - unfold stored, rules_in in *. rewrite A in I. rewrite A', R'. exact I.
Qed.
Lemma defs_incremental : forall op pt rs e, defs_kept e (fst (e_BuildIncrementalRoleLinks op pt rs e)).
Proof.
  intros op pt rs e. unfold e_BuildIncrementalRoleLinks, BuildIncrementalRoleLinks. cbn [String.eqb Ascii.eqb Bool.eqb].
  destruct (get_ast (e_model e) "g" pt) as [b|t|u] eqn:G; try (apply defs_same; reflexivity).
  assert (K : forall h, defs_kept e (set_heap h (set_model (put_ast (e_model e) "g" pt (with_rm b (Some (e_rm e)))) e))).
  { intros h. split; [reflexivity|]. intros q a A. cbn [e_model set_heap set_model]. destruct (String.eqb_spec q pt) as [->|D].
    - rewrite get_put_ast_same. rewrite A in G. inversion G; subst. eauto.
    - rewrite get_put_ast_other by congruence. eauto. }
  destruct (hget (e_heap e) (e_rm e)) as [r|t|u]; [|exact (K _)|exact (K _)].
  destruct (ast_links op (a_value b) r rs). exact (K _).
Qed.
Lemma defs_autosave : forall c e, defs_kept e (fst (autosave c e)).
Proof.
  intros c e. unfold autosave. destruct (e_adapter e) as [a|]; [|apply defs_refl]. destruct (e_auto_save e); [|apply defs_refl].
  destruct (adapter_call a c) as [a' [x|[]|x]]; apply defs_same; reflexivity.
Qed.
Lemma defs_notify : forall e, defs_kept e (fst (notify e)).
Proof. intros e. unfold notify. destruct (e_watcher e); [|apply defs_refl]. destruct (e_notify e); apply defs_same; reflexivity. Qed.

(** After the rule list was changed, and before the storage is told. *)
Lemma after_links : forall (c : acall) op pt rs e e' b,
  (when_g "g" (e_BuildIncrementalRoleLinks op pt rs) ;;; autosave c ;;; notify ;;; ret true) e = (e', Ok b) ->
  defs_kept e e' /\ (forall a x, get_ast (e_model e) "g" pt = Ok a -> In x rs -> ~ List.length x < scount "_" (a_value a)).
Proof.
  intros c op pt rs e e' b Q. unfold when_g in Q. cbn [String.eqb Ascii.eqb Bool.eqb] in Q. unfold mbind in Q.
  pose proof (defs_incremental op pt rs e) as D1.
  assert (L : snd (e_BuildIncrementalRoleLinks op pt rs e) = Ok tt -> forall a x, get_ast (e_model e) "g" pt = Ok a -> In x rs ->
    ~ List.length x < scount "_" (a_value a)).
  { intros O a x A I S. unfold e_BuildIncrementalRoleLinks, BuildIncrementalRoleLinks in O. cbn [String.eqb Ascii.eqb Bool.eqb] in O. rewrite A in O.
    destruct (hget (e_heap e) (e_rm e)) as [r|t|u]; try discriminate. pose proof (short_in_ast op (a_value a) x rs r I S) as W.
    destruct (ast_links op (a_value a) r rs) as [r' out]. exact (W O). }
  destruct (e_BuildIncrementalRoleLinks op pt rs e) as [e1 [[]|t|u]]; try discriminate. cbn [fst snd] in *.
  pose proof (defs_autosave c e1) as D2. destruct (autosave c e1) as [e2 [[]|t|u]]; try discriminate. cbn [fst] in D2.
  pose proof (defs_notify e2) as D3. destruct (notify e2) as [e3 [[]|t|u]]; try discriminate. cbn [fst] in D3.
  inversion Q; subst. split; [|exact (L eq_refl)]. eapply defs_trans; [exact D1|]. eapply defs_trans; eauto.
Qed.

(** The rules of one definition are replaced by some of them; a short rule is still there
    unless it was taken away. *)
Lemma still_short : forall e pt a p (gone : list rule),
  get_ast (e_model e) "g" pt = Ok a ->
  (forall x, In x (rules_of (a_policy a)) -> In x (rules_of p) \/ exists y, In y gone /\ List.length y = List.length x) ->
  (forall y, In y gone -> ~ List.length y < scount "_" (a_value a)) ->
  holds_short e -> holds_short (set_model (put_policy (e_model e) "g" pt a p) e).
Proof.
  intros e pt a p gone A K G [q [n [r [[b [B V]] [I S]]]]]. exists q, n, r. unfold takes, stored, rules_in in *. cbn [e_model set_model]. unfold put_policy.
  destruct (String.eqb_spec q pt) as [->|D].
  - rewrite get_put_ast_same. rewrite A in B. inversion B; subst. rewrite A in I. split; [|split; [|exact S]].
    + exists (with_policy b p). auto.
    + cbn [a_policy with_policy]. destruct (K r I) as [Z|[y [Y W]]]; [exact Z|]. exfalso. apply (G y Y). rewrite W. exact S.
  - rewrite get_put_ast_other by congruence. split; [eauto|split; [exact I|exact S]].
Qed.
Lemma short_after_remove : forall pt x e e' b, holds_short e -> i_removePolicy "g" pt x e = (e', Ok b) ->
  holds_short e' /\ e_auto_build e' = e_auto_build e.
Proof.
  intros pt x e e' b HS Q. unfold i_removePolicy, mbind at 1, on_model, RemovePolicy in Q.
  destruct (get_ast (e_model e) "g" pt) as [a|t|u] eqn:A; try discriminate. cbn [bind] in Q.
  destruct (erase_first x (rules_of (a_policy a))) as [l'|] eqn:E; cbn [negb] in Q.
  - destruct (after_links _ _ _ _ _ _ _ Q) as [D L]. split; [|exact (proj1 D)]. apply (defs_short _ _ D).
    apply still_short with (gone := [x]); [exact A| | |exact HS].
    + intros y I. rewrite rules_with. destruct (erase_first_some _ _ _ E) as [pre [z [post [W [-> [P _]]]]]]. rewrite W in I.
      apply in_app_or in I. destruct I as [I|[<-|I]]; [left; apply in_or_app; auto| |left; apply in_or_app; auto].
      right. exists x. split; [left; reflexivity|apply Permutation_length; exact P].
    + intros y [<-|[]]. apply (L (with_policy a (with_rules (a_policy a) l')) x); [|left; reflexivity].
      cbn [e_model set_model]. unfold put_policy. apply get_put_ast_same.
  - unfold ret in Q. inversion Q; subst. split; [exact HS|reflexivity].
Qed.
Lemma partition_all : forall i vals l eff tmp, partition_rules i vals l = Ok (eff, tmp) -> forall x, In x l -> In x tmp \/ In x eff.
Proof.
  intros i vals. induction l as [|y l IH]; intros eff tmp P x I; [destruct I|]. cbn [partition_rules] in P.
  destruct (field_match y i vals) as [m|t|u]; try discriminate. cbn [bind] in P.
  destruct (partition_rules i vals l) as [[e0 t0]|t|u]; try discriminate. cbn [bind] in P. specialize (IH _ _ eq_refl x).
  destruct m; inversion P; subst; destruct I as [->|I]; cbn [In]; try tauto; destruct (IH I); tauto.
Qed.
Lemma short_after_filtered : forall pt i vals e e' b, holds_short e -> i_removeFilteredPolicy "g" pt i vals e = (e', Ok b) ->
  holds_short e' /\ e_auto_build e' = e_auto_build e.
Proof.
  intros pt i vals e e' b HS Q. unfold i_removeFilteredPolicy, mbind at 1, on_model, RemoveFilteredPolicy in Q.
  destruct (get_ast (e_model e) "g" pt) as [a|t|u] eqn:A; try discriminate. cbn [bind] in Q.
  destruct (partition_rules i vals (rules_of (a_policy a))) as [[eff tmp]|t|u] eqn:E; try discriminate. cbn [bind] in Q.
  assert (K : (forall y, In y eff -> ~ List.length y < scount "_" (a_value a)) ->
    holds_short (set_model (put_policy (e_model e) "g" pt a (Vec tmp)) e)).
  { intros G. apply still_short with (gone := eff); [exact A| |exact G|exact HS].
    intros x I. cbn [rules_of]. destruct (partition_all _ _ _ _ _ E x I); [left; auto|right; eauto]. }
  destruct eff as [|y eff]; cbn [negb] in Q.
  - unfold ret in Q. inversion Q; subst. split; [|reflexivity]. apply K. intros y [].
  - destruct (after_links _ _ _ _ _ _ _ Q) as [D L]. split; [|exact (proj1 D)]. apply (defs_short _ _ D). apply K.
    intros z I. apply (L (with_policy a (Vec tmp)) z); [|exact I]. cbn [e_model set_model]. unfold put_policy. apply get_put_ast_same.
Qed.
Lemma stuck_filtered : forall pt i vals e b, e_auto_build e = true -> holds_short e -> snd (RemoveFilteredNamedGroupingPolicy pt i vals e) <> Ok b.
Proof.
  intros pt i vals e b B S. unfold RemoveFilteredNamedGroupingPolicy, mbind. destruct (i_removeFilteredPolicy "g" pt i vals e) as [e1 [c|t|u]] eqn:E; try discriminate.
  destruct (short_after_filtered _ _ _ _ _ _ S E) as [S1 B1]. pose proof (stuck_rebuild e1) as W. rewrite B1 in W. specialize (W B S1).
  destruct (rebuild_if_auto e1) as [e2 [[]|t|u]]; [destruct W; reflexivity|discriminate|discriminate].
Qed.
Lemma stuck_remove : forall pt x e b, e_auto_build e = true -> holds_short e -> snd (RemoveNamedGroupingPolicy pt x e) <> Ok b.
Proof.
  intros pt x e b B S. unfold RemoveNamedGroupingPolicy, mbind. destruct (i_removePolicy "g" pt x e) as [e1 [c|t|u]] eqn:E; try discriminate.
  destruct (short_after_remove _ _ _ _ _ S E) as [S1 B1]. pose proof (stuck_rebuild e1) as W. rewrite B1 in W. specialize (W B S1).
  destruct (rebuild_if_auto e1) as [e2 [[]|t|u]]; [destruct W; reflexivity|discriminate|discriminate].
Qed.
Lemma no_answer : forall A B (x : M A) (f : A -> M B) e b, (forall a, snd (x e) <> Ok a) -> snd (mbind x f e) <> Ok b.
Proof. intros A B x f e b N. unfold mbind. destruct (x e) as [e1 [a|t|u]]; [destruct (N a); reflexivity|discriminate|discriminate]. Qed.
Lemma stuck : forall o c e, e_auto_build e = true -> holds_short e -> relinks c -> snd (run o c e) <> Ok tt.
Proof.
  intros o c e B S R. destruct c; try destruct R; cbn [run]; try (unfold drop_value).
  - apply no_answer. intros b. apply stuck_remove; auto.
  - apply no_answer. intros b. apply stuck_filtered; auto.
  - apply no_answer. intros b. apply no_answer. intros b'. apply stuck_filtered; auto.
  - apply no_answer. intros b. apply no_answer. intros b'. apply stuck_filtered; auto.
  - apply stuck_build. exact S.
Qed.
