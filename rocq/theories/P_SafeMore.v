(** No undefined behaviour: enforcement, loading, saving. *)
From Verif Require Import Base P_Base M_Util M_RoleManager M_Effector M_Model M_Persist M_Eval M_Evaluator M_Enforcer
  S_Text S_Policy S_Persist S_History S_Safe
  P_Text P_Enforce P_Decide P_Store P_Api P_History P_Sync P_Ready P_Implicit P_Nodup P_Persist P_Safe.

(** ** The effector *)
Lemma scan_allow_defined : forall effects matches i, List.length matches = List.length effects -> defined (scan_allow effects matches i).
Proof.
  induction effects as [|x xs IH]; intros [|m ms] i L; simpl in *; auto; try discriminate.
  destruct (negb m); auto. destruct (effect_eqb x Allow); auto.
Qed.
Lemma vget_ok : forall A (l : list A) i, i < List.length l -> exists x, vget l i = Ok x.
Proof. intros A l i L. unfold vget. destruct (nth_error l i) eqn:E; eauto. apply nth_error_None in E. lia. Qed.
Lemma scan_priority_defined : forall effects matches n, List.length matches = List.length effects -> n <= List.length effects ->
  defined (scan_priority effects matches n).
Proof.
  intros effects matches n E. induction n as [|n IH]; intros L; simpl; auto.
  destruct (vget_ok _ matches n) as [b B]; [lia|]. destruct (vget_ok _ effects n) as [x X]; [lia|].
  rewrite B. cbn [bind]. destruct (negb b); [apply IH; lia|]. rewrite X. cbn [bind]. destruct x; auto. apply IH. lia.
Qed.
Lemma merge_defined : forall expr effects matches i len, List.length matches = List.length effects -> i < List.length effects ->
  defined (MergeEffects expr effects matches i len).
Proof.
  intros expr effects matches i len E L. unfold MergeEffects.
  destruct (vget_ok _ matches i) as [b B]; [lia|]. destruct (vget_ok _ effects i) as [x X]; [lia|]. rewrite B, X. cbn [bind].
  destruct (String.eqb expr eft_allow_override). { destruct (negb b); auto. destruct (effect_eqb x Allow); auto. }
  destruct (String.eqb expr eft_deny_override). { destruct (b && effect_eqb x Deny); auto. destruct (Nat.eqb i (len - 1)); auto. }
  destruct (String.eqb expr eft_allow_and_deny).
  { destruct (b && effect_eqb x Deny); auto. destruct (Nat.ltb i (len - 1)); auto. apply scan_allow_defined. auto. }
  destruct (String.eqb expr eft_priority); auto. apply scan_priority_defined; auto.
Qed.

(** ** The evaluator *)
Definition ev_ok (n : nat) (ev : evaluator) : Prop := forall f i k, In (f, FG (Some i) k) (ev_funs ev) -> i < n.

Lemma plain_valid : forall t s, (t = "r" \/ t = "p") -> plain_name s -> valid_symbol (t ++ "." ++ s) = true.
Proof.
  intros t s T [NE E].
  assert (R : symbol_rest s = true).
  { clear NE. induction s as [|c s IH]; simpl in *; auto. destruct E as [C E]. rewrite C. simpl. auto. }
  assert (NB : String.eqb s "" = false) by (apply String.eqb_neq; auto).
  destruct T; subst; cbn; rewrite NB, R; reflexivity.
Qed.
Lemma push_ok : forall ev t s v, (t = "r" \/ t = "p") -> plain_name s -> exists ev', PushObjectString ev t s v = Ok ev' /\ ev_funs ev' = ev_funs ev.
Proof. intros ev t s v T P. unfold PushObjectString. rewrite plain_valid by auto. eexists. split; reflexivity. Qed.
Lemma push_p_ok : forall fs vals ev, Forall plain_name fs -> exists ev', push_p ev (map (String.append "p_") fs) vals = (ev', Ok tt) /\ ev_funs ev' = ev_funs ev.
Proof.
  induction fs as [|f fs IH]; intros vals ev F; simpl; eauto. destruct vals as [|v vs]; eauto.
  inversion F as [|? ? P PS]; subst. change (String "p" (String "_" f)) with ("p_" ++ f)%string. rewrite p_token_name_p.
  destruct (push_ok ev "p" f v) as [e1 [E1 F1]]; auto. rewrite E1. destruct (IH vs e1 PS) as [e2 [E2 F2]]. exists e2. split; auto. congruence.
Qed.
Lemma push_r_ok : forall fs ps ev, Forall plain_name fs -> exists ev', push_r ev (map (String.append "r_") fs) ps = (ev', Ok tt) /\ ev_funs ev' = ev_funs ev.
Proof.
  induction fs as [|f fs IH]; intros ps ev F; simpl; eauto. destruct ps as [|[s|] ps]; eauto.
  - inversion F as [|? ? P PS]; subst. change (sdrop 2 (String "r" (String "_" f))) with f.
    destruct (push_ok ev "r" f s) as [e1 [E1 F1]]; auto. rewrite E1. destruct (IH ps e1 PS) as [e2 [E2 F2]]. exists e2. split; auto. congruence.
  - inversion F; subst. auto.
Qed.
Lemma push_map_ok : forall ps ev, Forall (fun kv => plain_name (fst kv)) ps -> exists ev', push_map ev ps = (ev', Ok tt) /\ ev_funs ev' = ev_funs ev.
Proof.
  induction ps as [|[n [s|]] ps IH]; intros ev F; simpl; eauto; inversion F as [|? ? P PS]; subst; auto.
  simpl in P. destruct (push_ok ev "r" n s) as [e1 [E1 F1]]; auto. rewrite E1. destruct (IH e1 PS) as [e2 [E2 F2]]. exists e2. split; auto. congruence.
Qed.
Lemma add_fun_ok : forall n ev name f, ev_ok n ev -> (forall i k, f = FG (Some i) k -> i < n) -> ev_ok n (AddFunction ev name f).
Proof.
  intros n ev name f O F g i k. unfold AddFunction, ainsert. simpl. destruct (ahas name (ev_funs ev)); [apply O|].
  rewrite in_app_iff. simpl. intros [I|[I|[]]]; [eapply O; eauto|]. inversion I; subst. eapply F; eauto.
Qed.
Lemma load_functions_ok : forall n ev, ev_ok n ev -> ev_ok n (LoadFunctions ev).
Proof.
  intros n ev. unfold LoadFunctions. generalize builtin_names. intros l. revert ev.
  induction l as [|x l IH]; intros ev O; simpl; auto. apply IH. apply add_fun_ok; auto. intros; discriminate.
Qed.
Lemma load_g_ok : forall n ev m, ev_ok n ev -> (forall k a i, get_ast m "g" k = Ok a -> a_rm a = Some i -> i < n) ->
  ev_ok n (load_g_functions m ev).
Proof.
  intros n ev m O W. unfold load_g_functions. unfold get_ast in W.
  assert (W' : forall k a i, aget k (sec_of m "g") = Some a -> ahas k (ev_funs ev) = false -> a_rm a = Some i -> i < n).
  { intros k a i A _. apply (W k). rewrite A. auto. }
  clear W. revert ev O W'. generalize (sec_of m "g"). intros l.
  induction l as [|[k a] l IH]; intros ev O W; simpl; auto. apply IH.
  - destruct (ahas k (ev_funs ev)) eqn:H.
    + unfold LoadGFunction, AddFunction. rewrite ainsert_has by auto. destruct ev. exact O.
    + apply add_fun_ok; auto. simpl. intros i j E. inversion E; subst. apply (W k a i); auto. simpl. rewrite eqb_refl_s. auto.
  - intros k' a' i A H. apply (W k' a' i).
    + simpl. destruct (String.eqb_spec k' k); auto. subst. exfalso. revert H. simpl. unfold ahas. rewrite aget_ainsert.
      rewrite eqb_refl_s. destruct (aget k (ev_funs ev)); simpl; discriminate.
    + revert H. simpl. unfold ahas. rewrite aget_ainsert. destruct (String.eqb_spec k' k) as [->|]; auto.
      destruct (aget k (ev_funs ev)); auto.
Qed.
Lemma call_g_defined : forall h rm args, (forall i, rm = Some i -> i < List.length h) -> defined (call_g h rm args).
Proof.
  intros h rm args L. unfold call_g.
  assert (K : forall r a b d, defined (snd (HasLink r a b d))).
  { intros r a b d. unfold HasLink. destruct (Nat.ltb 1 (List.length d)); simpl; auto. destruct (String.eqb _ _); simpl; auto.
    destruct (negb _ || negb _); simpl; auto. }
  destruct args as [|a [|b [|c [|]]]]; auto; (destruct rm as [i|]; auto; destruct (hget_some h i (L i eq_refl)) as [r H]; rewrite H; cbn [bind]; apply K).
Qed.

Section Library.
  Variable o : oracle.
  Hypothesis TL : total_library o.

  Lemma value_defined : forall h ev, ev_ok (List.length h) ev -> defined (value o h ev).
  Proof.
    intros h ev O. unfold value. destruct (ev_prog ev) as [p|]; auto. apply TL. intros f args r. unfold funs_of.
    destruct (aget f (ev_funs ev)) as [[|rm n]|] eqn:A; try discriminate. intros X. inversion X; subst.
    apply call_g_defined. intros i ->. eapply O. apply aget_In. eauto.
  Qed.
  Lemma checked_defined : forall h ev, ev_ok (List.length h) ev -> defined (checked_value o h ev).
  Proof. intros h ev O. unfold checked_value. destruct (ev_bad ev); auto. apply value_defined. auto. Qed.
  Lemma eval_funs : forall ev t, ev_funs (fst (Eval o ev t)) = ev_funs ev.
  Proof. intros. unfold Eval. destruct (String.eqb (ev_expr ev) t); reflexivity. Qed.
  Lemma ok_funs : forall n ev ev', ev_funs ev' = ev_funs ev -> ev_ok n ev -> ev_ok n ev'.
  Proof. intros n ev ev' E O. unfold ev_ok. rewrite E. auto. Qed.

  Lemma token_index_bound : forall toks i name acc j, token_index_from i name toks acc = Some j ->
    (i <= j < i + List.length toks) \/ acc = Some j.
  Proof.
    induction toks as [|t ts IH]; simpl; intros i name acc j H; auto. apply IH in H. destruct H as [H|H]; [left; lia|].
    destruct (String.eqb t name); auto. left. inversion H. lia.
  Qed.
  Lemma token_get : forall name toks (vals : rule) j, token_index name toks = Some j -> List.length toks = List.length vals -> exists v, vget vals j = Ok v.
  Proof.
    intros name toks vals j T L. apply token_index_bound in T. destruct T as [T|]; [|discriminate]. apply vget_ok. lia.
  Qed.
  Lemma replacements_defined : forall toks vals names, List.length toks = List.length vals -> defined (eval_replacements toks vals names).
  Proof.
    intros toks vals names L. induction names as [|n ns IH]; simpl; auto.
    destruct (token_index (EscapeAssertion n) toks) as [j|] eqn:T; auto. destruct (token_get _ _ _ _ T L) as [v V]. rewrite V. cbn [bind].
    apply defined_bind; auto.
  Qed.
  Lemma effect_defined : forall toks vals, List.length toks = List.length vals -> defined (rule_effect toks vals).
  Proof.
    intros toks vals L. unfold rule_effect. destruct (token_index "p_eft" toks) as [j|] eqn:T; auto.
    destruct (token_get _ _ _ _ T L) as [v V]. rewrite V. cbn [bind]. auto.
  Qed.
  Lemma eval_rule_safe : forall h he expr fs ev vals, Forall plain_name fs -> ev_ok (List.length h) ev ->
    defined (snd (eval_rule o h he expr (map (String.append "p_") fs) ev vals)) /\
    ev_ok (List.length h) (fst (eval_rule o h he expr (map (String.append "p_") fs) ev vals)).
  Proof.
    intros h he expr fs ev vals F O. unfold eval_rule. set (toks := map (String.append "p_") fs).
    destruct (Nat.eqb_spec (List.length toks) (List.length vals)) as [L|L]; cbn [negb]; [|split; cbn [fst snd]; auto].
    destruct (push_p_ok fs vals ev F) as [e1 [E1 F1]]. fold toks in E1. rewrite E1.
    assert (O1 : ev_ok (List.length h) e1) by (eapply ok_funs; eauto).
    assert (D : defined (rule_expression he expr toks vals)).
    { unfold rule_expression. destruct he; auto. apply defined_bind; auto. apply replacements_defined. auto. }
    destruct (rule_expression he expr toks vals) as [ex|t|u]; [|split; cbn [fst snd]; auto|exfalso; eapply defined_ub; eauto].
    pose proof (eval_funs e1 ex) as F2. destruct (Eval o e1 ex) as [e2 b]. simpl in F2.
    assert (O2 : ev_ok (List.length h) e2) by (eapply ok_funs; eauto).
    pose proof (checked_defined h e2 O2) as C. destruct (checked_value o h e2) as [x|t|u]; [|split; cbn [fst snd]; auto|exfalso; eapply defined_ub; eauto].
    split; auto. cbn [snd]. apply defined_bind; auto. apply effect_defined. auto.
  Qed.
  Lemma upd_length : forall A (x : A) l i, List.length (upd i x l) = List.length l.
  Proof. intros A x. induction l as [|y l IH]; intros [|i]; simpl; auto. Qed.
  Lemma loop_safe : forall h he expr eft fs len, Forall plain_name fs -> forall todo idx effects matches last ev,
    ev_ok (List.length h) ev -> (todo = [] -> defined last) ->
    List.length matches = List.length effects -> idx + List.length todo <= List.length effects ->
    defined (snd (rule_loop o h he expr eft (map (String.append "p_") fs) len todo idx effects matches last ev)) /\
    ev_ok (List.length h) (fst (rule_loop o h he expr eft (map (String.append "p_") fs) len todo idx effects matches last ev)).
  Proof.
    intros h he expr eft fs len F todo. induction todo as [|vals rest IH]; intros idx effects matches last ev O L ME LE; cbn [rule_loop].
    - split; auto.
    - destruct (eval_rule_safe h he expr fs ev vals F O) as [D O1].
      destruct (eval_rule o h he expr (map (String.append "p_") fs) ev vals) as [e1 [[b x]|t|u]]; cbn [fst snd] in *;
        [|split; cbn [fst snd]; auto|exfalso; eapply defined_ub; eauto].
      simpl in LE.
      assert (M : defined (MergeEffects eft (upd idx x effects) (upd idx b matches) idx len)).
      { apply merge_defined; rewrite !upd_length; auto. lia. }
      destruct (MergeEffects eft (upd idx x effects) (upd idx b matches) idx len) as [[[| |] i]|t|u]; cbn [fst snd];
        try (split; auto; fail).
      apply IH; rewrite ?upd_length; auto; lia.
  Qed.

  (** Enforcement with a given evaluator. *)
  Lemma requested_defined : forall vals toks, defined (requested_policy vals toks).
  Proof.
    intros vals toks. induction toks as [|t ts IH]; cbn [requested_policy]; auto. destruct (aget (sdrop 2 t) vals); auto. apply defined_bind; auto.
  Qed.
  Lemma m_enforce_safe : forall e ev matcher, enforceable e matcher -> ev_ok (List.length (e_heap e)) ev ->
    (forall k a i, get_ast (e_model e) "g" k = Ok a -> a_rm a = Some i -> i < List.length (e_heap e)) ->
    defined (snd (m_enforce o e ev matcher)) /\ ev_ok (List.length (e_heap e)) (fst (m_enforce o e ev matcher)).
  Proof.
    intros e ev matcher [[ra [rf [RA [RT RF]]]] [[pa [pf [PA [PT PF]]]] [[ea EA] MA]]] O W. unfold m_enforce.
    destruct (e_enabled e); cbn [negb]; [|split; cbn [fst snd]; auto].
    set (ev1 := load_g_functions (e_model e) (LoadFunctions ev)).
    assert (O1 : ev_ok (List.length (e_heap e)) ev1). { apply load_g_ok; auto. apply load_functions_ok. auto. }
    cbv zeta. rewrite RA, PA, EA.
    assert (X : exists expr, (if String.eqb matcher "" then let! a := get_ast (e_model e) "m" "m" in Ok (a_value a) else Ok matcher) = Ok expr).
    { destruct (String.eqb_spec matcher "") as [E|E]; [|eauto]. destruct (MA E) as [ma A]. rewrite A. cbn [bind]. eauto. }
    destruct X as [expr X]. rewrite X. cbn [bind].
    assert (SD : defined (selected_policies (e_model e) ev1)).
    { unfold selected_policies. rewrite PA. cbn [bind]. destruct (a_policy pa); auto. rewrite RA. cbn [bind]. apply defined_bind; auto.
      apply requested_defined. }
    destruct (selected_policies (e_model e) ev1) as [rules|t|u]; cbn [bind]; [|split; cbn [fst snd]; auto|exfalso; eapply defined_ub; eauto].
    rewrite PT. destruct rules as [|r0 rules].
    - destruct (HasEval expr); [split; cbn [fst snd]; auto|].
      destruct (push_p_ok pf (map (fun _ => "") (map (String.append "p_") pf)) ev1 PF) as [e2 [E2 F2]]. rewrite E2.
      assert (O2 : ev_ok (List.length (e_heap e)) e2) by (eapply ok_funs; eauto).
      pose proof (eval_funs e2 expr) as F3. destruct (Eval o e2 expr) as [e3 valid]. simpl in F3.
      assert (O3 : ev_ok (List.length (e_heap e)) e3) by (eapply ok_funs; eauto).
      destruct valid; cbn [negb]; [|split; cbn [fst snd]; auto].
      pose proof (value_defined (e_heap e) e3 O3) as V. destruct (value o (e_heap e) e3) as [b|t|u]; [|split; cbn [fst snd]; auto|exfalso; eapply defined_ub; eauto].
      split; auto. cbn [snd bind]. apply defined_bind; auto. apply merge_defined; simpl; auto.
    - destruct (loop_safe (e_heap e) (HasEval expr) expr (a_value ea) pf (List.length (r0 :: rules)) PF (r0 :: rules) 0
                  (repeat Indeterminate (List.length (r0 :: rules))) (repeat false (List.length (r0 :: rules))) (UB Uninitialised) ev1 O1) as [D O2].
      + discriminate.
      + rewrite !repeat_length. auto.
      + rewrite repeat_length. simpl. lia.
      + destruct (rule_loop o (e_heap e) (HasEval expr) expr (a_value ea) (map (String.append "p_") pf) (List.length (r0 :: rules)) (r0 :: rules) 0 _ _ _ ev1) as [e2 out].
        cbn [fst snd] in *. split; auto. apply defined_bind; auto.
  Qed.

  (** ** The calls *)
  Section Calls.
    Variable ar : arity.
    Variable e0 : enforcer.

    Lemma shape_enforceable : forall e matcher, same_shape e0 e -> enforceable e0 matcher -> enforceable e matcher.
    Proof.
      intros e matcher S [[ra [rf [RA [RT RF]]]] [[pa [pf [PA [PT PF]]]] [EA MA]]].
      assert (T : forall sec pt a, get_ast (e_model e0) sec pt = Ok a -> exists a', get_ast (e_model e) sec pt = Ok a' /\ a_tokens a' = a_tokens a).
      { intros sec pt a A. specialize (S sec pt). unfold outline in S. rewrite A in S. cbn [bind] in S.
        destruct (get_ast (e_model e) sec pt) as [a'| |]; cbn [bind] in S; try discriminate. exists a'. split; auto. congruence. }
      destruct (T _ _ _ RA) as [ra' [RA' RT']]. destruct (T _ _ _ PA) as [pa' [PA' PT']].
      split; [exists ra', rf; repeat split; auto; congruence|]. split; [exists pa', pf; repeat split; auto; congruence|].
      split. { apply (declared_shape e0 e "e" "e" S). auto. } intros M. apply (declared_shape e0 e "m" "m" S). auto.
    Qed.
    Lemma inv_ev : forall e v, inv ar e0 e -> ev_ok (List.length (e_heap e)) v -> inv ar e0 (set_ev (Some v) e).
    Proof.
      intros e v I O. eapply inv_other; eauto. right. simpl. intros w f i n E. inversion E; subst. apply O.
    Qed.
    Lemma own_ok : forall e, inv ar e0 e -> ev_ok (List.length (e_heap e)) (own_evaluator e).
    Proof.
      intros e I. unfold own_evaluator. destruct (e_ev e) as [v|] eqn:E; [|intros f i k []]. intros f i k J.
      eapply (wf_funs _ _ (i_wf _ _ _ I)); eauto.
    Qed.
    Lemma safe_enforce_ex : forall matcher params, enforceable e0 matcher -> safe ar e0 (EnforceExWithMatcher o matcher params).
    Proof.
      intros matcher params E e I. pose proof (shape_enforceable e matcher (i_shape _ _ _ I) E) as E1.
      pose proof E1 as [[ra [rf [RA [RT RF]]]] _]. unfold EnforceExWithMatcher. rewrite RA.
      destruct (negb (Nat.eqb (List.length params) (List.length (a_tokens ra)))); [split; simpl; auto|].
      rewrite RT. destruct (push_r_ok rf params (own_evaluator e) RF) as [e1 [X1 F1]]. rewrite X1.
      assert (O1 : ev_ok (List.length (e_heap e)) e1) by (eapply ok_funs; [eauto|apply own_ok; auto]).
      destruct (m_enforce_safe e e1 matcher E1 O1) as [D O2]. { intros k a i. apply (wf_links _ _ (i_wf _ _ _ I)). }
      destruct (m_enforce o e e1 matcher) as [e2 out]. cbn [fst snd] in *. split; auto. apply inv_ev; auto.
    Qed.
    Lemma safe_enforce_map : forall matcher params, enforceable e0 matcher -> Forall (fun kv => plain_name (fst kv)) params ->
      safe ar e0 (EnforceExWithMatcherMap o matcher params).
    Proof.
      intros matcher params E P e I. pose proof (shape_enforceable e matcher (i_shape _ _ _ I) E) as E1. unfold EnforceExWithMatcherMap.
      destruct (push_map_ok params (own_evaluator e) P) as [e1 [X1 F1]]. rewrite X1.
      assert (O1 : ev_ok (List.length (e_heap e)) e1) by (eapply ok_funs; [eauto|apply own_ok; auto]).
      destruct (m_enforce_safe e e1 matcher E1 O1) as [D O2]. { intros k a i. apply (wf_links _ _ (i_wf _ _ _ I)). }
      destruct (m_enforce o e e1 matcher) as [e2 out]. cbn [fst snd] in *. split; auto. apply inv_ev; auto.
    Qed.
    Lemma safe_enforce : forall matcher params, enforceable e0 matcher -> safe ar e0 (EnforceWithMatcher o matcher params).
    Proof. intros. apply safe_bind. { apply safe_enforce_ex; auto. } intros. apply safe_ret. Qed.
    Lemma safe_batch : forall matcher reqs, enforceable e0 matcher -> safe ar e0 (BatchEnforceWithMatcher o matcher reqs).
    Proof.
      intros matcher reqs E. induction reqs as [|q qs IH]; simpl. { apply safe_ret. }
      apply safe_bind. { apply safe_enforce; auto. } intros b. apply safe_bind; auto. intros. apply safe_ret.
    Qed.
    Lemma safe_lift : forall A (r : res A), defined r -> safe ar e0 (lift r).
    Proof. intros A r D e I. split; simpl; auto. Qed.
    Lemma safe_allowed : forall perm subjects, enforceable e0 "" -> 2 <= List.length perm -> safe ar e0 (allowed_subjects o perm subjects).
    Proof.
      intros perm subjects E L. induction subjects as [|s ss IH]; cbn [allowed_subjects]. { apply safe_ret. }
      destruct (vget_ok _ perm 0) as [a A]; [lia|]. destruct (vget_ok _ perm 1) as [b B]; [lia|].
      apply safe_bind. { apply safe_lift. rewrite A. auto. } intros x. apply safe_bind. { apply safe_lift. rewrite B. auto. } intros y.
      apply safe_bind. { apply safe_enforce. auto. } intros z. apply safe_bind; auto. intros. apply safe_ret.
    Qed.
    Lemma safe_implicit_users : forall perm, enforceable e0 "" -> 2 <= List.length perm ->
      (forall pt, declared e0 "p" pt -> 0 < ar "p" pt) -> (forall pt, declared e0 "g" pt -> 1 < ar "g" pt) ->
      safe ar e0 (GetImplicitUsersForPermission o perm).
    Proof.
      intros perm E L P G. unfold GetImplicitUsersForPermission.
      apply safe_bind. { apply safe_all_types. auto. } intros ps. apply safe_bind. { apply safe_all_types. auto. } intros gi.
      apply safe_bind. { apply safe_all_types. intros pt D. specialize (G pt D). lia. } intros gs.
      apply safe_bind. { apply safe_allowed; auto. } intros. apply safe_ret.
    Qed.

    (** Loading *)
    Lemma known_load : forall rs m, (forall kr, In kr rs -> m_known m kr) -> exists m', load_rules rs m = (m', Ok tt) /\
      forall sec pt, get_ast m' sec pt = filled sec pt rs (get_ast m sec pt).
    Proof. intros rs m K. apply load_rules_known. apply Forall_forall. auto. Qed.
    Lemma inv_filled : forall e e' rs, inv ar e0 e -> (forall sec pt, get_ast (e_model e') sec pt = filled sec pt rs (get_ast (e_model e) sec pt)) ->
      (forall kr, In kr rs -> List.length (snd kr) = ar (section_of (fst kr)) (fst kr)) ->
      e_heap e' = e_heap e -> e_rm e' = e_rm e -> e_ev e' = e_ev e -> (batch_saveable e -> batch_saveable e') -> inv ar e0 e'.
    Proof.
      intros e e' rs [[W1 W2 W3 W4] S B L] G K H R EV BS.
      assert (GS : forall sec pt a', get_ast (e_model e') sec pt = Ok a' -> exists a, get_ast (e_model e) sec pt = Ok a /\ a_rm a' = a_rm a /\
                 forall r, In r (rules_of (a_policy a')) -> In r (rules_of (a_policy a)) \/ (section_of pt = sec /\ In (pt, r) rs)).
      { intros sec pt a' A'. rewrite G in A'. unfold filled in A'. destruct (get_ast (e_model e) sec pt) as [a| |]; cbn [bind] in A'; try discriminate.
        exists a. split; auto. inversion A'; subst. destruct (String.eqb_spec (section_of pt) sec) as [V|V]; [|auto]. split; auto.
        intros r. cbn [a_policy with_policy]. rewrite fold_emplace_in. intros [X|X]; auto. right. split; auto.
        unfold rules_for in X. apply in_map_iff in X. destruct X as [[k x] [<- X]]. apply filter_In in X. destruct X as [X Q].
        simpl in Q. apply String.eqb_eq in Q. subst. auto. }
      constructor; auto.
      - constructor.
        + intros sec pt r. unfold stored, rules_in. destruct (get_ast (e_model e') sec pt) as [a'| |] eqn:A'; try (intros []; fail).
          destruct (GS _ _ _ A') as [a [A [_ X]]]. intros J. destruct (X _ J) as [Y|[Y Z]].
          * apply W1. unfold stored, rules_in. rewrite A. auto.
          * rewrite <- Y. apply (K (pt, r) Z).
        + rewrite H, R. auto.
        + rewrite H. intros sec pt a' i A' J. destruct (GS _ _ _ A') as [a [A [X _]]]. apply (W3 sec pt a i A). congruence.
        + rewrite H, EV. auto.
      - eapply same_shape_trans; eauto. intros sec pt. rewrite G. unfold filled, outline. destruct (get_ast (e_model e) sec pt) as [a| |]; auto.
        cbn [bind]. destruct (String.eqb (section_of pt) sec); reflexivity.
      - intros LB. destruct (L LB) as [a [i [A X]]]. unfold links_built. rewrite G, A. unfold filled. cbn [bind].
        eexists. exists i. split; [reflexivity|]. destruct (String.eqb (section_of "g") "g"); auto.
    Qed.
  End Calls.

  Lemma lines_exist : forall lines, lines_mean eq lines (cat_some (map parse lines)).
  Proof. intros lines. apply (lines_mean_fun _ _ eq_fun). reflexivity. Qed.
  Lemma safe_adapter_load : forall ar e0 e, loadable ar e0 -> inv ar e0 e -> e_adapter e = e_adapter e0 -> e_fs e = e_fs e0 ->
    defined (snd (adapter_load e)) /\ inv ar e0 (fst (adapter_load e)).
  Proof.
    intros ar e0 e [NA K] I A F.
    assert (KN : forall rs, delivers e0 rs -> (forall kr, In kr rs -> m_known (e_model e) kr) /\
                  forall kr, In kr rs -> List.length (snd kr) = ar (section_of (fst kr)) (fst kr)).
    { intros rs D. split; intros kr J; destruct (K rs kr D J) as [X Y]; auto.
      apply (declared_shape e0 e _ _ (i_shape _ _ _ I)). exact X. }
    assert (OF : forall rs, offers e0 rs -> (forall u, e_adapter e0 <> Some (AUser u)) -> defined (snd (adapter_load e)) /\ inv ar e0 (fst (adapter_load e))).
    { intros rs O NU. assert (OE : offers e rs). { unfold offers in *. rewrite A, F. exact O. }
      pose proof (adapter_load_offers e rs OE) as L. destruct (KN rs) as [K1 K2].
      { unfold delivers. destruct (e_adapter e0) as [[]|]; auto. exfalso. eapply NU; eauto. }
      destruct (known_load rs (e_model e) K1) as [m' [E G]]. rewrite E in L.
      assert (BA : batch_saveable e -> batch_saveable (fst (adapter_load e))).
      { unfold adapter_load, batch_saveable. destruct (e_adapter e) as [[b p|l|p fd|u]|] eqn:AE; simpl; auto.
        - destruct (FileAdapter_LoadPolicy (e_fs e) p (e_model e)). simpl. rewrite AE. auto.
        - destruct (StringAdapter_LoadPolicy l (e_model e)). simpl. rewrite AE. auto.
        - destruct (Filtered_LoadPolicy (e_fs e) p (e_model e)) as [[fd' m1] out1]. simpl. auto.
        - exfalso. apply (NU u). congruence.
        - rewrite AE. auto. }
      destruct (adapter_load e) as [e' out]. destruct L as [L1 [L2 [H [R [_ [_ [EV _]]]]]]]. cbn [fst snd] in *. subst out. split; auto.
      apply (inv_filled ar e0 e e' rs); auto. intros. rewrite L1. auto. }
    destruct (e_adapter e0) as [[b p|l|p fd|u]|] eqn:AE; [| | | |congruence].
    - destruct (string_dec p "") as [->|NE]. { unfold adapter_load. rewrite A. simpl. split; auto. eapply inv_other; eauto. }
      destruct (aget p (files (e_fs e0))) as [c|] eqn:C.
      + eapply OF; [|discriminate]. unfold offers. rewrite AE, C. split; auto. apply file_means_fun. reflexivity.
      + apply (OF []); [|discriminate]. unfold offers. rewrite AE, C. auto.
    - destruct (string_dec l "") as [->|NE]. { unfold adapter_load. rewrite A. simpl. split; auto. eapply inv_other; eauto. }
      eapply OF; [|discriminate]. unfold offers. rewrite AE. split; auto. apply string_means_fun. reflexivity.
    - destruct (string_dec p "") as [->|NE]. { unfold adapter_load. rewrite A. simpl. split; auto. eapply inv_other; eauto. unfold batch_saveable. rewrite A. simpl. auto. }
      destruct (aget p (files (e_fs e0))) as [c|] eqn:C.
      + eapply OF; [|discriminate]. unfold offers. rewrite AE, C. split; auto. apply file_means_fun. reflexivity.
      + apply (OF []); [|discriminate]. unfold offers. rewrite AE, C. auto.
    - unfold adapter_load. rewrite A. destruct (ua_load u (ua_log u)) as [lines ex] eqn:U. rewrite load_lines_parse.
      destruct (KN (cat_some (map parse lines))) as [K1 K2].
      { unfold delivers. rewrite AE, U. apply lines_exist. }
      destruct (known_load _ (e_model e) K1) as [m' [E G]]. rewrite E. cbn [fst snd]. split; [destruct ex; auto|].
      apply (inv_filled ar e0 e _ (cat_some (map parse lines))); auto.
  Qed.
  Lemma safe_load : forall ar e, well_formed ar e -> loadable ar e -> defined (snd (LoadPolicy e)) /\ well_formed ar (fst (LoadPolicy e)).
  Proof.
    intros ar e W L. pose proof (inv_start ar e W) as I0. destruct (safe_clear ar e e I0) as [_ I1].
    unfold LoadPolicy, mbind. unfold e_ClearPolicy, modify in *. cbn [fst snd] in *.
    destruct (safe_adapter_load ar e _ L I1 eq_refl eq_refl) as [D I2].
    destruct (adapter_load (set_model (ClearPolicy (e_model e)) e)) as [e2 [x|t|u]]; cbn [fst snd] in *.
    - destruct (safe_rebuild_if ar e e2 I2) as [D3 I3]. split; auto. apply (i_wf _ _ _ I3).
    - split; auto. apply (i_wf _ _ _ I2).
    - exfalso. eapply defined_ub; eauto.
  Qed.
  Lemma policy_text_defined : forall m, defined (policy_text m).
  Proof.
    intros m. assert (S : forall am, defined (sec_text am)).
    { intros am. unfold sec_text. apply defined_bind; auto. apply mapr_defined. intros kv _. apply defined_bind; auto.
      apply mapr_defined. intros r _. unfold rule_text. apply defined_bind; auto. unfold ArrayToString. destruct (Nat.ltb _ _); auto. }
    unfold policy_text. apply defined_bind; auto. intros. apply defined_bind; auto.
  Qed.
End Library.

Lemma safe_save : forall ar e0, saveable e0 -> forall e, inv ar e0 e -> e_adapter e = e_adapter e0 ->
  defined (snd (SavePolicy e)) /\ inv ar e0 (fst (SavePolicy e)).
Proof.
  intros ar e0 S e I A. unfold SavePolicy, IsFiltered, mbind. unfold saveable in S. rewrite A. destruct (e_adapter e0) as [ad|] eqn:AE; [|tauto].
  destruct (adapter_filtered ad) eqn:F. { split; simpl; auto. }
  assert (N : forall e1, inv ar e0 e1 -> inv ar e0 (fst (notify_always e1)) /\ snd (notify_always e1) = Ok tt).
  { intros e1 I1. unfold notify_always. destruct (e_watcher e1); split; simpl; auto. eapply inv_other; eauto. }
  assert (T : inv ar e0 (set_model (touch (touch (e_model e) "p") "g") e)).
  { eapply inv_links; eauto.
    - intros sec pt. simpl. rewrite !get_touch. reflexivity.
    - intros sec pt a i. simpl. rewrite !get_touch. apply (wf_links _ _ (i_wf _ _ _ I)).
    - intros [a [i [G R]]]. exists a, i. simpl. rewrite !get_touch. auto. }
  assert (K : defined (snd (adapter_save e)) /\ inv ar e0 (fst (adapter_save e))).
  { unfold adapter_save. rewrite A. destruct ad as [b p|l|p fd|u].
    - unfold FileAdapter_SavePolicy. destruct (String.eqb p ""). { split; simpl; auto. apply (inv_other ar e0 e); auto. }
      pose proof (policy_text_defined (touch (touch (e_model e) "p") "g")) as D.
      destruct (policy_text (touch (touch (e_model e) "p") "g")) as [t|x|u]; [| |exfalso; eapply defined_ub; eauto].
      + unfold SavePolicyFile. destruct (writable (e_fs e) p); split; simpl; auto; apply (inv_other ar e0 _ _ T); auto.
      + split; simpl; auto.
    - unfold StringAdapter_SavePolicy. destruct (String.eqb l "").
      { split; simpl; auto. apply (inv_other ar e0 e); auto. unfold batch_saveable. rewrite A. simpl. auto. }
      pose proof (policy_text_defined (touch (touch (e_model e) "p") "g")) as D.
      destruct (policy_text (touch (touch (e_model e) "p") "g")) as [t|x|u]; [| |exfalso; eapply defined_ub; eauto];
        split; simpl; auto; apply (inv_other ar e0 _ _ T); auto; unfold batch_saveable; simpl; rewrite A; auto.
    - subst. discriminate.
    - split; simpl; auto. destruct (ua_save u (ua_log u)); auto. }
  cbv iota. destruct (adapter_save e) as [e1 [x|t|u]]; cbn [fst snd] in *; [|tauto|exfalso; eapply defined_ub; destruct K; eauto].
  destruct (N e1) as [N1 N2]; [tauto|]. rewrite N2. auto.
Qed.
Lemma safe_new_manager : forall ar e0 r, safe ar e0 (SetRoleManager r).
Proof.
  intros ar e0 r e [[W1 W2 W3 W4] S B L]. split; simpl; auto. constructor; auto. constructor; auto; simpl; rewrite app_length; simpl; try lia.
  - intros sec pt a i A R. specialize (W3 sec pt a i A R). lia.
  - intros v f i n V J. specialize (W4 v f i n V J). lia.
Qed.

(** ** All calls *)
Definition rearranges (c : call) : Prop :=
  match c with KEnableAutoSave _ | KLoadPolicy | KSavePolicy | KLoadFilteredPolicy _ | KSetModel _ | KSetAdapter _ => True | _ => False end.
Lemma safe_run : forall ar o c e, total_library o -> well_formed ar e -> proper ar e c -> ~ rearranges c -> safe ar e (run o c).
Proof.
  intros ar o c e TL W P NS.
  destruct c; try (exfalso; apply NS; exact Logic.I); simpl in P |- *; try apply safe_drop.
  - apply safe_add; tauto.
  - apply safe_add_many; tauto.
  - apply safe_remove; tauto.
  - apply safe_remove_many; tauto.
  - apply safe_remove_filtered; tauto.
  - apply safe_update; tauto.
  - apply safe_update_many; tauto.
  - apply safe_add_grouping; tauto.
  - apply safe_add_many; tauto.
  - apply safe_remove_grouping; tauto.
  - apply safe_remove_many; tauto.
  - apply safe_remove_filtered_grouping; tauto.
  - apply safe_update; tauto.
  - apply safe_add_roles; tauto.
  - apply safe_delete_user; tauto.
  - apply safe_delete_role; tauto.
  - apply safe_all_types; auto.
  - apply safe_roles_for_user; auto.
  - apply safe_implicit_roles.
  - apply safe_implicit_perms; tauto.
  - apply safe_implicit_users; tauto.
  - apply safe_enforce; tauto.
  - apply safe_bind. { apply safe_enforce_map; tauto. } intros. apply safe_ret.
  - apply safe_batch; tauto.
  - apply safe_clear.
  - apply safe_rebuild.
  - intros e1 I. split; simpl; auto. eapply inv_other; eauto.
  - intros e1 I. split; simpl; auto. eapply inv_other; eauto.
  - intros e1 I. split; simpl; auto. eapply inv_other; eauto.
  - intros e1 I. split; simpl; auto. eapply inv_other; eauto.
  - apply safe_new_manager.
  - intros e1 I. split; simpl; auto. eapply inv_other; eauto. right. simpl. intros v f i n E. inversion E; subst. intros [].
  - apply safe_matching.
Qed.

Lemma run_safe : forall ar o c e, total_library o -> well_formed ar e -> proper ar e c ->
  defined (snd (run o c e)) /\ well_formed ar (fst (run o c e)).
Proof.
  intros ar o c e TL W P. assert (D : rearranges c \/ ~ rearranges c) by (destruct c; simpl; auto).
  destruct D as [D|D].
  - pose proof W as [W1 W2 W3 W4]. destruct c; simpl in D; try tauto; simpl in P; cbn [run].
    + apply safe_load; auto.
    + destruct P as [a [A F]]. unfold e_LoadFilteredPolicy, e_ClearPolicy, modify, mbind. cbn [set_model e_adapter]. rewrite A, F. cbn [negb fst snd].
      split; auto. destruct (safe_clear ar e e (inv_start ar e W)) as [_ I]. apply (i_wf _ _ _ I).
    + destruct (safe_save ar e P e (inv_start ar e W) eq_refl) as [X I]. split; auto. apply (i_wf _ _ _ I).
    + split; [simpl; auto|]. constructor; auto.
    + split; [simpl; auto|]. constructor; simpl; rewrite ?app_length; simpl; try lia.
      * intros sec pt r. unfold stored, rules_in. simpl. destruct (get_ast m sec pt) as [a| |] eqn:A; try (intros []; fail). apply (P sec pt a A).
      * intros sec pt a i A R. destruct (P sec pt a A) as [X _]. congruence.
      * intros; discriminate.
    + split; [simpl; auto|]. constructor; auto.
  - destruct (safe_run ar o c e TL W P D e (inv_start ar e W)) as [X Y]. split; auto. apply (i_wf _ _ _ Y).
Qed.
Lemma history_safe : forall ar o cs e, total_library o -> well_formed ar e -> all_proper ar o e cs -> forall x, In x (outcomes o e cs) -> defined x.
Proof.
  intros ar o cs e TL. revert e. induction cs as [|c cs IH]; simpl; intros e W P x I; [tauto|]. destruct P as [P PS].
  destruct (run_safe ar o c e TL W P) as [D W']. destruct I as [<-|I]; auto. eapply IH; eauto.
Qed.
