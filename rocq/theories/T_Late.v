(** Property C114, the rest: roles given after the first request. *)
From Verif Require Import Base P_Base M_Util M_RoleManager M_Effector M_Model M_Persist M_Eval M_Evaluator M_Enforcer M_Matcher M_Config M_Load M_Init
  S_Text S_Load S_Effect S_Enforce S_Policy S_Persist S_History S_Roles S_Sync S_Rbac S_Standard S_Files S_Unlinked
  P_Enforce P_Decide P_Store P_Api P_History P_Roles P_Sync P_Ready P_Standard E_Examples T_Load T_Standard T_Files T_Unlinked.

(** ** What a request does to the functions of the evaluator *)
Lemma push_r_funs : forall toks ps ev, ev_funs (fst (push_r ev toks ps)) = ev_funs ev.
Proof.
  induction toks as [|t ts IH]; intros [|[s|] ps] ev; simpl; auto. unfold PushObjectString. cbv zeta. destruct (valid_symbol _); simpl; auto. rewrite IH. reflexivity.
Qed.
Lemma push_p_funs : forall toks ps ev, ev_funs (fst (push_p ev toks ps)) = ev_funs ev.
Proof.
  induction toks as [|t ts IH]; intros [|s ps] ev; simpl; auto. unfold PushObjectString. cbv zeta. destruct (valid_symbol _); simpl; auto. rewrite IH. reflexivity.
Qed.
Lemma Eval_funs : forall o ev x, ev_funs (fst (Eval o ev x)) = ev_funs ev.
Proof. intros. unfold Eval. destruct (String.eqb _ _); reflexivity. Qed.
Lemma eval_rule_funs : forall o h b x toks ev r, ev_funs (fst (eval_rule o h b x toks ev r)) = ev_funs ev.
Proof.
  intros. unfold eval_rule. destruct (negb _); auto. pose proof (push_p_funs toks r ev) as P. destruct (push_p ev toks r) as [ev1 [?|?|?]]; simpl in *; auto.
  destruct (rule_expression b x toks r) as [y|?|?]; simpl; auto. pose proof (Eval_funs o ev1 y) as Q. destruct (Eval o ev1 y) as [ev2 ok]. simpl in Q.
  destruct (checked_value o h ev2); simpl; congruence.
Qed.
Lemma rule_loop_funs : forall o h b x ex toks len todo idx es ms last ev,
  ev_funs (fst (rule_loop o h b x ex toks len todo idx es ms last ev)) = ev_funs ev.
Proof.
  induction todo as [|r rs IH]; intros; simpl; auto. pose proof (eval_rule_funs o h b x toks ev r) as P.
  destruct (eval_rule o h b x toks ev r) as [ev' [[m f]|?|?]]; simpl in *; auto.
  destruct (MergeEffects ex _ _ idx len) as [[[] y]|?|?]; simpl; auto. rewrite IH. auto.
Qed.
Lemma m_enforce_funs : forall o e ev matcher, e_enabled e = true ->
  ev_funs (fst (m_enforce o e ev matcher)) = ev_funs (load_g_functions (e_model e) (LoadFunctions ev)).
Proof.
  intros o e ev matcher EN. unfold m_enforce. rewrite EN. cbn [negb]. cbv zeta.
  set (ev1 := load_g_functions (e_model e) (LoadFunctions ev)). clearbody ev1.
  match goal with |- ev_funs (fst (match ?scr with Ok _ => _ | Throw _ => _ | UB _ => _ end)) = _ => destruct scr as [[[x toks] rules]|?|?] end; auto.
  destruct rules as [|r rs].
  - destruct (HasEval x); auto. pose proof (push_p_funs toks (map (fun _ => "") toks) ev1) as P.
    destruct (push_p ev1 toks (map (fun _ => "") toks)) as [ev2 [?|?|?]]; simpl in *; auto.
    pose proof (Eval_funs o ev2 x) as Q. destruct (Eval o ev2 x) as [ev3 []]; simpl in *; [|congruence].
    destruct (value o (e_heap e) ev3); simpl; congruence.
  - destruct (get_ast (e_model e) "e" "e") as [ea|?|?]; auto.
    match goal with |- context [rule_loop ?a ?b ?c ?d ?f ?g ?h ?i ?j ?k ?l ?m ?n] => pose proof (rule_loop_funs a b c d f g h i j k l m n) as P;
      destruct (rule_loop a b c d f g h i j k l m n) as [ev2 out] end. simpl in *. auto.
Qed.

(** ** The enforcer as the evaluator sees it *)
Definition no_rm (a : assertion) : assertion := mkAst (a_key a) (a_value a) (a_tokens a) (a_policy a) None.
Definition drop_sec (s : string) (am : assertion_map) : assertion_map :=
  if String.eqb s "g" then map (fun kv => (fst kv, no_rm (snd kv))) am else am.
Definition drop_rm (m : model) : model := map (fun sa => (fst sa, drop_sec (fst sa) (snd sa))) m.
Definition unlink (e : enforcer) : enforcer := set_model (drop_rm (e_model e)) e.
Lemma aget_map2 : forall A B (f : string -> A -> B) l k, aget k (map (fun kv => (fst kv, f (fst kv) (snd kv))) l) = option_map (f k) (aget k l).
Proof. induction l as [|[q v] l IH]; intros k; simpl; auto. seqb k q; subst; auto. Qed.
Lemma sec_drop_g : forall m, sec_of (drop_rm m) "g" = map (fun kv => (fst kv, no_rm (snd kv))) (sec_of m "g").
Proof.
  intros m. unfold sec_of, drop_rm. rewrite (aget_map2 _ _ drop_sec).
  destruct (aget "g" m); reflexivity.
Qed.
Lemma sec_drop : forall m s, s <> "g" -> sec_of (drop_rm m) s = sec_of m s.
Proof.
  intros m s N. unfold sec_of, drop_rm. rewrite (aget_map2 _ _ drop_sec).
  apply String.eqb_neq in N. destruct (aget s m); simpl; auto. unfold drop_sec. rewrite N. reflexivity.
Qed.
Lemma get_drop : forall m s pt, s <> "g" -> get_ast (drop_rm m) s pt = get_ast m s pt.
Proof. intros. unfold get_ast. rewrite sec_drop; auto. Qed.
Lemma aget_drop : forall m g, aget g (sec_of (drop_rm m) "g") = option_map no_rm (aget g (sec_of m "g")).
Proof. intros. rewrite sec_drop_g. apply (aget_map2 _ _ (fun _ => no_rm)). Qed.
Lemma outline_drop : forall m s pt, outline (get_ast (drop_rm m) s pt) = outline (get_ast m s pt).
Proof.
  intros m s pt. destruct (String.string_dec s "g") as [->|N]; [|rewrite get_drop; auto].
  unfold get_ast. rewrite aget_drop. destruct (aget pt (sec_of m "g")); reflexivity.
Qed.
Lemma arity_drop : forall m g, role_arity (drop_rm m) g = role_arity m g.
Proof. intros. unfold role_arity. rewrite aget_drop. destruct (aget g (sec_of m "g")); reflexivity. Qed.
Lemma stored_drop : forall e, stored (unlink e) "p" "p" = stored e "p" "p".
Proof. intros. unfold stored, rules_in, unlink. cbn [set_model e_model]. rewrite get_drop by discriminate. reflexivity. Qed.
Lemma candidates_drop : forall m req, candidates (drop_rm m) req = candidates m req.
Proof. intros. unfold candidates, p_indexed, p_rules, rules_in. rewrite !get_drop by discriminate. reflexivity. Qed.

(** The role functions are all registered. *)
Definition all_bound (m : model) (ev : evaluator) : Prop := forall kv, In kv (sec_of m "g") -> ahas (fst kv) (ev_funs ev) = true.
Lemma AddFunction_has : forall ev f g k, ahas f (ev_funs ev) = true -> ahas f (ev_funs (AddFunction ev g k)) = true.
Proof. intros ev f g k. unfold ahas. simpl. rewrite aget_ainsert. seqb f g; auto. subst. destruct (aget g (ev_funs ev)); auto. Qed.
Lemma LoadFunctions_has : forall ev f, ahas f (ev_funs ev) = true -> ahas f (ev_funs (LoadFunctions ev)) = true.
Proof.
  assert (K : forall l ev f, ahas f (ev_funs ev) = true -> ahas f (ev_funs (fold_left (fun e n => AddFunction e n FBuiltin) l ev)) = true).
  { induction l; intros; simpl; auto. apply IHl, AddFunction_has. auto. }
  intros. apply K. auto.
Qed.
Lemma load_g_bound : forall m ev, all_bound m ev -> load_g_functions m ev = ev.
Proof.
  intros m ev. unfold all_bound, load_g_functions. induction (sec_of m "g") as [|kv l IH]; intros B; auto. simpl.
  assert (E : LoadGFunction ev (a_rm (snd kv)) (fst kv) (scount "_" (a_value (snd kv))) = ev).
  { unfold LoadGFunction, AddFunction. rewrite ainsert_has; [destruct ev; reflexivity|]. apply B. left. auto. }
  rewrite E. apply IH. intros. apply B. right. auto.
Qed.
Lemma m_enforce_drop : forall o e ev matcher, all_bound (e_model e) ev -> m_enforce o (unlink e) ev matcher = m_enforce o e ev matcher.
Proof.
  intros o e ev matcher B. unfold m_enforce, unlink. cbn [set_model e_enabled e_model e_heap].
  assert (B1 : all_bound (e_model e) (LoadFunctions ev)) by (intros kv I; apply LoadFunctions_has, B, I).
  rewrite (load_g_bound _ _ B1). rewrite load_g_bound.
  2: { intros kv I. rewrite sec_drop_g in I. apply in_map_iff in I. destruct I as [kv0 [<- I]]. apply (B1 _ I). }
  unfold selected_policies. rewrite !get_drop by discriminate. reflexivity.
Qed.
Definition bound (e : enforcer) : Prop := exists ev, e_ev e = Some ev /\ all_bound (e_model e) ev.
Lemma m_enforce_grows : forall o e ev matcher f, all_bound (e_model e) ev -> ahas f (ev_funs ev) = true -> ahas f (ev_funs (fst (m_enforce o e ev matcher))) = true.
Proof.
  intros o e ev matcher f B H. destruct (e_enabled e) eqn:EN.
  - rewrite m_enforce_funs by auto. rewrite load_g_bound; [apply LoadFunctions_has; auto|]. intros kv I. apply LoadFunctions_has, B, I.
  - unfold m_enforce. rewrite EN. exact H.
Qed.
Lemma Enforce_drop : forall o matcher params e, bound e -> exists v out,
  EnforceWithMatcher o matcher params e = (set_ev v e, out) /\ EnforceWithMatcher o matcher params (unlink e) = (set_ev v (unlink e), out) /\
  bound (set_ev v e).
Proof.
  intros o matcher params e [ev [EV B]].
  assert (K : exists v out, EnforceExWithMatcher o matcher params e = (set_ev v e, out) /\ EnforceExWithMatcher o matcher params (unlink e) = (set_ev v (unlink e), out) /\
    bound (set_ev v e)).
  { assert (B0 : bound (set_ev (e_ev e) e)) by (exists ev; auto).
    unfold EnforceExWithMatcher. replace (get_ast (e_model (unlink e)) "r" "r") with (get_ast (e_model e) "r" "r") by (symmetry; apply get_drop; discriminate).
    destruct (get_ast (e_model e) "r" "r") as [r|t|u].
    2, 3: exists (e_ev e); eexists; split; [|split; [|exact B0]]; destruct e; reflexivity.
    destruct (negb _). { exists (e_ev e); eexists; split; [|split; [|exact B0]]; destruct e; reflexivity. }
    replace (own_evaluator (unlink e)) with (own_evaluator e) by reflexivity.
    assert (OW : own_evaluator e = ev) by (unfold own_evaluator; rewrite EV; auto). rewrite OW.
    pose proof (push_r_funs (a_tokens r) params ev) as P. destruct (push_r ev (a_tokens r) params) as [ev1 [?|?|?]]; simpl in P.
    2, 3: exists (Some ev1); eexists; split; [|split]; try reflexivity; exists ev1; split; auto; intros kv I; rewrite P; apply B; auto.
    assert (B1 : all_bound (e_model e) ev1) by (intros kv I; rewrite P; apply B; auto).
    rewrite m_enforce_drop by auto. pose proof (fun f => m_enforce_grows o e ev1 matcher f B1) as GR.
    destruct (m_enforce o e ev1 matcher) as [ev2 out]. exists (Some ev2), out. split; [reflexivity|]. split; [reflexivity|].
    exists ev2. split; auto. intros kv I. apply GR, B1. auto. }
  destruct K as [v [out [K1 [K2 K3]]]]. unfold EnforceWithMatcher, mbind. rewrite K1, K2. exists v. destruct out as [x|t|u]; eexists; (split; [reflexivity|]); (split; [reflexivity|]); exact K3.
Qed.
Lemma Enforce_bound : forall o matcher params e v, e_enabled e = true -> (forall a, get_ast (e_model e) "r" "r" = Ok a -> List.length params = List.length (a_tokens a)) ->
  snd (EnforceWithMatcher o matcher params e) = Ok v -> bound (fst (EnforceWithMatcher o matcher params e)).
Proof.
  intros o matcher params e v EN LEN. rewrite fst_EnforceWithMatcher, snd_EnforceWithMatcher. unfold EnforceExWithMatcher.
  destruct (get_ast (e_model e) "r" "r") as [r|t|u] eqn:R; try discriminate. rewrite (LEN r eq_refl), Nat.eqb_refl. cbn [negb].
  destruct (push_r (own_evaluator e) (a_tokens r) params) as [ev1 [?|?|?]]; try discriminate.
  pose proof (m_enforce_funs o e ev1 matcher EN) as F. destruct (m_enforce o e ev1 matcher) as [ev2 out]. simpl in F. intros _. exists ev2. split; auto.
  cbn [fst set_ev e_model]. intros kv I. rewrite F. clear - I. unfold load_g_functions. generalize (LoadFunctions ev1).
  assert (MON : forall l ev f, ahas f (ev_funs ev) = true ->
    ahas f (ev_funs (fold_left (fun ev kv => LoadGFunction ev (a_rm (snd kv)) (fst kv) (scount "_" (a_value (snd kv)))) l ev)) = true).
  { induction l as [|x l IH]; intros ev f H; auto. simpl. apply IH, AddFunction_has. auto. }
  induction (sec_of (e_model e) "g") as [|x l IH]; [destruct I|]. intros ev. simpl. destruct I as [->|I]; [|apply IH; auto].
  apply MON. simpl. unfold ahas. rewrite aget_ainsert, eqb_refl_s. destruct (aget (fst kv) (ev_funs ev)); reflexivity.
Qed.

(** ** The enforcer stays as the evaluator sees it *)
Section Late.
  Variables (o : oracle) (hashed : bool) (rf pf : list string) (eft mat : string).
  Hypothesis X : oracle_ext o.
  Hypothesis NM : mat <> "".
  Hypothesis NE : HasEval mat = false.
  Let anything : rule -> Prop := fun _ => True.

  Definition held (e : enforcer) : Prop := standard o hashed rf pf eft mat (unlink e) /\ bound e.

  Lemma shape_keys : forall e e', same_shape e e' -> forall kv, In kv (sec_of (e_model e') "g") -> exists kv0, In kv0 (sec_of (e_model e) "g") /\ fst kv0 = fst kv.
  Proof.
    intros e e' S [k a] I. assert (K : In k (map fst (sec_of (e_model e') "g"))) by (apply in_map_iff; exists (k, a); auto).
    specialize (S "g" k). unfold get_ast in S. destruct (aget k (sec_of (e_model e') "g")) eqn:A; [|apply aget_None in A; tauto].
    destruct (aget k (sec_of (e_model e) "g")) eqn:A0; [|discriminate]. apply aget_In in A0. exists (k, a1). auto.
  Qed.
  Lemma held_same_ev : forall c e, safe_call anything c -> shaped_call (List.length pf) c -> e_ev (fst (run o c e)) = e_ev e -> held e -> held (fst (run o c e)).
  Proof.
    intros c e S C EV [[SR SV SF SO] [ev [E B]]]. pose proof (shape_run o c _ S e) as SH.
    assert (SH' : same_shape (unlink e) (unlink (fst (run o c e)))).
    { intros sec pt. unfold unlink. cbn [set_model e_model]. rewrite !outline_drop. apply SH. }
    assert (PK : p_kept hashed (fun r => List.length r = List.length pf) (fst (run o c e))).
    { apply (rules_run _ _ o c _ S C). intros a A. unfold p_indexed, unlink in SV. cbn [set_model e_model] in SV. rewrite get_drop, A in SV by discriminate. split; auto.
      intros r I. apply SF. rewrite stored_drop. unfold stored, rules_in. rewrite A. auto. }
    split.
    - constructor.
      + destruct SR as [D F]. split; [eapply shape_declares; eauto|]. change (e_ev (unlink (fst (run o c e)))) with (e_ev (fst (run o c e))). rewrite EV.
        change (e_ev (unlink e)) with (e_ev e) in F. rewrite E in *. destruct F as [F1 F2 F3]. destruct X as [X1 X2]. constructor; auto.
        * intros f k K. destruct (F2 f k K) as [?|[a [A ->]]]; auto. right. unfold unlink in *. cbn [set_model e_model] in *. rewrite aget_drop in *.
          specialize (SH "g" f). unfold get_ast in SH. destruct (aget f (sec_of (e_model e) "g")) as [a0|]; [|discriminate]. injection A as <-.
          destruct (aget f (sec_of (e_model (fst (run o c e))) "g")) as [a'|]; [|discriminate]. exists (no_rm a'). split; auto. simpl in *. inversion SH. congruence.
        * destruct F3 as [F3|[F3 F4]]; auto. right. split; auto. rewrite F3. f_equal. apply X1; auto. intros. symmetry. apply shape_arity. auto.
      + unfold p_indexed, unlink. cbn [set_model e_model]. rewrite get_drop by discriminate. specialize (SH "p" "p").
        unfold p_indexed, unlink in SV. cbn [set_model e_model] in SV. rewrite get_drop in SV by discriminate.
        destruct (get_ast (e_model (fst (run o c e))) "p" "p") eqn:G; [apply PK; auto| |]; destruct (get_ast (e_model e) "p" "p"); try discriminate SH; discriminate.
      + rewrite stored_drop. unfold stored, rules_in. destruct (get_ast (e_model (fst (run o c e))) "p" "p") eqn:G; [|simpl; tauto|simpl; tauto]. intros r. apply PK. auto.
      + apply (on_run _ o c _ S C e SO).
    - exists ev. split; [congruence|]. intros kv I. destruct (shape_keys _ _ SH kv I) as [kv0 [I0 <-]]. auto.
  Qed.
  Definition holds_on (e e' : enforcer) : Prop := held e -> held e'.
  Lemma on_refl : forall e, holds_on e e.
  Proof. intros e H. exact H. Qed.
  Lemma on_trans : forall a b c, holds_on a b -> holds_on b c -> holds_on a c.
  Proof. unfold holds_on. auto. Qed.
  Lemma held_enforce : forall matcher params, plain_request matcher params -> keeps holds_on (EnforceWithMatcher o matcher params).
  Proof.
    intros matcher params C e [ST B]. destruct (Enforce_drop o matcher params e B) as [v [out [E1 [E2 B2]]]].
    pose proof (linkless_standard o hashed rf pf eft mat (KEnforce matcher params) (unlink e) X NM NE I C ST) as K.
    assert (R2 : fst (run o (KEnforce matcher params) (unlink e)) = set_ev v (unlink e)) by (simpl; unfold drop_value, mbind; rewrite E2; destruct out; reflexivity).
    rewrite E1. rewrite R2 in K. split; [exact K|exact B2].
  Qed.
  Lemma held_batch : forall matcher reqs, Forall (plain_request matcher) reqs -> keeps holds_on (BatchEnforceWithMatcher o matcher reqs).
  Proof.
    intros matcher reqs F. induction F; simpl; [apply keeps_ret, on_refl|].
    apply keeps_bind; [exact on_trans|apply held_enforce; auto|]. intros.
    apply keeps_bind; [exact on_trans|auto|]. intros. apply keeps_ret, on_refl.
  Qed.
  Lemma held_all_types : forall sec i, keeps holds_on (all_types sec i).
  Proof.
    intros sec i e H.
    assert (EV : e_ev (fst (run o (KGetAll sec i) e)) = e_ev e).
    { simpl. unfold drop_value, mbind, all_types. simpl. match goal with |- context [match ?x with Ok _ => _ | Throw _ => _ | UB _ => _ end] => destruct x end; reflexivity. }
    pose proof (held_same_ev (KGetAll sec i) e I I EV H) as K. simpl in K. unfold drop_value, mbind in K.
    destruct (all_types sec i e) as [e1 [x|t|u]]; exact K.
  Qed.
  Lemma held_allowed : forall perm subs, keeps holds_on (allowed_subjects o perm subs).
  Proof.
    induction subs; simpl; [apply keeps_ret, on_refl|].
    apply keeps_bind; [exact on_trans|apply keeps_lift, on_refl|]. intros.
    apply keeps_bind; [exact on_trans|apply keeps_lift, on_refl|]. intros.
    apply keeps_bind; [exact on_trans|apply held_enforce; split; [reflexivity|exists [a; a0; a1]; reflexivity]|]. intros.
    apply keeps_bind; [exact on_trans|auto|]. intros. apply keeps_ret, on_refl.
  Qed.
  Lemma held_implicit_users : forall perm, keeps holds_on (GetImplicitUsersForPermission o perm).
  Proof.
    intros perm. unfold GetImplicitUsersForPermission. do 3 (apply keeps_bind; [exact on_trans|apply held_all_types|]; intros).
    apply keeps_bind; [exact on_trans|apply held_allowed|]. intros. apply keeps_ret, on_refl.
  Qed.
  Lemma held_step : forall c e, safe_call anything c -> shaped_call (List.length pf) c -> evaluator_stays c -> held e -> held (fst (run o c e)).
  Proof.
    intros c e S C L H.
    assert (P : parts_only c -> e_ev (fst (run o c e)) = e_ev e).
    { intros P. apply (parts_run same_rm_ev); auto; unfold same_rm_ev; try (intros; split; reflexivity). intuition congruence. }
    destruct c; try (apply held_same_ev; auto; apply P; exact I); simpl in S, C, L; try tauto; try (apply held_same_ev; auto; reflexivity); revert H;
      apply (keeps_drop holds_on on_refl on_trans); [apply held_implicit_users|apply held_enforce; auto|apply held_batch; auto].
  Qed.
  Lemma held_reaches : forall cs e e', Forall (safe_call anything) cs -> Forall (shaped_call (List.length pf)) cs -> Forall evaluator_stays cs ->
    reaches o e cs e' -> held e -> held e'.
  Proof.
    intros cs e e' S C L R. induction R as [e|e c cs e1 out e2 E U R IH]; intros H; auto.
    inversion S; subst. inversion C; subst. inversion L; subst. apply IH; auto. replace e1 with (fst (run o c e)) by (rewrite E; reflexivity). apply held_step; auto.
  Qed.
End Late.
Lemma declared_reaches : forall o rules cs e e' sec pt, Forall (safe_call rules) cs -> reaches o e cs e' -> declared e sec pt -> declared e' sec pt.
Proof.
  intros o rules cs e e' sec pt S R. induction R as [e|e c cs e1 out e2 E U R IH]; intros D; auto. inversion S; subst. apply IH; auto.
  replace e1 with (fst (run o c e)) by (rewrite E; reflexivity). eapply declared_run; eauto.
Qed.
Lemma arity_reaches : forall o rules cs e e' f, Forall (safe_call rules) cs -> reaches o e cs e' -> role_arity (e_model e') f = role_arity (e_model e) f.
Proof.
  intros o rules cs e e' f S R. induction R as [e|e c cs e1 out e2 E U R IH]; auto. inversion S; subst. rewrite IH by auto.
  replace e1 with (fst (run o c e)) by (rewrite E; reflexivity). apply shape_arity. eapply shape_run; eauto.
Qed.

(** Once a request of an enforcer made from a model file alone was answered before any link was built, no grouping rule
    added later and no rebuilding of the links has an effect on a decision, as long as the evaluator is the same:
    every role function goes on saying that a name has only itself as a role. *)
Theorem C114_late_roles_ignored : forall o odd f mp m hashed n rf pf pe mat d cs e0 e first b e1 ls e2 req,
  oracle_ext o -> reads o n mat d -> mat <> "" -> HasEval mat = false ->
  (forall x, In x (rd_vars d) -> In x (r_names rf ++ p_names pf)) ->
  NewModelFromFile odd f mp = Ok m -> suits hashed n rf pf (effect_text pe) mat m ->
  (forall g, In g (rd_funs d) -> exists a, get_ast m "g" g = Ok a) ->
  NewEnforcerModelOnly odd f mp = Ok e0 ->
  Forall linkless_call cs -> Forall (shaped_call (List.length pf)) cs -> reaches o e0 cs e ->
  List.length first = List.length rf -> Enforce o (map DStr first) e = (e1, Ok b) ->
  Forall (safe_call (fun _ => True)) ls -> Forall (shaped_call (List.length pf)) ls -> Forall evaluator_stays ls -> reaches o e1 ls e2 ->
  List.length req = List.length rf ->
  (forall r, In r (blank pf :: candidates (e_model e2) req) -> calls_ok (fun _ => True) d (value_of rf req pf r)) ->
  (candidates (e_model e2) req <> [] \/ ~ rd_sem d (value_of rf req pf (blank pf)) itself) ->
  exists b', snd (Enforce o (map DStr req) e2) = Ok b' /\
    (b' = true <-> granted pe (fun r => rd_sem d (value_of rf req pf r) itself) (effect_of pf) (candidates (e_model e2) req)).
Proof.
  intros o odd f mp m hashed n rf pf pe mat d cs e0 e first b e1 ls e2 req X RD NM NE VARS LM [SD SS ST SP] G MK L C R LF F1 LS LC LE R2 LEN OK NEM.
  assert (E0 : e_model e0 = m /\ e_ev e0 = None /\ e_enabled e0 = true).
  { unfold NewEnforcerModelOnly, NewEnforcer, NewEnforcerWithAdapter in MK. rewrite LM in MK. inversion MK. auto. }
  destruct E0 as [E0 [E1 E2]]. pose proof (loaded_bare odd f mp m LM) as B.
  assert (S0 : standard o hashed rf pf (effect_text pe) mat e0).
  { constructor; auto.
    - split; [rewrite E0; auto|rewrite E1; auto].
    - rewrite E0. auto.
    - unfold stored, rules_in. rewrite E0. destruct (get_ast m "p" "p") eqn:A; try (intros r []). rewrite (proj2 (B _ _ _ A)). intros r []. }
  destruct (linkless_reaches o hashed rf pf (effect_text pe) mat cs e0 e X NM NE L C R S0) as [S A].
  assert (K : fst (run o (KEnforce "" (map DStr first)) e) = e1) by (simpl; unfold drop_value, mbind; unfold Enforce in F1; rewrite F1; reflexivity).
  assert (PR : shaped_call (List.length pf) (KEnforce "" (map DStr first))) by (split; [reflexivity|exists first; reflexivity]).
  pose proof (linkless_standard o hashed rf pf (effect_text pe) mat (KEnforce "" (map DStr first)) e X NM NE I PR S) as S1. rewrite K in S1.
  assert (A1 : asts e1 = asts e0). { rewrite <- A, <- K. apply (fr_asts _ _ (linkless_frame o (KEnforce "" (map DStr first)) I e)). }
  unfold asts in A1. rewrite E0 in A1.
  assert (BO : bound e1).
  { replace e1 with (fst (EnforceWithMatcher o "" (map DStr first) e)) by (unfold Enforce in F1; rewrite F1; reflexivity).
    apply Enforce_bound with (v := b); [apply (st_on _ _ _ _ _ _ _ S)| |unfold Enforce in F1; rewrite F1; reflexivity].
    intros a Ra. destruct (d_r _ _ _ _ _ (proj1 (st_ready _ _ _ _ _ _ _ S))) as [a' [Ra' T]]. rewrite Ra in Ra'. inversion Ra'; subst a'. rewrite T, !map_length. auto. }
  assert (UN : sec_of (drop_rm (e_model e1)) "g" = sec_of (e_model e1) "g").
  { rewrite sec_drop_g, A1. rewrite <- (map_id (sec_of m "g")) at 2. apply map_ext_in. intros [k a] I. simpl. f_equal.
    assert (Q : get_ast m "g" k = Ok a) by (unfold get_ast; rewrite (In_aget k a); auto).
    destruct a. destruct (B _ _ _ Q) as [N _]. simpl in N. unfold no_rm. simpl. subst. reflexivity. }
  assert (SU : standard o hashed rf pf (effect_text pe) mat (unlink e1)).
  { destruct S1 as [[D F] SV SF SO]. constructor.
    - split; [eapply shape_declares; [|exact D]; intros sec pt; apply outline_drop|].
      change (e_ev (unlink e1)) with (e_ev e1). destruct (e_ev e1); auto. apply (fits_same o (e_model e1)); auto.
    - unfold p_indexed, unlink in *. cbn [set_model e_model]. rewrite get_drop by discriminate. auto.
    - rewrite stored_drop. auto.
    - exact SO. }
  destruct (held_reaches o hashed rf pf (effect_text pe) mat X NM NE ls e1 e2 LS LC LE R2 (conj SU BO)) as [S2 B2].
  destruct (Enforce_drop o "" (map DStr req) e2 B2) as [v [out [D1 [D2 _]]]].
  assert (SN : snd (Enforce o (map DStr req) e2) = snd (Enforce o (map DStr req) (unlink e2))) by (unfold Enforce; rewrite D1, D2; reflexivity).
  rewrite SN. rewrite <- (candidates_drop (e_model e2) req) in *. change (drop_rm (e_model e2)) with (e_model (unlink e2)) in *.
  assert (GA : forall g, In g (rd_funs d) -> exists a, aget g (sec_of (e_model e2) "g") = Some a /\ scount "_" (a_value a) = n).
  { intros g I. pose proof (arity_reaches o _ ls e1 e2 g LS R2) as AR. unfold role_arity in AR. rewrite A1 in AR.
    destruct (G g I) as [a Q]. assert (Q1 : aget g (sec_of m "g") = Some a) by (unfold get_ast in Q; destruct (aget g (sec_of m "g")); congruence).
    rewrite Q1 in AR. destruct (aget g (sec_of (e_model e2) "g")) as [a2|]; [|discriminate]. exists a2. split; auto. inversion AR. rewrite <- (SP _ _ Q1). auto. }
  apply (any_decision o (fun _ => True) n hashed rf pf pe mat d X RD NM NE VARS (unlink e2) itself); auto.
  - intros g I. destruct (GA g I) as [a [Q N]]. unfold unlink. cbn [set_model e_model]. rewrite arity_drop. unfold role_arity. rewrite Q, N. reflexivity.
  - intros g args I U. destruct (GA g I) as [a [Q N]]. unfold role_fun, unlink. cbn [set_model e_model e_heap]. rewrite aget_drop, Q. cbn [option_map no_rm a_rm].
    destruct args as [|x [|y [|z [|? ?]]]]; try destruct U; simpl; eexists; (split; [reflexivity|]); apply String.eqb_eq.
  - intros r I. apply OK. right. auto.
  - destruct NEM as [?|?]; auto. right. split; auto. apply OK. left. reflexivity.
Qed.
Print Assumptions C114_late_roles_ignored.

(** A concrete case: the late history gives the role and rebuilds the links. *)
Definition late_history : list call :=
  [KAddGrouping "g" ["alice"; "admin"]; KBuildRoleLinks; KEnforce "" (reqs ["alice"; "data1"; "read"]); KAddPolicy "p" ["bob"; "data2"; "write"];
   KBatchEnforce "" [reqs ["bob"; "data2"; "write"]]; KGetImplicitUsers ["data1"; "read"]].
Example C114_late_case : exists m e0 e e1 e2,
  let odd := fun _ _ : string => Ok "" in let f := mkFs [("model.conf", rbac_conf)] (fun _ => true) in
  oracle_ext mini /\ reads mini 2 rbac_matcher rbac_reading /\ NewModelFromFile odd f "model.conf" = Ok m /\
  suits false 2 f3 f3 (effect_text AllowOverride) rbac_matcher m /\ (forall g, In g (rd_funs rbac_reading) -> exists a, get_ast m "g" g = Ok a) /\
  NewEnforcerModelOnly odd f "model.conf" = Ok e0 /\ reaches mini e0 [KAddPolicy "p" ["admin"; "data1"; "read"]] e /\
  Enforce mini (map DStr ["alice"; "data1"; "read"]) e = (e1, Ok false) /\
  Forall (safe_call (fun _ => True)) late_history /\ Forall (shaped_call 3) late_history /\ Forall evaluator_stays late_history /\
  reaches mini e1 late_history e2 /\ stored e2 "g" "g" = [["alice"; "admin"]] /\
  snd (Enforce mini (map DStr ["alice"; "data1"; "read"]) e2) = Ok false /\ snd (Enforce mini (map DStr ["bob"; "data2"; "write"]) e2) = Ok true.
Proof.
  do 5 eexists. cbv zeta. split; [apply mini_ext|]. split; [apply mini_rbac|]. split; [unfold NewModelFromFile; apply rbac_loads|]. split; [apply rbac_suits|].
  split. { intros g [<-|[]]. eexists. reflexivity. }
  split; [vm_compute; reflexivity|].
  split. { eapply reach_step; [vm_compute; reflexivity|discriminate|]. apply reach_nil. }
  split; [vm_compute; reflexivity|].
  split. { unfold late_history. repeat (apply Forall_cons; [simpl; auto|]). apply Forall_nil. }
  split. { unfold late_history. repeat (apply Forall_cons; [simpl; auto|]); try apply Forall_nil.
    - split; [reflexivity|]. exists ["alice"; "data1"; "read"]. reflexivity.
    - split; [reflexivity|]. exists ["bob"; "data2"; "write"]. reflexivity. }
  split. { unfold late_history. repeat (apply Forall_cons; [simpl; auto|]). apply Forall_nil. }
  split. { unfold late_history. repeat (eapply reach_step; [vm_compute; reflexivity|discriminate|]). apply reach_nil. }
  repeat split; vm_compute; reflexivity.
Qed.

(** The same with a policy file loaded after the first request: the policy rules of the file are in force, its roles are
    not; an enforcer made from both files grants the request. *)
Definition both_files : fs :=
  mkFs [("model.conf", rbac_conf); ("policy.csv", ("p, admin, data1, read" ++ String nl "g, alice, admin")%string)] (fun _ => true).
Definition or_empty (x : res enforcer) : enforcer := match x with Ok e => e | _ => boot [] end.
Definition from_model : enforcer := or_empty (NewEnforcerModelOnly (fun _ _ => Ok "") both_files "model.conf").
Definition from_both : enforcer := or_empty (NewEnforcer (fun _ _ => Ok "") both_files "model.conf" "policy.csv").
Definition asked_first : enforcer := fst (SetAdapter (Some (AFile true "policy.csv")) (fst (Enforce mini (reqs ["alice"; "data1"; "read"]) from_model))).
Definition loaded_late : enforcer := fst (LoadPolicy asked_first).
Definition may (s : string) (e : enforcer) : res bool := snd (Enforce mini (reqs [s; "data1"; "read"]) e).
Theorem C114_load_after_request_refuted :
  snd (LoadPolicy asked_first) = Ok tt /\ stored loaded_late "g" "g" = [["alice"; "admin"]] /\
  stored from_both "g" "g" = stored loaded_late "g" "g" /\ stored from_both "p" "p" = stored loaded_late "p" "p" /\
  may "admin" loaded_late = Ok true /\ may "alice" loaded_late = Ok false /\ may "alice" from_both = Ok true.
Proof. split; [vm_compute; reflexivity|]. split; [vm_compute; reflexivity|]. split; [vm_compute; reflexivity|]. split; [vm_compute; reflexivity|].
  split; [vm_compute; reflexivity|]. split; vm_compute; reflexivity. Qed.
Print Assumptions C114_load_after_request_refuted.
