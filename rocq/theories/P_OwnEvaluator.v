(** Proofs about enforcement with an evaluator of the caller. *)
From Verif Require Import Base P_Base M_Util M_RoleManager M_Effector M_Model M_Persist M_Eval M_Evaluator M_Enforcer M_OwnEvaluator
  S_Effect S_Enforce S_OwnEvaluator P_Effect P_Enforce.

Lemma vbind_ok : forall St A B (x : V St A) (f : A -> V St B) st st' a, x st = (st', Ok a) -> vbind x f st = f a st'.
Proof. intros. unfold vbind. rewrite H. reflexivity. Qed.
Lemma vbind_throw : forall St A B (x : V St A) (f : A -> V St B) st st' t, x st = (st', Throw t) -> vbind x f st = (st', Throw t).
Proof. intros. unfold vbind. rewrite H. reflexivity. Qed.
Lemma vbind_ext : forall St A B (x y : V St A) (f g : A -> V St B) st, x st = y st -> (forall a st', f a st' = g a st') ->
  vbind x f st = vbind y g st.
Proof. intros. unfold vbind. rewrite H. destruct (y st) as [st' [a|t|u]]; auto. Qed.
Lemma vbind_assoc : forall St A B C (x : V St A) (f : A -> V St B) (g : B -> V St C) st,
  vbind (vbind x f) g st = vbind x (fun a => vbind (f a) g) st.
Proof. intros. unfold vbind. destruct (x st) as [st' [a|t|u]]; auto. Qed.

(** ** The default evaluator *)
Section Exprtk.
  Variables (o : oracle) (fl : evaluator -> bool) (h : heap).
  Notation iv := (exprtk o fl).

  Lemma exprtk_g : forall g ev, load_g_ev iv h g ev =
    (fold_left (fun ev kv => LoadGFunction ev (a_rm (snd kv)) (fst kv) (scount "_" (a_value (snd kv)))) g ev, Ok tt).
  Proof. induction g as [|[n a] g IH]; intros ev; cbn [load_g_ev fold_left]; auto. apply IH. Qed.
  Lemma exprtk_push_p : forall toks vals ev, push_p_ev iv h toks vals ev = push_p ev toks vals.
  Proof.
    induction toks as [|t toks IH]; intros [|v vals] ev; cbn [push_p_ev push_p]; auto. unfold vbind. cbn [exprtk].
    destruct (PushObjectString ev "p" (p_token_name t) v); auto.
  Qed.
  Lemma exprtk_push_r : forall toks ps ev, push_r_ev iv h toks ps ev = push_r ev toks (map plain ps).
  Proof.
    induction toks as [|t toks IH]; intros [|[v|v] vals] ev; cbn [push_r_ev push_r plain map]; auto; unfold vbind; cbn [exprtk]; auto.
    destruct (PushObjectString ev "r" (sdrop 2 t) v); auto.
  Qed.
  Lemma exprtk_push_map : forall ps ev, push_map_ev iv h ps ev = push_map ev (map (fun kv => (fst kv, plain (snd kv))) ps).
  Proof.
    induction ps as [|[n [v|v]] ps IH]; intros ev; cbn [push_map_ev push_map plain map fst snd]; auto; unfold vbind; cbn [exprtk]; auto.
    destruct (PushObjectString ev "r" n v); auto.
  Qed.
  Lemma exprtk_rule : forall he expr toks vals ev, eval_rule_ev iv h he expr toks vals ev = eval_rule o h he expr toks ev vals.
  Proof.
    intros he expr toks vals ev. unfold eval_rule_ev, eval_rule. destruct (negb _); auto. unfold vbind at 1 2 3. cbn [exprtk].
    rewrite exprtk_push_p. destruct (push_p ev toks vals) as [ev1 [x|t|u]]; auto. unfold vbind at 1, vlift at 1.
    destruct (rule_expression he expr toks vals) as [ex|t|u]; auto. unfold vbind at 1. cbn [exprtk].
    destruct (Eval o ev1 ex) as [ev2 ok]. cbn [fst snd]. unfold vbind at 1. cbn [exprtk]. unfold checked_value.
    destruct (ev_bad ev2) eqn:B; [reflexivity|]. destruct (value o h ev2) as [b|t|u] eqn:E; cbn [bind]; auto.
    destruct (fl ev2) eqn:F; cbn [exprtk].
    - unfold vbind at 1 2. cbn [exprtk]. unfold checked_value. rewrite B, E. cbn [bind]. rewrite F, E. unfold vbind, vlift.
      destruct (rule_effect toks vals); auto.
    - unfold vbind at 1. cbn [exprtk]. rewrite E. unfold vbind, vlift. destruct (rule_effect toks vals); auto.
  Qed.
  Lemma exprtk_loop : forall he expr eft toks len todo idx effs ms last ev,
    rule_loop_ev iv h he expr eft toks len todo idx effs ms last ev = rule_loop o h he expr eft toks len todo idx effs ms last ev.
  Proof.
    induction todo as [|v todo IH]; intros; cbn [rule_loop_ev rule_loop]; auto. unfold vbind at 1. rewrite exprtk_rule.
    destruct (eval_rule o h he expr toks ev v) as [ev' [[b e]|t|u]]; auto. cbn [fst snd]. unfold vbind at 1, vlift.
    destruct (MergeEffects eft (upd idx e effs) (upd idx b ms) idx len) as [[[] x]|t|u]; cbn [fst]; auto.
  Qed.
End Exprtk.

Lemma exprtk_m_enforce : forall o fl e ev matcher, m_enforce_ev (exprtk o fl) e matcher ev = m_enforce o e ev matcher.
Proof.
  intros o fl e ev matcher. unfold m_enforce_ev, m_enforce. destruct (negb (e_enabled e)); auto. cbv zeta.
  unfold vbind at 1 2 3. cbn [exprtk]. rewrite exprtk_g. fold (load_g_functions (e_model e) (LoadFunctions ev)).
  set (ev1 := load_g_functions (e_model e) (LoadFunctions ev)). unfold vbind at 1, vlift at 1.
  destruct (if String.eqb matcher "" then _ else _) as [expr|t|u]; cbn [bind]; auto. unfold vbind at 1, vlift at 1.
  destruct (get_ast (e_model e) "r" "r") as [r|t|u] eqn:GR; cbn [bind]; auto. unfold vbind at 1, vlift at 1.
  destruct (get_ast (e_model e) "p" "p") as [p|t|u] eqn:GP; cbn [bind]; auto. unfold vbind at 1.
  replace (selected_policies_ev (exprtk o fl) (e_heap e) (e_model e) ev1) with (ev1, selected_policies (e_model e) ev1).
  2:{ unfold selected_policies_ev, selected_policies. rewrite GP. unfold vbind, vlift. cbn [bind]. destruct (a_policy p) as [l|l]; auto.
      rewrite GR. cbn [bind exprtk]. destruct (requested_policy (requestValues ev1) (a_tokens r)); auto. }
  destruct (selected_policies (e_model e) ev1) as [[|r0 rules]|t|u]; cbn [bind]; auto.
  - destruct (HasEval expr); auto. unfold vbind at 1 2 3. cbn [exprtk]. rewrite exprtk_push_p.
    destruct (push_p ev1 (a_tokens p) _) as [ev2 [x|t|u]]; auto. unfold vbind at 1. cbn [exprtk].
    destruct (Eval o ev2 expr) as [ev3 valid]. cbn [fst snd]. destruct (negb valid); auto. unfold vbind at 1. cbn [exprtk].
    destruct (value o (e_heap e) ev3) as [b|t|u]; auto. unfold vbind, vlift.
    destruct (get_ast (e_model e) "e" "e") as [ea|t|u]; cbn [bind]; auto.
    destruct (MergeEffects (a_value ea) _ _ 0 1) as [d|t|u]; cbn [bind]; auto.
  - unfold vbind at 1, vlift at 1. destruct (get_ast (e_model e) "e" "e") as [ea|t|u]; auto. unfold vbind. rewrite exprtk_loop.
    destruct (rule_loop o _ _ _ _ _ _ _ _ _ _ _ _) as [ev2 [d|t|u]]; auto.
Qed.
Lemma exprtk_enforce : forall o fl e matcher params,
  EnforceExWithMatcher o matcher (map plain params) e =
  match get_ast (e_model e) "r" "r" with
  | Ok r => if negb (Nat.eqb (List.length params) (List.length (a_tokens r))) then (e, Ok (false, []))
            else let (ev, out) := EnforceExWithMatcher_ev (exprtk o fl) e matcher params (own_evaluator e) in (set_ev (Some ev) e, out)
  | Throw t => (e, Throw t)
  | UB u => (e, UB u)
  end.
Proof.
  intros o fl e matcher params. unfold EnforceExWithMatcher, EnforceExWithMatcher_ev.
  destruct (get_ast (e_model e) "r" "r") as [r|t|u]; auto. rewrite map_length. unfold vbind at 1, vlift.
  destruct (negb _) eqn:L; auto. unfold vbind at 1 2. cbn [exprtk]. rewrite exprtk_push_r.
  destruct (push_r (own_evaluator e) (a_tokens r) (map plain params)) as [ev1 [x|t|u]]; auto. rewrite exprtk_m_enforce. reflexivity.
Qed.
Lemma exprtk_enforce_map : forall o fl e matcher params,
  EnforceExWithMatcherMap o matcher (map (fun kv => (fst kv, plain (snd kv))) params) e =
  let (ev, out) := EnforceExWithMatcherMap_ev (exprtk o fl) e matcher params (own_evaluator e) in (set_ev (Some ev) e, out).
Proof.
  intros o fl e matcher params. unfold EnforceExWithMatcherMap, EnforceExWithMatcherMap_ev. unfold vbind at 1 2. cbn [exprtk].
  rewrite exprtk_push_map. destruct (push_map (own_evaluator e) _) as [ev1 [x|t|u]]; auto. rewrite exprtk_m_enforce. reflexivity.
Qed.

(** ** Any evaluator *)
Section Own.
  Context {St : Type}.
  Variables (iv : ievaluator St) (h : heap).

  Lemma load_g_spec : forall g st, load_g_ev iv h g st = role_functions iv h g st.
  Proof. reflexivity. Qed.
  Lemma push_p_spec : forall pf vals st, push_p_ev iv h (map (fun f => ("p_" ++ f)%string) pf) vals st = hand_over iv h "p" (combine pf vals) st.
  Proof.
    induction pf as [|f pf IH]; intros [|v vals] st; cbn [map push_p_ev combine hand_over]; auto. rewrite p_token_name_p. apply vbind_ext; auto.
  Qed.
  Lemma push_r_spec : forall rf ps st, push_r_ev iv h (map (fun f => ("r_" ++ f)%string) rf) ps st = hand_over_request iv h (combine rf ps) st.
  Proof.
    induction rf as [|f rf IH]; intros [|[v|v] ps] st; cbn [map push_r_ev combine hand_over_request]; auto;
      change (sdrop 2 ("r_" ++ f)%string) with (sdrop 2 (String "r" (String "_" f))); rewrite sdrop2; apply vbind_ext; auto.
  Qed.

  (** The question about a rule, with the rule's effect. *)
  Lemma rule_question : forall pf vals expr text st, NoDup pf -> List.length vals = List.length pf -> matcher_text expr pf vals = Ok text ->
    eval_rule_ev iv h (HasEval expr) expr (map (fun f => ("p_" ++ f)%string) pf) vals st =
    (fst (question iv h text pf vals st), let! b := snd (question iv h text pf vals st) in Ok (b, effect_of pf vals)).
  Proof.
    intros pf vals expr text st N L T. unfold eval_rule_ev, question. rewrite map_length, L, Nat.eqb_refl. cbn [negb].
    unfold matcher_text in T. rewrite T. pose proof (rule_effect_spec pf vals N L) as RE. rewrite RE.
    unfold vbind, vlift, vret.
    destruct (iv h unit (CClean false) st) as [s1 [x1|t|u]]; auto. destruct (iv h unit (CInitialObject "p") s1) as [s2 [x2|t|u]]; auto.
    rewrite push_p_spec. destruct (hand_over iv h "p" (combine pf vals) s2) as [s3 [x3|t|u]]; auto.
    destruct (iv h bool (CEval text) s3) as [s4 [x4|t|u]]; auto. destruct (iv h etype CCheckType s4) as [s5 [[]|t|u]]; auto.
    - destruct (iv h bool CGetBoolean s5) as [s6 [b|t|u]]; auto.
    - destruct (iv h etype CCheckType s5) as [s6 [[]|t|u]]; auto. destruct (iv h bool CGetFloat s6) as [s7 [b|t|u]]; auto.
    - destruct (iv h etype CCheckType s5) as [s6 [[]|t|u]]; auto. destruct (iv h bool CGetFloat s6) as [s7 [b|t|u]]; auto.
  Qed.

  Lemma consulted_length : forall expr pf rules st st' os, consulted iv h expr pf rules st st' os -> List.length os = List.length rules.
  Proof. induction 1; simpl; auto. Qed.

  (** The loop stops in the state after the rules consulted. *)
  Lemma loop_good : forall pe expr pf rules st st' os, NoDup pf -> consulted iv h expr pf rules st st' os ->
    forall done last len, len = List.length done + List.length os -> P_Effect.open pe done -> os <> [] ->
    exists r k st2,
      rule_loop_ev iv h (HasEval expr) expr (effect_text pe) (map (fun f => ("p_" ++ f)%string) pf) len rules (List.length done)
        (fill_e done (List.length os)) (fill_m done (List.length os)) last st = (st2, Ok r) /\
      good pe (done ++ os) r /\ consulted iv h expr pf (firstn (S k) rules) st st2 (firstn (S k) os) /\ k < List.length os /\
      P_Effect.open pe (done ++ firstn k os) /\ (S k = List.length os \/ ~ P_Effect.open pe (done ++ firstn (S k) os)).
  Proof.
    intros pe expr pf rules st st' os N C. induction C as [st|vals rest text st st1 st2 b os L T Q C IH]; intros done last len LE OP NE; [congruence|].
    cbn [rule_loop_ev]. unfold vbind at 1. rewrite (rule_question pf vals expr text st N L T), Q. cbn [fst snd bind].
    cbv zeta. cbn [fst snd List.length].
    pose proof (upd_fill_e done (b, effect_of pf vals) (List.length os)) as U1. pose proof (upd_fill_m done (b, effect_of pf vals) (List.length os)) as U2.
    cbn [fst snd] in U1, U2. rewrite U1, U2. set (oc := (b, effect_of pf vals)) in *.
    cbn [List.length] in LE. rewrite LE. unfold vbind at 1, vlift at 1. rewrite (merge_step pe done oc (List.length os) OP).
    destruct (settles_dec pe oc) as [ST|ST].
    - pose proof (settled_not_ind pe oc ST) as NI. cbn [fst].
      exists (settled_effect pe oc, Some (List.length done)), 0, st1. split; [destruct (settled_effect pe oc); try reflexivity; congruence|].
      split; [apply settled_good; auto|]. split; [simpl; econstructor; eauto; constructor|]. split; [simpl; lia|]. simpl firstn. rewrite app_nil_r. split; auto.
      right. intro O. destruct pe; simpl in O, ST.
      + apply O. rewrite ST. apply in_app_iff. simpl. auto.
      + apply O. rewrite ST. apply in_app_iff. simpl. auto.
      + apply O. rewrite ST. apply in_app_iff. simpl. auto.
      + rewrite Forall_forall in O. apply (O oc); auto. apply in_app_iff. simpl. auto.
    - pose proof (open_snoc pe done oc OP ST) as OP'.
      assert (D : forall l : list outcome, done ++ oc :: l = (done ++ [oc]) ++ l) by (intros; rewrite <- app_assoc; reflexivity).
      destruct os as [|oc' os'] eqn:EO.
      + inversion C; subst. destruct (last_good pe done oc OP') as [r [E G]].
        change (@List.length outcome []) with 0. cbv iota beta. rewrite E. cbn [rule_loop_ev].
        exists r, 0, st2. split; [destruct r as [[] x]; reflexivity|]. split; auto. split; [simpl; econstructor; eauto; constructor|].
        split; [simpl; lia|]. simpl firstn. rewrite app_nil_r. auto.
      + cbn [List.length]. cbv iota beta. cbn [fst].
        replace (S (List.length done)) with (List.length (done ++ [oc])) by (rewrite app_length; simpl; lia).
        destruct (IH (done ++ [oc]) (Ok (Indeterminate, None)) (List.length done + S (S (List.length os')))) as [r [k [st3 [E [G [C' [K [O1 O2]]]]]]]];
          [rewrite app_length; simpl; lia|auto|discriminate|].
        exists r, (S k), st3. split; [exact E|]. split; [rewrite D; auto|]. split; [|split; [simpl in *; lia|]].
        * rewrite !(firstn_cons (S k)). econstructor; eauto.
        * rewrite (firstn_cons (S k)), (D (firstn (S k) (oc' :: os'))), (firstn_cons k oc (oc' :: os')), (D (firstn k (oc' :: os'))). split; auto. destruct O2 as [O2|O2]; auto.
  Qed.

  Lemma loop_throws : forall pe expr pf pre st st1 os, NoDup pf -> consulted iv h expr pf pre st st1 os ->
    forall vals text post st2 t done last len, List.length vals = List.length pf -> matcher_text expr pf vals = Ok text ->
    question iv h text pf vals st1 = (st2, Throw t) -> P_Effect.open pe (done ++ os) -> P_Effect.open pe done ->
    len = List.length done + (List.length os + S (List.length post)) ->
    rule_loop_ev iv h (HasEval expr) expr (effect_text pe) (map (fun f => ("p_" ++ f)%string) pf) len (pre ++ vals :: post) (List.length done)
        (fill_e done (List.length os + S (List.length post))) (fill_m done (List.length os + S (List.length post))) last st = (st2, Throw t).
  Proof.
    intros pe expr pf pre st st1 os N C. induction C as [st|v rest tx st st1 st2 b os L T Q C IH]; intros vals text post st3 t done last len LV TV QV OP OD LE.
    - cbn [app rule_loop_ev]. apply vbind_throw. rewrite (rule_question pf vals expr text st N LV TV), QV. reflexivity.
    - cbn [app rule_loop_ev]. unfold vbind at 1. rewrite (rule_question pf v expr tx st N L T), Q. cbn [fst snd bind].
      cbv zeta. cbn [fst snd List.length Nat.add].
      set (n := List.length os + S (List.length post)) in *.
      pose proof (upd_fill_e done (b, effect_of pf v) n) as U1. pose proof (upd_fill_m done (b, effect_of pf v) n) as U2.
      cbn [fst snd] in U1, U2. rewrite U1, U2. set (oc := (b, effect_of pf v)) in *.
      cbn [List.length Nat.add] in LE. fold n in LE. rewrite LE. unfold vbind at 1, vlift at 1. rewrite (merge_step pe done oc n OD).
      assert (D : done ++ oc :: os = (done ++ [oc]) ++ os) by (rewrite <- app_assoc; reflexivity). rewrite D in OP.
      destruct (settles_dec pe oc) as [ST|ST].
      + exfalso. destruct pe; simpl in OP, ST.
        * apply OP. rewrite ST. rewrite !in_app_iff. simpl. auto.
        * apply OP. rewrite ST. rewrite !in_app_iff. simpl. auto.
        * apply OP. rewrite ST. rewrite !in_app_iff. simpl. auto.
        * rewrite Forall_forall in OP. apply (OP oc); auto. rewrite !in_app_iff. simpl. auto.
      + destruct n as [|n'] eqn:EN; [unfold n in EN; lia|]. cbv iota beta. cbn [fst]. rewrite <- EN.
        replace (S (List.length done)) with (List.length (done ++ [oc])) by (rewrite app_length; simpl; lia).
        unfold n. eapply IH; eauto. apply open_snoc; auto. rewrite app_length. simpl. unfold n in EN. lia.
  Qed.
End Own.

(** ** A whole enforcement *)
Section Whole.
  Context {St : Type}.
  Variables (iv : ievaluator St) (e : enforcer) (rf pf : list string) (eft mat : string).
  Let m := e_model e.
  Let h := e_heap e.
  Hypothesis OL : outline m rf pf eft mat.

  Lemma requested_spec : forall vals rf0 req, Forall2 (fun f v => aget f vals = Some v) rf0 req ->
    requested_policy vals (map (fun f => ("r_" ++ f)%string) rf0) = Ok req.
  Proof.
    intros vals rf0 req F. induction F as [|f v l l' A F IH]; auto. cbn [map requested_policy].
    change (sdrop 2 ("r_" ++ f)%string) with (sdrop 2 (String "r" (String "_" f))). rewrite sdrop2, A, IH. reflexivity.
  Qed.
  Lemma requested_missing : forall vals rf0 f, In f rf0 -> aget f vals = None ->
    requested_policy vals (map (fun f => ("r_" ++ f)%string) rf0) = Throw StdLogicError.
  Proof.
    induction rf0 as [|f0 rf0 IH]; intros f I A; [destruct I|]. cbn [map requested_policy].
    change (sdrop 2 ("r_" ++ f0)%string) with (sdrop 2 (String "r" (String "_" f0))). rewrite sdrop2.
    destruct I as [<-|I]; [rewrite A; auto|]. destruct (aget f0 vals); auto. rewrite (IH f I A). reflexivity.
  Qed.

  Lemma selected_ev : forall st st' rules, consults iv h m rf st st' rules -> selected_policies_ev iv h m st = (st', Ok rules).
  Proof.
    intros st st' rules C. destruct OL as [[ar [GR TR]] [ap [GP TP]] _ _ _]. unfold consults, p_indexed, p_rules in C.
    unfold selected_policies_ev, vbind, vlift. rewrite GP, GR in *. destruct (a_policy ap) as [l|l]; cbn [is_hash rules_of] in C.
    - destruct C as [-> ->]. reflexivity.
    - destruct C as [vals [req [E [F ->]]]]. rewrite E, TR, (requested_spec _ _ _ F). unfold store_find. cbn [rules_of].
      rewrite find_rule. destruct (existsb (rule_eqb req) l); reflexivity.
  Qed.
  Lemma selected_missing : forall st st' vals f, p_indexed m = true -> iv h _ CRequestValues st = (st', Ok vals) -> In f rf -> aget f vals = None ->
    selected_policies_ev iv h m st = (st', Throw StdLogicError).
  Proof.
    intros st st' vals f P E I A. destruct OL as [[ar [GR TR]] [ap [GP TP]] _ _ _]. unfold p_indexed in P.
    unfold selected_policies_ev, vbind, vlift. rewrite GP, GR in *. destruct (a_policy ap) as [l|l]; cbn [is_hash] in P; [discriminate|].
    rewrite E, TR, (requested_missing _ _ _ I A). reflexivity.
  Qed.

  (** What follows the introduction and the choice of rules. *)
  Definition rest_of (matcher : string) (rules : list rule) : V St (bool * list string) :=
    let toks := map (fun f => ("p_" ++ f)%string) pf in
    let expr := chosen matcher mat in
    match rules with
    | _ :: _ =>
        d <~ rule_loop_ev iv h (HasEval expr) expr eft toks (List.length rules) rules 0
               (repeat Indeterminate (List.length rules)) (repeat false (List.length rules)) (UB Uninitialised) ;;
        vret (decide rules d)
    | [] =>
        if HasEval expr then vlift (Throw CasbinEnforcer)
        else
          iv h _ (CClean false) ;~ iv h _ (CInitialObject "p") ;~
          push_p_ev iv h toks (map (fun _ => "") toks) ;~
          valid <~ iv h _ (CEval expr) ;;
          if negb valid then vret (false, [])
          else
            b <~ iv h _ CGetBoolean ;;
            d <~ vlift (MergeEffects eft [if b then Allow else Indeterminate] [true] 0 1) ;;
            vret (decide rules d)
    end.

  Lemma rest_of_rules : forall matcher rules st, rules <> [] ->
    rest_of matcher rules st =
    (d <~ rule_loop_ev iv h (HasEval (chosen matcher mat)) (chosen matcher mat) eft (map (fun f => ("p_" ++ f)%string) pf) (List.length rules) rules 0
            (repeat Indeterminate (List.length rules)) (repeat false (List.length rules)) (UB Uninitialised) ;;
     vret (decide rules d)) st.
  Proof. intros matcher [|r0 rules] st NE; [congruence|reflexivity]. Qed.

  Lemma introduced_step : forall matcher st st1, e_enabled e = true -> introduced iv h m st = (st1, Ok tt) ->
    m_enforce_ev iv e matcher st =
    (rules <~ selected_policies_ev iv h m ;; rest_of matcher rules) st1.
  Proof.
    intros matcher st st1 EN I. destruct OL as [[ar [GR TR]] [ap [GP TP]] [ae [GE TE]] [am [GM TM]] _].
    unfold m_enforce_ev. rewrite EN. cbn [negb]. cbv zeta. unfold introduced in I. fold m h.
    unfold vbind at 1. unfold vbind at 1 in I.
    destruct (iv h unit CClearList st) as [s1 [x1|t|u]]; try (inversion I; fail).
    unfold vbind at 1. unfold vbind at 1 in I.
    destruct (iv h unit CLoadFunctions s1) as [s2 [x2|t|u]]; try (inversion I; fail).
    unfold vbind at 1. rewrite load_g_spec, I. unfold vbind at 1, vlift at 1.
    replace (if String.eqb matcher "" then let! a := get_ast m "m" "m" in Ok (a_value a) else Ok matcher) with (Ok (chosen matcher mat))
      by (unfold chosen; rewrite GM; destruct (String.eqb matcher ""); cbn [bind]; congruence).
    unfold vbind at 1, vlift at 1. rewrite GR. unfold vbind at 1, vlift at 1. rewrite GP, TP.
    apply vbind_ext; auto. intros [|r0 rules] s; unfold rest_of; cbv zeta; rewrite GE.
    - destruct (HasEval (chosen matcher mat)); auto. apply vbind_ext; auto. intros _ s8. apply vbind_ext; auto. intros _ s9.
      apply vbind_ext; auto. intros _ s10. apply vbind_ext; auto. intros valid s11. destruct (negb valid); auto. apply vbind_ext; auto.
      intros b s12. unfold vbind at 1, vlift at 1. rewrite TE. reflexivity.
    - unfold vbind at 1, vlift at 1. rewrite TE. reflexivity.
  Qed.

  Lemma not_introduced : forall matcher st st1 t, e_enabled e = true -> introduced iv h m st = (st1, Throw t) ->
    m_enforce_ev iv e matcher st = (st1, Throw t).
  Proof.
    intros matcher st st1 t0 EN I. unfold m_enforce_ev. rewrite EN. cbn [negb]. cbv zeta. unfold introduced in I. fold m h.
    unfold vbind at 1. unfold vbind at 1 in I.
    destruct (iv h unit CClearList st) as [s1 [x1|t|u]]; try (inversion I; subst; reflexivity).
    unfold vbind at 1. unfold vbind at 1 in I.
    destruct (iv h unit CLoadFunctions s1) as [s2 [x2|t|u]]; try (inversion I; subst; reflexivity).
    unfold vbind at 1. rewrite load_g_spec, I. reflexivity.
  Qed.
End Whole.

(** ** The final clean-up is never asked for *)
Section Clean.
  Context {St : Type}.
  Variables iv iv' : ievaluator St.
  Hypothesis S : forall h A (c : ecall A) st, is_final_clean c = false -> iv h A c st = iv' h A c st.

  Lemma same_g : forall h g st, load_g_ev iv h g st = load_g_ev iv' h g st.
  Proof. intros h. induction g as [|[n a] g IH]; intros st; cbn [load_g_ev]; auto. apply vbind_ext; auto. Qed.
  Lemma same_push : forall h toks vals st, push_p_ev iv h toks vals st = push_p_ev iv' h toks vals st.
  Proof. intros h. induction toks as [|t toks IH]; intros [|v vals] st; cbn [push_p_ev]; auto. apply vbind_ext; auto. Qed.
  Lemma same_rule : forall h he expr toks vals st, eval_rule_ev iv h he expr toks vals st = eval_rule_ev iv' h he expr toks vals st.
  Proof.
    intros. unfold eval_rule_ev. destruct (negb _); auto. apply vbind_ext; auto. intros _ s1. apply vbind_ext; auto. intros _ s2.
    apply vbind_ext; [apply same_push|]. intros _ s3. apply vbind_ext; auto. intros ex s4. apply vbind_ext; auto. intros _ s5.
    apply vbind_ext; auto. intros t s6. apply vbind_ext; auto. destruct t; auto; apply vbind_ext; auto; intros [] s7; auto.
  Qed.
  Lemma same_loop : forall h he expr eft toks len todo idx effs ms last st,
    rule_loop_ev iv h he expr eft toks len todo idx effs ms last st = rule_loop_ev iv' h he expr eft toks len todo idx effs ms last st.
  Proof.
    induction todo as [|v todo IH]; intros; cbn [rule_loop_ev]; auto. apply vbind_ext; [apply same_rule|]. intros r s1.
    apply vbind_ext; auto. intros d s2. destruct (fst d); auto.
  Qed.
  Lemma same_selected : forall h m st, selected_policies_ev iv h m st = selected_policies_ev iv' h m st.
  Proof.
    intros. unfold selected_policies_ev. apply vbind_ext; auto. intros p s1. destruct (a_policy p); auto.
    apply vbind_ext; auto. intros r s2. apply vbind_ext; auto.
  Qed.
  Lemma same_enforce : forall e matcher st, m_enforce_ev iv e matcher st = m_enforce_ev iv' e matcher st.
  Proof.
    intros. unfold m_enforce_ev. destruct (negb _); auto. cbv zeta. apply vbind_ext; auto. intros _ s1. apply vbind_ext; auto. intros _ s2.
    apply vbind_ext; [apply same_g|]. intros _ s3. apply vbind_ext; auto. intros ex s4. apply vbind_ext; auto. intros r s5.
    apply vbind_ext; auto. intros p s6. apply vbind_ext; [apply same_selected|]. intros [|r0 rules] s7.
    - destruct (HasEval ex); auto. apply vbind_ext; auto. intros _ s8. apply vbind_ext; auto. intros _ s9.
      apply vbind_ext; [apply same_push|]. intros _ s10. apply vbind_ext; auto. intros valid s11. destruct (negb valid); auto. apply vbind_ext; auto.
    - apply vbind_ext; auto. intros ea s8. apply vbind_ext; auto. apply same_loop.
  Qed.
  Lemma same_push_r : forall h toks ps st, push_r_ev iv h toks ps st = push_r_ev iv' h toks ps st.
  Proof. intros h. induction toks as [|t toks IH]; intros [|[v|v] vals] st; cbn [push_r_ev]; auto; apply vbind_ext; auto. Qed.
  Lemma same_request : forall e matcher ps st, EnforceExWithMatcher_ev iv e matcher ps st = EnforceExWithMatcher_ev iv' e matcher ps st.
  Proof.
    intros. unfold EnforceExWithMatcher_ev. apply vbind_ext; auto. intros r s1. destruct (negb _); auto. apply vbind_ext; auto. intros _ s2.
    apply vbind_ext; [apply same_push_r|]. intros _ s3. apply same_enforce.
  Qed.
End Clean.
