(** Proofs for property C99. *)
From Coq Require Import Lia.
From Verif Require Import Base P_Base M_Memory S_Memory P_Pool S_Cached.

Definition var_names (ev : evaluator) : list string := map fst (ev_vars ev).
Definition fun_names (ev : evaluator) : list string := map fst (ev_funs ev).

(** An evaluator that keeps only what [V] and [F] list, each once. *)
Record tame (V F : list string) (ev : evaluator) : Prop := mkTame {
  t_vars : NoDup (var_names ev) /\ incl (var_names ev) V;
  t_funs : NoDup (fun_names ev) /\ incl (fun_names ev) F }.

Section Tame.
  Variables V F : list string.
  Notation tame := (tame V F).

  Lemma tame_new : tame new_evaluator.
  Proof. split; split; try constructor; intros x []. Qed.

  Lemma tame_push : forall ev tgt prop v ev', tame ev -> In (tgt ++ "." ++ prop)%string V -> PushObjectString ev tgt prop v = Ok ev' -> tame ev'.
  Proof.
    intros ev tgt prop v ev' [[N I] T2] Hin P. unfold PushObjectString in P. destruct (valid_symbol _); [|discriminate]. injection P as <-.
    split; [|exact T2]. unfold var_names. cbn [ev_vars]. split; [apply NoDup_keys_aset; exact N|].
    intros x Hx. apply keys_aset_in in Hx. destruct Hx as [-> |Hx]; auto.
  Qed.
  Lemma tame_push_p : forall toks vals ev ev' out, tame ev -> (forall t, In t toks -> In ("p" ++ "." ++ p_token_name t)%string V) ->
    push_p ev toks vals = (ev', out) -> tame ev'.
  Proof.
    induction toks as [|t toks IH]; intros vals ev ev' out T H P; cbn [push_p] in P; [injection P as <- _; auto|].
    destruct vals as [|v vals]; [injection P as <- _; auto|].
    destruct (PushObjectString ev "p" (p_token_name t) v) as [ev1|x|u] eqn:E.
    - eapply IH; [eapply tame_push; [exact T|apply H; left; reflexivity|exact E]|intros; apply H; right; auto|exact P].
    - injection P as <- _. auto.
    - injection P as <- _. auto.
  Qed.
  Lemma tame_push_r : forall toks params ev ev' out, tame ev -> (forall t, In t toks -> In ("r" ++ "." ++ sdrop 2 t)%string V) ->
    push_r ev toks params = (ev', out) -> tame ev'.
  Proof.
    induction toks as [|t toks IH]; intros vals ev ev' out T H P; cbn [push_r] in P; [injection P as <- _; auto|].
    destruct vals as [|[v|] vals]; [injection P as <- _; auto| |eapply IH; [exact T|intros; apply H; right; auto|exact P]].
    destruct (PushObjectString ev "r" (sdrop 2 t) v) as [ev1|x|u] eqn:E.
    - eapply IH; [eapply tame_push; [exact T|apply H; left; reflexivity|exact E]|intros; apply H; right; auto|exact P].
    - injection P as <- _. auto.
    - injection P as <- _. auto.
  Qed.
  Lemma tame_eval : forall o ev t, tame ev -> tame (fst (Eval o ev t)).
  Proof. intros o ev t [T1 T2]. unfold Eval. destruct (String.eqb _ _); split; auto. Qed.
  Lemma tame_add : forall ev n f, tame ev -> In n F -> tame (AddFunction ev n f).
  Proof.
    intros ev n f [T1 [N I]] Hn. split; [exact T1|]. unfold fun_names, AddFunction. cbn [ev_funs]. split; [apply NoDup_keys_ainsert; exact N|].
    rewrite keys_ainsert. destruct (ahas n (ev_funs ev)); [exact I|]. intros x Hx. apply in_app_or in Hx. destruct Hx as [Hx|[<-|[]]]; auto.
  Qed.
  Lemma tame_adds : forall l ev, tame ev -> incl (map fst l) F ->
    tame (fold_left (fun ev kv => AddFunction ev (fst kv) (efun_of (made (snd kv)))) l ev).
  Proof.
    induction l as [|kv l IH]; intros ev T H; cbn [fold_left]; [exact T|]. apply IH.
    - apply tame_add; auto. apply H. left. reflexivity.
    - intros x Hx. apply H. right. exact Hx.
  Qed.
  Lemma tame_eval_rule : forall o h he expr toks ev vals ev' out, tame ev -> (forall t, In t toks -> In ("p" ++ "." ++ p_token_name t)%string V) ->
    eval_rule o h he expr toks ev vals = (ev', out) -> tame ev'.
  Proof.
    intros o h he expr toks ev vals ev' out T H E. unfold eval_rule in E. destruct (negb _); [injection E as <- _; auto|].
    destruct (push_p ev toks vals) as [ev1 [[]|x|u]] eqn:P; pose proof (tame_push_p _ _ _ _ _ T H P) as T1; try (injection E as <- _; exact T1).
    destruct (rule_expression _ _ _ _) as [t|x|u]; try (injection E as <- _; exact T1).
    pose proof (tame_eval o ev1 t T1) as T2. destruct (Eval o ev1 t) as [ev2 b]. cbn [fst] in T2. destruct (checked_value _ _ _); injection E as <- _; exact T2.
  Qed.
  Lemma tame_rule_loop : forall o h he expr ee toks len todo idx effs mats last ev ev' out,
    tame ev -> (forall t, In t toks -> In ("p" ++ "." ++ p_token_name t)%string V) ->
    rule_loop o h he expr ee toks len todo idx effs mats last ev = (ev', out) -> tame ev'.
  Proof.
    induction todo as [|vals todo IH]; intros idx effs mats last ev ev' out T H E; cbn [rule_loop] in E; [injection E as <- _; auto|].
    destruct (eval_rule o h he expr toks ev vals) as [ev1 [[b eft]|x|u]] eqn:R; pose proof (tame_eval_rule _ _ _ _ _ _ _ _ _ T H R) as T1; try (injection E as <- _; exact T1).
    destruct (MergeEffects _ _ _ _ _) as [[[| |] x]|x|u]; try (injection E as <- _; exact T1). eapply IH; [exact T1|exact H|exact E].
  Qed.
  Lemma tame_m_enforce : forall o e ev matcher ev' out, tame ev ->
    (forall t, In t (tokens_of (e_model e) "p") -> In ("p" ++ "." ++ p_token_name t)%string V) ->
    incl (map fst (loads (e_model e))) F ->
    m_enforce o e ev matcher = (ev', out) -> tame ev'.
  Proof.
    intros o e ev matcher ev' out T H HF E. rewrite m_enforce_loads in E. destruct (e_enabled e); cbn [negb] in E; [|injection E as <- _; auto].
    assert (T1 : tame (load_g_functions (e_model e) (LoadFunctions ev))).
    { rewrite <- loads_registered, registered_own. apply tame_adds; auto. }
    revert E. generalize dependent (load_g_functions (e_model e) (LoadFunctions ev)). intros ev1 T1 E. unfold after_loading in E. cbn zeta in E.
    unfold tokens_of in H.
    destruct (if String.eqb matcher "" then _ else _) as [expr|x|u]; cbn [bind] in E; try (injection E as <- _; exact T1).
    destruct (get_ast (e_model e) "r" "r") as [r|x|u]; cbn [bind] in E; try (injection E as <- _; exact T1).
    destruct (get_ast (e_model e) "p" "p") as [p|x|u]; cbn [bind] in E; try (injection E as <- _; exact T1).
    destruct (selected_policies (e_model e) ev1) as [rules|x|u]; cbn [bind] in E; try (injection E as <- _; exact T1).
    destruct rules as [|ru rules].
    - destruct (HasEval expr); [injection E as <- _; exact T1|].
      destruct (push_p ev1 (a_tokens p) (map (fun _ => "") (a_tokens p))) as [ev2 [[]|x|u]] eqn:P; pose proof (tame_push_p _ _ _ _ _ T1 H P) as T2; try (injection E as <- _; exact T2).
      pose proof (tame_eval o ev2 expr T2) as T3. destruct (Eval o ev2 expr) as [ev3 b]. cbn [fst] in T3. destruct (negb b); [injection E as <- _; exact T3|].
      destruct (M_Evaluator.value _ _ _); injection E as <- _; exact T3.
    - destruct (get_ast (e_model e) "e" "e") as [ea|x|u]; try (injection E as <- _; exact T1).
      destruct (rule_loop _ _ _ _ _ _ _ _ _ _ _ _ _) as [ev2 out2] eqn:R. injection E as <- _. eapply tame_rule_loop; [exact T1|exact H|exact R].
  Qed.
End Tame.

(** Enforcing changes nothing but the evaluator. *)
Lemma positional_only_ev : forall o m ps e, exists v, fst (EnforceExWithMatcher o m ps e) = set_ev v e.
Proof.
  intros o m ps e. assert (Same : exists v, e = set_ev v e). { exists (e_ev e). destruct e. reflexivity. }
  unfold EnforceExWithMatcher. destruct (get_ast _ _ _); auto. destruct (negb _); auto.
  destruct (push_r _ _ _) as [ev1 [[]|x|u]]; cbn [fst]; eauto. destruct (m_enforce _ _ _ _). cbn [fst]. eauto.
Qed.
Lemma map_only_ev : forall o m ps e, exists v, fst (EnforceExWithMatcherMap o m ps e) = set_ev (Some v) e.
Proof.
  intros o m ps e. unfold EnforceExWithMatcherMap. destruct (push_map _ _) as [ev1 [[]|x|u]]; cbn [fst]; eauto. destruct (m_enforce _ _ _ _). cbn [fst]. eauto.
Qed.
Lemma ask1_only_ev : forall o q h, exists v, h_e (fst (ask1 o q h)) = set_ev v (h_e h).
Proof.
  intros o [m ps|m ps] h; cbn [ask1]; unfold h_EnforceExWithMatcher, h_EnforceExWithMatcherMap.
  - destruct (positional_only_ev o m ps (h_e h)) as [v E]. destruct (EnforceExWithMatcher _ _ _ _). cbn [fst h_e] in *. eauto.
  - destruct (map_only_ev o m ps (h_e h)) as [v E]. destruct (EnforceExWithMatcherMap _ _ _ _). cbn [fst h_e] in *. eauto.
Qed.
Lemma ask1_model : forall o q h h' out, ask1 o q h = (h', out) -> e_model (h_e h') = e_model (h_e h) /\ e_enabled (h_e h') = e_enabled (h_e h).
Proof. intros o q h h' out A. destruct (ask1_only_ev o q h) as [v E]. rewrite A in E. cbn [fst] in E. rewrite E. split; reflexivity. Qed.

(** ** Bounded: variables and registrations *)
Definition field_names (m : model) : list string :=
  map (fun t => "r" ++ "." ++ sdrop 2 t)%string (tokens_of m "r") ++ map (fun t => "p" ++ "." ++ p_token_name t)%string (tokens_of m "p").
Definition tame_holder (V F : list string) (h : holder) : Prop :=
  match e_ev (h_e h) with None => True | Some ev => tame V F ev end.

Lemma ask1_tame : forall o q h h' out V F, positional q -> incl (field_names (e_model (h_e h))) V -> incl (map fst (loads (e_model (h_e h)))) F ->
  tame_holder V F h -> ask1 o q h = (h', out) -> tame_holder V F h'.
Proof.
  intros o [m ps|m ps] h h' out V F P IV IF T A; [|contradiction]. cbn [ask1] in A. unfold h_EnforceExWithMatcher in A.
  destruct (EnforceExWithMatcher o m ps (h_e h)) as [e' out'] eqn:E. injection A as <- _. unfold tame_holder in *. cbn [h_e].
  unfold EnforceExWithMatcher in E. destruct (get_ast (e_model (h_e h)) "r" "r") as [r|x|u] eqn:R; try (injection E as <- _; exact T).
  destruct (negb _); [injection E as <- _; exact T|].
  assert (T0 : tame V F (own_evaluator (h_e h))). { unfold own_evaluator. destruct (e_ev (h_e h)); [exact T|apply tame_new]. }
  assert (HR : forall t, In t (a_tokens r) -> In ("r" ++ "." ++ sdrop 2 t)%string V).
  { intros t It. apply IV. unfold field_names, tokens_of. rewrite R. apply in_or_app. left. apply (in_map (fun t => "r" ++ "." ++ sdrop 2 t)%string). exact It. }
  assert (HP : forall t, In t (tokens_of (e_model (h_e h)) "p") -> In ("p" ++ "." ++ p_token_name t)%string V).
  { intros t It. apply IV. unfold field_names. apply in_or_app. right. apply (in_map (fun t => "p" ++ "." ++ p_token_name t)%string). exact It. }
  destruct (push_r _ _ _) as [ev1 [[]|x|u]] eqn:PR; pose proof (tame_push_r V F _ _ _ _ _ T0 HR PR) as T1; try (injection E as <- _; exact T1).
  destruct (m_enforce o (h_e h) ev1 m) as [ev2 out2] eqn:ME. injection E as <- _. cbn. eapply tame_m_enforce; [exact T1|exact HP|exact IF|exact ME].
Qed.
Lemma asked_tame : forall o h qs h' V F, asked o h qs h' -> Forall positional qs -> incl (field_names (e_model (h_e h))) V ->
  incl (map fst (loads (e_model (h_e h)))) F -> tame_holder V F h -> tame_holder V F h'.
Proof.
  intros o h qs h' V F A. induction A as [h|h q qs h1 out h2 E U A IH]; intros P IV IF T; [exact T|].
  inversion P as [|? ? P1 P2]; subst. destruct (ask1_model _ _ _ _ _ E) as [Em _]. apply IH; auto; rewrite ?Em; auto. eapply ask1_tame; eauto.
Qed.

(** ** Unbounded: function objects *)
Lemma ask1_objects : forall o q h h' out, looked_at (e_model (h_e h)) q -> e_enabled (h_e h) = true ->
  ask1 o q h = (h', out) -> (forall u, out <> UB u) -> (match q with ByPosition _ _ => exists r, get_ast (e_model (h_e h)) "r" "r" = Ok r | _ => True end) ->
  objects h' = objects h + (9 + role_definitions (e_model (h_e h))).
Proof.
  assert (Len : forall m l, List.length (loaded m l) = List.length l + (9 + role_definitions m)).
  { intros. unfold loaded, loads, role_definitions. rewrite app_length, !map_length, app_length, map_length. cbn [List.length]. lia. }
  assert (Own : forall h, List.length (own_functions h) = objects h). { intros h. unfold own_functions, objects. destruct (e_ev (h_e h)); reflexivity. }
  intros o [m ps|m ps] h h' out L En A U D; cbn [ask1] in A.
  - destruct D as [r R]. cbn [looked_at] in L. unfold tokens_of in L. rewrite R in L. unfold h_EnforceExWithMatcher in A. rewrite R in A.
    destruct (EnforceExWithMatcher o m ps (h_e h)) as [e' out'] eqn:E. unfold EnforceExWithMatcher in E. rewrite R in E. rewrite L, Nat.eqb_refl in A, E. cbn [negb] in A, E.
    destruct (push_r _ _ _) as [ev1 [[]|x|u]] eqn:PR.
    + destruct (m_enforce _ _ _ _) as [ev2 out2]. injection E as <- <-. injection A as <- <-. unfold objects at 1. cbn [h_e h_functions e_ev set_ev].
      unfold after_enforce. rewrite En, Len, Own. reflexivity.
    + exfalso. clear -PR. revert PR. generalize (own_evaluator (h_e h)). generalize dependent ps. induction (a_tokens r) as [|t l IH]; intros ps ev PR; cbn [push_r] in PR; [discriminate|].
      destruct ps as [|[s|] ps]; [discriminate| |eapply IH; exact PR]. unfold PushObjectString in PR. destruct (valid_symbol _); [eapply IH; exact PR|discriminate].
    + injection E as <- <-. injection A as <- <-. exfalso. eapply U. reflexivity.
  - unfold h_EnforceExWithMatcherMap in A. destruct (EnforceExWithMatcherMap o m ps (h_e h)) as [e' out'] eqn:E. unfold EnforceExWithMatcherMap in E.
    destruct (push_map _ _) as [ev1 [[]|x|u]] eqn:PR.
    + destruct (m_enforce _ _ _ _) as [ev2 out2]. injection E as <- <-. injection A as <- <-. unfold objects at 1. cbn [h_e h_functions e_ev set_ev].
      unfold after_enforce. rewrite En, Len, Own. reflexivity.
    + exfalso. clear -PR. revert PR. generalize (own_evaluator (h_e h)). induction ps as [|[n [s|]] ps IH]; intros ev PR; cbn [push_map] in PR; [discriminate| |eapply IH; exact PR].
      unfold PushObjectString in PR. destruct (valid_symbol _); [eapply IH; exact PR|discriminate].
    + injection E as <- <-. injection A as <- <-. exfalso. eapply U. reflexivity.
Qed.

(** ** Unbounded: the names of requests given as maps *)
Definition all_kept (ev ev' : evaluator) : Prop := incl (var_names ev) (var_names ev').
Lemma kept_push : forall ev tgt prop v ev', PushObjectString ev tgt prop v = Ok ev' -> all_kept ev ev'.
Proof. intros ev tgt prop v ev' P. unfold PushObjectString in P. destruct (valid_symbol _); [|discriminate]. injection P as <-. intros x Hx. apply keys_aset_in. auto. Qed.
Lemma kept_push_p : forall toks vals ev ev' out, push_p ev toks vals = (ev', out) -> all_kept ev ev'.
Proof.
  induction toks as [|t toks IH]; intros vals ev ev' out P; cbn [push_p] in P; [injection P as <- _; apply incl_refl|].
  destruct vals as [|v vals]; [injection P as <- _; apply incl_refl|].
  destruct (PushObjectString ev "p" (p_token_name t) v) as [ev1|x|u] eqn:E; try (injection P as <- _; apply incl_refl).
  eapply incl_tran; [eapply kept_push; exact E|eapply IH; exact P].
Qed.
Lemma kept_eval : forall o ev t, all_kept ev (fst (Eval o ev t)).
Proof. intros o ev t. unfold Eval. destruct (String.eqb _ _); apply incl_refl. Qed.
Lemma kept_eval_rule : forall o h he expr toks ev vals ev' out, eval_rule o h he expr toks ev vals = (ev', out) -> all_kept ev ev'.
Proof.
  intros o h he expr toks ev vals ev' out E. unfold eval_rule in E. destruct (negb _); [injection E as <- _; apply incl_refl|].
  destruct (push_p ev toks vals) as [ev1 [[]|x|u]] eqn:P; pose proof (kept_push_p _ _ _ _ _ P) as T1; try (injection E as <- _; exact T1).
  destruct (rule_expression _ _ _ _) as [t|x|u]; try (injection E as <- _; exact T1).
  pose proof (kept_eval o ev1 t) as T2. destruct (Eval o ev1 t) as [ev2 b]. cbn [fst] in T2. destruct (checked_value _ _ _); injection E as <- _; eapply incl_tran; eauto.
Qed.
Lemma kept_rule_loop : forall o h he expr ee toks len todo idx effs mats last ev ev' out,
  rule_loop o h he expr ee toks len todo idx effs mats last ev = (ev', out) -> all_kept ev ev'.
Proof.
  induction todo as [|vals todo IH]; intros idx effs mats last ev ev' out E; cbn [rule_loop] in E; [injection E as <- _; apply incl_refl|].
  destruct (eval_rule o h he expr toks ev vals) as [ev1 [[b eft]|x|u]] eqn:R; pose proof (kept_eval_rule _ _ _ _ _ _ _ _ _ R) as T1; try (injection E as <- _; exact T1).
  destruct (MergeEffects _ _ _ _ _) as [[[| |] x]|x|u]; try (injection E as <- _; exact T1). eapply incl_tran; [exact T1|eapply IH; exact E].
Qed.
Lemma adds_vars : forall l ev, ev_vars (fold_left (fun ev kv => AddFunction ev (fst kv) (efun_of (made (snd kv)))) l ev) = ev_vars ev.
Proof. induction l as [|kv l IH]; intros ev; [reflexivity|]. cbn [fold_left]. rewrite IH. reflexivity. Qed.
Lemma kept_m_enforce : forall o e ev matcher ev' out, m_enforce o e ev matcher = (ev', out) -> all_kept ev ev'.
Proof.
  intros o e ev matcher ev' out E. rewrite m_enforce_loads in E. destruct (e_enabled e); cbn [negb] in E; [|injection E as <- _; apply incl_refl].
  assert (T1 : all_kept ev (load_g_functions (e_model e) (LoadFunctions ev))).
  { unfold all_kept, var_names. rewrite <- loads_registered, registered_own, adds_vars. apply incl_refl. }
  revert E. generalize dependent (load_g_functions (e_model e) (LoadFunctions ev)). intros ev1 T1 E. unfold after_loading in E. cbn zeta in E.
  destruct (if String.eqb matcher "" then _ else _) as [expr|x|u]; cbn [bind] in E; try (injection E as <- _; exact T1).
  destruct (get_ast (e_model e) "r" "r") as [r|x|u]; cbn [bind] in E; try (injection E as <- _; exact T1).
  destruct (get_ast (e_model e) "p" "p") as [p|x|u]; cbn [bind] in E; try (injection E as <- _; exact T1).
  destruct (selected_policies (e_model e) ev1) as [rules|x|u]; cbn [bind] in E; try (injection E as <- _; exact T1).
  destruct rules as [|ru rules].
  - destruct (HasEval expr); [injection E as <- _; exact T1|].
    destruct (push_p ev1 (a_tokens p) (map (fun _ => "") (a_tokens p))) as [ev2 [[]|x|u]] eqn:P; pose proof (incl_tran T1 (kept_push_p _ _ _ _ _ P)) as T2; try (injection E as <- _; exact T2).
    pose proof (incl_tran T2 (kept_eval o ev2 expr)) as T3. destruct (Eval o ev2 expr) as [ev3 b]. cbn [fst] in T3. destruct (negb b); [injection E as <- _; exact T3|].
    destruct (M_Evaluator.value _ _ _); injection E as <- _; exact T3.
  - destruct (get_ast (e_model e) "e" "e") as [ea|x|u]; try (injection E as <- _; exact T1).
    destruct (rule_loop _ _ _ _ _ _ _ _ _ _ _ _ _) as [ev2 out2] eqn:R. injection E as <- _. eapply incl_tran; [exact T1|eapply kept_rule_loop; exact R].
Qed.

Definition kept_names (h : holder) : list string := match e_ev (h_e h) with Some ev => var_names ev | None => [] end.
Lemma own_names : forall e, var_names (own_evaluator e) = kept_names (fresh e).
Proof. intros e. unfold own_evaluator, kept_names, fresh. cbn [h_e]. destruct (e_ev e); reflexivity. Qed.
Lemma by_name_kept : forall o m n v h h' out, ask1 o (ByName m [(n, DStr v)]) h = (h', out) -> (forall u, out <> UB u) ->
  incl (("r." ++ n)%string :: kept_names h) (kept_names h').
Proof.
  intros o m n v h h' out A U. cbn [ask1] in A. unfold h_EnforceExWithMatcherMap, EnforceExWithMatcherMap in A. cbn [push_map] in A.
  destruct (PushObjectString (own_evaluator (h_e h)) "r" n v) as [ev1|x|u] eqn:P.
  - destruct (m_enforce o (h_e h) ev1 m) as [ev2 out2] eqn:ME. injection A as <- _. unfold kept_names at 2. cbn [h_e e_ev set_ev].
    eapply incl_tran; [|eapply kept_m_enforce; exact ME]. unfold PushObjectString in P. destruct (valid_symbol _); [|discriminate]. injection P as <-.
    unfold var_names at 1. cbn [ev_vars]. intros x Hx. apply keys_aset_in. destruct Hx as [<-|Hx]; [left; reflexivity|]. right.
    fold (var_names (own_evaluator (h_e h))). rewrite own_names. exact Hx.
  - unfold PushObjectString in P. destruct (valid_symbol _); discriminate.
  - injection A as <- <-. exfalso. eapply U. reflexivity.
Qed.
Lemma append_inj_l : forall p a b, (p ++ a)%string = (p ++ b)%string -> a = b.
Proof. induction p; cbn; intros a0 b H; auto. inversion H. auto. Qed.

(** ** The cache *)
Lemma through_keys : forall key (x : M bool) c c' out, c_on c = true -> through_cache key x c = (c', out) ->
  c_on c' = true /\ incl (map fst (c_map c)) (map fst (c_map c')) /\ (forall b, out = Ok b -> In key (map fst (c_map c'))) /\
  (NoDup (map fst (c_map c)) -> NoDup (map fst (c_map c'))) /\ incl (map fst (c_map c')) (key :: map fst (c_map c)).
Proof.
  intros key x c c' out On T. unfold through_cache in T. rewrite On in T. cbn [negb] in T.
  destruct (aget key (c_map c)) as [b|] eqn:G.
  - injection T as <- <-. repeat split; auto; try apply incl_refl; [|intros y Hy; right; exact Hy]. intros. apply ahas_true. unfold ahas. rewrite G. reflexivity.
  - unfold inherited in T. destruct (x (c_base c)) as [e o1]. injection T as <- <-. destruct o1 as [b|t|u]; cbn [c_map c_on].
    + repeat split; auto.
      * intros y Hy. apply keys_aset_in. auto.
      * intros b0 _. apply keys_aset_in. auto.
      * apply NoDup_keys_aset.
      * intros y Hy. apply keys_aset_in in Hy. destruct Hy as [-> |Hy]; [left; reflexivity|right; auto].
    + repeat split; auto; try apply incl_refl; try discriminate. intros y Hy. right. exact Hy.
    + repeat split; auto; try apply incl_refl; try discriminate. intros y Hy. right. exact Hy.
Qed.
