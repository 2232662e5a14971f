(** Proofs about logging. *)
From Verif Require Import Base P_Base M_Util M_RoleManager M_Effector M_Model M_Persist M_Eval M_Evaluator M_Enforcer M_Log
  S_Effect S_Enforce S_History P_Effect P_Enforce P_Decide.

Lemma quiet_print : forall depth, LogPrint depth false = Ok tt.
Proof. destruct depth; reflexivity. Qed.
Lemma loud_print : forall depth, LogPrint depth true = UB InfiniteRecursion.
Proof. induction depth; simpl; auto. Qed.

(** ** With the log off everything is as without it *)
Section Off.
  Variables (o : oracle) (depth : nat).
  Lemma loop_off : forall h he expr eft toks len todo idx effs ms last ev,
    rule_loop_log o depth false h he expr eft toks len todo idx effs ms last ev = rule_loop o h he expr eft toks len todo idx effs ms last ev.
  Proof.
    induction todo as [|v rest IH]; intros idx effs ms last ev; cbn [rule_loop_log rule_loop]; auto. rewrite quiet_print.
    destruct (eval_rule o h he expr toks ev v) as [ev' [[b x]|t|u]]; auto. cbv zeta.
    destruct (MergeEffects eft (upd idx x effs) (upd idx b ms) idx len) as [[[] y]|t|u]; auto.
  Qed.
  Lemma enforce_off : forall e ev matcher, m_enforce_log o depth false e ev matcher = m_enforce o e ev matcher.
  Proof.
    intros e ev matcher. unfold m_enforce_log, m_enforce. destruct (negb (e_enabled e)); auto. cbv zeta. rewrite quiet_print.
    match goal with |- match ?r with _ => _ end = _ => destruct r as [[[expr toks] [|r0 rules]]|t|u]; auto end.
    destruct (get_ast (e_model e) "e" "e") as [ea|t|u]; auto. rewrite loop_off. reflexivity.
  Qed.
  Lemma ex_off : forall matcher params e, EnforceExWithMatcher_log o depth false matcher params e = EnforceExWithMatcher o matcher params e.
  Proof.
    intros. unfold EnforceExWithMatcher_log, EnforceExWithMatcher. destruct (get_ast (e_model e) "r" "r") as [r|t|u]; auto.
    destruct (negb _); auto. destruct (push_r _ _ _) as [ev1 [x|t|u]]; auto. rewrite enforce_off. reflexivity.
  Qed.
  Lemma map_off : forall matcher params e, EnforceExWithMatcherMap_log o depth false matcher params e = EnforceExWithMatcherMap o matcher params e.
  Proof.
    intros. unfold EnforceExWithMatcherMap_log, EnforceExWithMatcherMap. destruct (push_map _ _) as [ev1 [x|t|u]]; auto. rewrite enforce_off. reflexivity.
  Qed.
  Lemma with_off : forall matcher params e, EnforceWithMatcher_log o depth false matcher params e = EnforceWithMatcher o matcher params e.
  Proof. intros. unfold EnforceWithMatcher_log, EnforceWithMatcher, mbind. rewrite ex_off. reflexivity. Qed.
  Lemma batch_off : forall matcher reqs e, BatchEnforceWithMatcher_log o depth false matcher reqs e = BatchEnforceWithMatcher o matcher reqs e.
  Proof.
    induction reqs as [|q qs IH]; intros e; auto. cbn [BatchEnforceWithMatcher_log BatchEnforceWithMatcher]. unfold mbind. rewrite with_off.
    destruct (EnforceWithMatcher o matcher q e) as [e1 [b|t|u]]; auto. rewrite IH. reflexivity.
  Qed.
  Lemma subjects_off : forall perm ss e, allowed_subjects_log o depth false perm ss e = allowed_subjects o perm ss e.
  Proof.
    induction ss as [|s ss IH]; intros e; auto. cbn [allowed_subjects_log allowed_subjects]. unfold mbind, lift.
    destruct (vget perm 0) as [p0|t|u]; auto. destruct (vget perm 1) as [p1|t|u]; auto. rewrite with_off. unfold Enforce.
    destruct (EnforceWithMatcher o "" [DStr s; DStr p0; DStr p1] e) as [e1 [b|t|u]]; auto. rewrite IH. reflexivity.
  Qed.
  Lemma run_off : forall c e, run_log o depth false c e = run o c e.
  Proof.
    intros c e. destruct c; auto; cbn [run_log run]; unfold drop_value, mbind.
    - unfold GetImplicitUsersForPermission_log, GetImplicitUsersForPermission, mbind.
      destruct (GetAllSubjects e) as [e1 [x|t|u]]; auto. destruct (all_types "g" 1 e1) as [e2 [y|t|u]]; auto.
      destruct (all_types "g" 0 e2) as [e3 [z|t|u]]; auto. cbv zeta. rewrite subjects_off. reflexivity.
    - rewrite with_off. reflexivity.
    - unfold EnforceWithMatcherMap_log, EnforceWithMatcherMap, mbind. rewrite map_off. reflexivity.
    - rewrite batch_off. reflexivity.
  Qed.
End Off.

(** ** With the log on *)
Lemma log_prepare : forall o depth lg e rf pf eft mat matcher req, oracle_ext o -> ready o e rf pf eft mat -> e_enabled e = true ->
  List.length req = List.length rf ->
  exists ev1, running o (e_model e) rf pf req ev1 /\
    EnforceExWithMatcher_log o depth lg matcher (map DStr req) e =
    let expr := chosen matcher mat in
    let rules := candidates (e_model e) req in
    let (ev2, out) :=
      match rules with
      | _ :: _ =>
          let (ev2, out) :=
            rule_loop_log o depth lg (e_heap e) (HasEval expr) expr eft (map (fun f => ("p_" ++ f)%string) pf) (List.length rules) rules 0
              (repeat Indeterminate (List.length rules)) (repeat false (List.length rules)) (UB Uninitialised) ev1 in
          (ev2, let! r := out in let! _ := LogPrint depth lg in Ok (decide rules r))
      | [] =>
          if HasEval expr then (ev1, Throw CasbinEnforcer)
          else
            match push_p ev1 (map (fun f => ("p_" ++ f)%string) pf) (map (fun _ => "") (map (fun f => ("p_" ++ f)%string) pf)) with
            | (ev2, Ok _) =>
                let (ev3, valid) := Eval o ev2 expr in
                if negb valid then (ev3, Ok (false, []))
                else
                  match value o (e_heap e) ev3 with
                  | Ok b => (ev3, let! r := MergeEffects eft [if b then Allow else Indeterminate] [true] 0 1 in
                                  let! _ := LogPrint depth lg in Ok (decide rules r))
                  | Throw t => (ev3, Throw t)
                  | UB u => (ev3, UB u)
                  end
            | (ev2, Throw t) => (ev2, Throw t)
            | (ev2, UB u) => (ev2, UB u)
            end
      end in
    (set_ev (Some ev2) e, out).
Proof.
  intros o depth lg e rf pf eft mat matcher req X [D F] EN L.
  unfold EnforceExWithMatcher_log.
  destruct (d_r _ _ _ _ _ D) as [ar [AR1 AR2]]. rewrite AR1, AR2, !map_length.
  rewrite (proj2 (Nat.eqb_eq _ _) L). simpl negb. cbv iota.
  rewrite push_r_ok by apply (d_sym_r _ _ _ _ _ D).
  set (ev0 := with_vars (own_evaluator e) (setall (combine (r_names rf) req) (ev_vars (own_evaluator e)))).
  assert (F0 : fits o (e_model e) rf pf (own_evaluator e)).
  { unfold own_evaluator. destruct (e_ev e); auto. apply fits_new. }
  assert (F1 : fits o (e_model e) rf pf ev0).
  { destruct F0 as [A B C]. constructor; auto. simpl. apply known_setall; auto.
    intros x H. apply in_combine_fst in H. apply known_r; auto. }
  assert (RV : forall x, In x (r_names rf) -> aget x (ev_vars ev0) = aget x (combine (r_names rf) req)).
  { intros x H. simpl. rewrite aget_setall by apply NoDup_combine_fst, r_names_inj, (d_rf _ _ _ _ _ D).
    assert (HA : ahas x (combine (r_names rf) req) = true).
    { apply aget_combine_some; auto. unfold r_names. rewrite map_length. auto. }
    unfold ahas in HA. destruct (aget x (combine (r_names rf) req)); [reflexivity|discriminate]. }
  clearbody ev0. clear F F0. unfold m_enforce_log. rewrite EN. simpl negb. cbv iota. fold (prepared (e_model e) ev0).
  pose proof (prepared_funs o (e_model e) rf pf eft mat ev0 D F1) as PF.
  destruct (prepared_frame (e_model e) ev0) as [PV [PE [PB PP]]].
  set (ev1 := prepared (e_model e) ev0) in *. cbv zeta.
  assert (R : running o (e_model e) rf pf req ev1).
  { constructor.
    - rewrite PV. apply (f_vars _ _ _ _ _ F1).
    - rewrite PV. exact RV.
    - exact PF.
    - rewrite PE, PB, PP. apply (f_prog _ _ _ _ _ F1). }
  exists ev1. split; [exact R|].
  clearbody ev1. clear PV PE PB PP F1 RV ev0 PF.
  destruct (d_m _ _ _ _ _ D) as [am [AM1 AM2]].
  destruct (d_p _ _ _ _ _ D) as [ap [AP1 AP2]].
  destruct (d_e _ _ _ _ _ D) as [ae [AE1 AE2]].
  assert (EX : (if String.eqb matcher "" then let! a := get_ast (e_model e) "m" "m" in Ok (a_value a) else Ok matcher)
               = Ok (chosen matcher mat)).
  { unfold chosen. rewrite AM1. simpl. rewrite AM2. destruct (String.eqb matcher ""); reflexivity. }
  rewrite EX, AR1, AP1, AE1. cbn [bind].
  rewrite (selected_spec o (e_model e) rf pf eft mat req ev1 D R L). cbn [bind]. rewrite AP2, AE2.
  destruct (candidates (e_model e) req) as [|r0 rules]; reflexivity.
Qed.
Lemma loud_rules : forall o depth e rf pf eft mat matcher req, oracle_ext o -> ready o e rf pf eft mat -> e_enabled e = true ->
  List.length req = List.length rf -> candidates (e_model e) req <> [] ->
  snd (EnforceExWithMatcher_log o depth true matcher (map DStr req) e) = UB InfiniteRecursion.
Proof.
  intros o depth e rf pf eft mat matcher req X RE EN L NE.
  destruct (log_prepare o depth true e rf pf eft mat matcher req X RE EN L) as [ev1 [R ->]]. cbv zeta.
  destruct (candidates (e_model e) req) as [|r0 rules]; [congruence|]. cbn [rule_loop_log]. rewrite loud_print. reflexivity.
Qed.
Lemma loud_empty : forall o depth e rf pf eft mat matcher req b x, oracle_ext o -> ready o e rf pf eft mat -> e_enabled e = true ->
  List.length req = List.length rf -> candidates (e_model e) req = [] -> HasEval (chosen matcher mat) = false -> chosen matcher mat <> "" ->
  verdict o (e_model e) (e_heap e) rf pf (chosen matcher mat) req (map (fun _ => "") pf) = Ok b ->
  MergeEffects eft [if b then Allow else Indeterminate] [true] 0 1 = Ok x ->
  snd (EnforceExWithMatcher_log o depth true matcher (map DStr req) e) = UB InfiniteRecursion.
Proof.
  intros o depth e rf pf eft mat matcher req b x X RE EN L CN HE NE V ME. pose proof (proj1 RE) as D.
  destruct (log_prepare o depth true e rf pf eft mat matcher req X RE EN L) as [ev1 [R ->]]. cbv zeta. rewrite CN, HE.
  set (expr := chosen matcher mat) in *.
  assert (PN : map (fun _ : string => "") (map (fun f : string => ("p_" ++ f)%string) pf) = map (fun _ => "") pf).
  { rewrite map_map. reflexivity. }
  rewrite PN. rewrite push_p_ok by apply (d_sym_p _ _ _ _ _ D).
  fold (pushed ev1 pf (map (fun _ => "") pf)).
  destruct (eval_text o (e_model e) rf pf eft mat req ev1 (map (fun _ => "") pf) expr (e_heap e) X D R L)
    as [R2 [EV [_ VV]]]; auto.
  { rewrite map_length. reflexivity. }
  unfold verdict, matcher_text, rule_expression in V. rewrite map_length, Nat.eqb_refl, HE in V. cbn [negb bind] in V.
  destruct (o_compiles o expr (known_vars rf pf) (role_arity (e_model e))) eqn:CO; [|discriminate].
  destruct (Eval o (pushed ev1 pf (map (fun _ => "") pf)) expr) as [ev3 v]. cbn [fst snd] in *. subst v. cbn [negb].
  rewrite VV by auto. rewrite V, ME, loud_print. reflexivity.
Qed.
