(** Proofs for property C106. *)
From Verif Require Import Base P_Base M_Util M_RoleManager M_Effector M_Model M_Persist M_Eval M_Evaluator M_Enforcer
  S_Effect S_Enforce S_Json P_Effect P_Enforce P_Decide P_MapRequest.

(** What a request with JSON values writes. *)
Fixpoint written (rf : list string) (ds : list data) : list (string * string) :=
  match rf, ds with
  | f :: rf', DStr v :: ds' => (("r." ++ f)%string, v) :: written rf' ds'
  | _ :: rf', DJson :: ds' => written rf' ds'
  | _, _ => []
  end.

Lemma push_r_written : forall rf ds ev,
  (forall f, In f rf -> valid_symbol ("r." ++ f)%string = true) ->
  push_r ev (map (fun f => ("r_" ++ f)%string) rf) ds = (with_vars ev (setall (written rf ds) (ev_vars ev)), Ok tt).
Proof.
  induction rf as [|f rf IH]; intros ds ev V.
  - destruct ds as [|[]]; destruct ev; reflexivity.
  - destruct ds as [|d ds]; [destruct ev; reflexivity|]. destruct d as [v|].
    + cbn [map push_r written setall]. change ("r_" ++ f)%string with (String "r" (String "_" f)). rewrite sdrop2.
      unfold PushObjectString. change ("r" ++ "." ++ f)%string with ("r." ++ f)%string.
      rewrite V by (left; auto). rewrite IH; auto. intros g I. apply V. right; auto.
    + cbn [map push_r written]. apply IH. intros g I. apply V. right; auto.
Qed.

Lemma written_in : forall rf ds x, In x (map fst (written rf ds)) -> exists f, x = ("r." ++ f)%string /\ In f rf.
Proof.
  induction rf as [|f rf IH]; intros [|[v|] ds] x I; cbn [written map fst] in I; try destruct I.
  - subst. exists f. split; auto. left; auto.
  - destruct (IH ds x H) as [g [-> J]]. exists g. split; auto. right; auto.
  - destruct (IH ds x I) as [g [-> J]]. exists g. split; auto. right; auto.
Qed.

Lemma written_NoDup : forall rf ds, NoDup rf -> NoDup (map fst (written rf ds)).
Proof.
  induction rf as [|f rf IH]; intros [|[v|] ds] N; cbn [written map fst]; try constructor; inversion N; subst; auto.
  intro I. apply written_in in I. destruct I as [g [E I]]. apply r_dot_inj in E. subst. auto.
Qed.

(** A JSON field is not written. *)
Lemma written_json : forall rf ds f, NoDup rf -> In (f, DJson) (combine rf ds) -> aget ("r." ++ f)%string (written rf ds) = None.
Proof.
  induction rf as [|g rf IH]; intros [|d ds] f N I; try destruct I; inversion N as [|? ? A B]; subst.
  - inversion H; subst. cbn [written]. apply aget_None. intro I. apply written_in in I. destruct I as [h [E I]].
    apply r_dot_inj in E. subst. auto.
  - assert (f <> g) by (intro; subst; apply in_combine_l in H; auto).
    destruct d as [v|]; cbn [written]; [|apply IH; auto]. cbn [aget].
    replace (String.eqb ("r." ++ f)%string ("r." ++ g)%string) with false; [apply IH; auto|].
    symmetry. apply String.eqb_neq. intro Q. apply r_dot_inj in Q. auto.
Qed.

Lemma filled_length : forall before ds req, filled before ds req ->
  List.length ds = List.length before /\ List.length req = List.length before.
Proof. induction 1; cbn [List.length]; intuition congruence. Qed.

(** The written values on top of the earlier ones are those of the filled request. *)
Lemma filled_get : forall before ds req, filled before ds req -> forall rf x, NoDup rf -> List.length before = List.length rf ->
  aget x (combine (r_names rf) req) =
  match aget x (written rf ds) with Some v => Some v | None => aget x (combine (r_names rf) before) end.
Proof.
  induction 1 as [|b before v ds req F IH|b before ds req F IH]; intros [|f rf] x N L; try discriminate; auto;
    inversion N as [|? ? A B]; subst; cbn [r_names map combine written aget].
  - destruct (String.eqb x ("r." ++ f)%string); auto.
  - destruct (String.eqb x ("r." ++ f)%string) eqn:E; [|apply IH; auto].
    apply String.eqb_eq in E. subst x. rewrite (proj2 (aget_None _ _)); auto.
    intro I. apply written_in in I. destruct I as [h [Q I]]. apply r_dot_inj in Q. subst. auto.
Qed.

Lemma length_rf : forall o e rf pf eft mat, ready o e rf pf eft mat ->
  exists a, get_ast (e_model e) "r" "r" = Ok a /\ a_tokens a = map (fun f => ("r_" ++ f)%string) rf.
Proof. intros o e rf pf eft mat [D _]. apply (d_r _ _ _ _ _ D). Qed.

Lemma json_spec : forall o e rf pf eft mat matcher before ds req,
  oracle_ext o -> ready o e rf pf eft mat -> List.length before = List.length rf -> holds_request rf before e ->
  filled before ds req -> texts_ok (chosen matcher mat) pf (candidates (e_model e) req) ->
  exists ev', EnforceExWithMatcher o matcher ds e = (set_ev (Some ev') e, enforce_outcome o e rf pf eft mat matcher req)
              /\ fits o (e_model e) rf pf ev' /\ holds_request rf req (set_ev (Some ev') e).
Proof.
  intros o e rf pf eft mat matcher before ds req X R LB [ev [EE H]] FI T.
  destruct (filled_length _ _ _ FI) as [LD LR].
  destruct R as [D F]. rewrite EE in F.
  unfold EnforceExWithMatcher. destruct (d_r _ _ _ _ _ D) as [ar [AR1 AR2]]. rewrite AR1, AR2, map_length.
  rewrite (proj2 (Nat.eqb_eq _ _)) by congruence. simpl negb. cbv iota.
  rewrite push_r_written by apply (d_sym_r _ _ _ _ _ D). unfold own_evaluator. rewrite EE.
  set (ev0 := with_vars ev (setall (written rf ds) (ev_vars ev))).
  assert (F1 : fits o (e_model e) rf pf ev0).
  { destruct F as [A B C]. constructor; auto. simpl. apply known_setall; auto.
    intros x I. apply written_in in I. destruct I as [f [-> I]]. apply known_r. apply in_map_iff. exists f. auto. }
  assert (RV : forall x, In x (r_names rf) -> aget x (ev_vars ev0) = aget x (combine (r_names rf) req)).
  { intros x I. unfold ev0, with_vars. cbn [ev_vars].
    rewrite aget_setall by (apply written_NoDup, (d_rf _ _ _ _ _ D)).
    rewrite (filled_get _ _ _ FI rf x (d_rf _ _ _ _ _ D) LB), H; auto. }
  assert (L : List.length req = List.length rf) by congruence.
  destruct (m_enforce_spec o e rf pf eft mat matcher req ev0 X D F1 RV L T) as [ev' [E F']].
  pose proof (m_enforce_keeps o e rf pf eft mat matcher req ev0 X D F1 RV L T) as K. rewrite E in K. cbn [fst] in K.
  rewrite E. exists ev'. split; auto. split; auto. exists ev'. split; auto.
Qed.

Lemma carried_length : forall before qs last, carried before qs last -> List.length last = List.length before.
Proof. induction 1; auto. apply filled_length in H. destruct H. congruence. Qed.

Lemma json_history : forall o rf pf eft mat qs before e last, oracle_ext o -> ready o e rf pf eft mat ->
  List.length before = List.length rf -> holds_request rf before e -> carried before qs last ->
  Forall (fun q => texts_ok (chosen (fst q) mat) pf (p_rules (e_model e))) qs ->
  exists ev, ask_json o qs e = set_ev (Some ev) e /\ fits o (e_model e) rf pf ev /\ holds_request rf last (set_ev (Some ev) e).
Proof.
  intros o rf pf eft mat. induction qs as [|[m ds] qs IH]; intros before e last X R L H S T; inversion S; subst.
  - destruct H as [ev [E H]]. exists ev. split; [destruct e; simpl in *; subst; auto|]. split.
    + destruct R as [_ F]. rewrite E in F. exact F.
    + exists ev. auto.
  - inversion T as [|? ? T1 T2]; subst. cbn [fst] in T1. cbn [ask_json].
    match goal with F : filled before ds ?r, C : carried ?r qs last |- _ => pose proof F as FI; pose proof C as CA end.
    destruct (json_spec o e rf pf eft mat m before ds req X R L H FI (texts_candidates _ _ _ _ T1)) as [ev [E [F H1]]].
    rewrite E. cbn [fst].
    destruct (IH req (set_ev (Some ev) e) last X (ready_ev _ _ _ _ _ _ _ R F)) as [ev2 [E2 [F2 H2]]]; auto.
    { apply filled_length in FI. destruct FI. congruence. }
    exists ev2. rewrite E2. auto.
Qed.

(** ** The first request of an enforcer *)

(** The evaluator remembers a failed compilation of [expr]. *)
Definition stuck (expr : string) (e : enforcer) : Prop :=
  exists ev, e_ev e = Some ev /\ ev_expr ev = expr /\ ev_bad ev = true.

Lemma loop_bad : forall o h expr eft pf len r0 rest i es ms last ev ev2 t,
  eval_rule o h (HasEval expr) expr (map (fun f => ("p_" ++ f)%string) pf) ev r0 = (ev2, Throw t) ->
  rule_loop o h (HasEval expr) expr eft (map (fun f => ("p_" ++ f)%string) pf) len (r0 :: rest) i es ms last ev = (ev2, Throw t).
Proof. intros. cbn [rule_loop]. rewrite H. auto. Qed.

Lemma aget_setall_none : forall l vars x, ~ In x (map fst l) -> aget x (setall l vars) = aget x vars.
Proof.
  induction l as [|[k v] l IH]; intros vars x N; auto. cbn [setall]. rewrite IH by (intro; apply N; right; auto).
  rewrite aget_aset_other; auto. intro; subst. apply N. left; auto.
Qed.

(** One request of the right length that meets a rule whose text is not compiled. *)
Lemma fails_spec : forall o e rf pf eft mat matcher ds r0 rest,
  declares (e_model e) rf pf eft mat -> e_enabled e = true -> p_indexed (e_model e) = false ->
  p_rules (e_model e) = r0 :: rest -> List.length r0 = List.length pf -> HasEval (chosen matcher mat) = false ->
  List.length ds = List.length rf ->
  (forall ev, ev_vars ev = setall (combine (p_names pf) r0) (setall (written rf ds) (ev_vars (own_evaluator e))) ->
     ev_expr ev = ev_expr (own_evaluator e) -> ev_bad ev = ev_bad (own_evaluator e) ->
     ev_bad (fst (Eval o ev (chosen matcher mat))) = true) ->
  exists ev', EnforceExWithMatcher o matcher ds e = (set_ev (Some ev') e, Throw ThrownString) /\
     ev_expr ev' = chosen matcher mat /\ ev_bad ev' = true.
Proof.
  intros o e rf pf eft mat matcher ds r0 rest D EN PI PR L0 HE LD BAD.
  unfold EnforceExWithMatcher. destruct (d_r _ _ _ _ _ D) as [ar [AR1 AR2]]. rewrite AR1, AR2, map_length.
  rewrite (proj2 (Nat.eqb_eq _ _)) by congruence. simpl negb. cbv iota.
  rewrite push_r_written by apply (d_sym_r _ _ _ _ _ D).
  set (ev0 := with_vars (own_evaluator e) (setall (written rf ds) (ev_vars (own_evaluator e)))) in *.
  unfold m_enforce. rewrite EN. simpl negb. cbv iota. fold (prepared (e_model e) ev0).
  destruct (prepared_frame (e_model e) ev0) as [PV [PE [PB PP]]].
  set (ev1 := prepared (e_model e) ev0) in *. cbv zeta.
  destruct (d_m _ _ _ _ _ D) as [am [AM1 AM2]].
  destruct (d_p _ _ _ _ _ D) as [ap [AP1 AP2]].
  destruct (d_e _ _ _ _ _ D) as [ae [AE1 AE2]].
  assert (EX : (if String.eqb matcher "" then let! a := get_ast (e_model e) "m" "m" in Ok (a_value a) else Ok matcher)
               = Ok (chosen matcher mat)).
  { unfold chosen. rewrite AM1. simpl. rewrite AM2. destruct (String.eqb matcher ""); reflexivity. }
  rewrite EX, AR1, AP1, AE1. cbn [bind].
  assert (SP : selected_policies (e_model e) ev1 = Ok (r0 :: rest)).
  { unfold selected_policies, p_indexed, p_rules in *. rewrite AP1 in *. cbn [bind] in *.
    destruct (a_policy ap); [|discriminate]. cbn [rules_of] in PR. congruence. }
  rewrite SP. cbn [bind]. rewrite AP2, AE2.
  assert (ER : exists ev2, eval_rule o (e_heap e) (HasEval (chosen matcher mat)) (chosen matcher mat)
                 (map (fun f => ("p_" ++ f)%string) pf) ev1 r0 = (ev2, Throw ThrownString) /\
                 ev_expr ev2 = chosen matcher mat /\ ev_bad ev2 = true).
  { unfold eval_rule. rewrite map_length, L0, Nat.eqb_refl. simpl negb. cbv iota.
    rewrite push_p_ok by apply (d_sym_p _ _ _ _ _ D).
    unfold rule_expression. rewrite HE.
    set (ev2 := with_vars ev1 (setall (combine (p_names pf) r0) (ev_vars ev1))).
    assert (B : ev_bad (fst (Eval o ev2 (chosen matcher mat))) = true).
    { apply BAD; unfold ev2; cbn [with_vars ev_vars ev_expr ev_bad]; [rewrite PV; auto|rewrite PE; auto|rewrite PB; auto]. }
    assert (B' : ev_expr (fst (Eval o ev2 (chosen matcher mat))) = chosen matcher mat).
    { unfold Eval. destruct (String.eqb (ev_expr ev2) (chosen matcher mat)) eqn:E; auto. apply String.eqb_eq; auto. }
    destruct (Eval o ev2 (chosen matcher mat)) as [ev3 b]. cbn [fst] in *. exists ev3.
    unfold checked_value. rewrite B. auto. }
  destruct ER as [ev2 [ER [A B]]].
  rewrite (loop_bad o _ _ _ _ _ _ _ _ _ _ _ _ _ _ ER). exists ev2. auto.
Qed.

Lemma first_fails : forall o e rf pf eft mat matcher ds r0 rest f,
  declares (e_model e) rf pf eft mat -> e_ev e = None -> e_enabled e = true -> p_indexed (e_model e) = false ->
  p_rules (e_model e) = r0 :: rest -> List.length r0 = List.length pf -> HasEval (chosen matcher mat) = false ->
  chosen matcher mat <> "" -> List.length ds = List.length rf -> In (f, DJson) (combine rf ds) ->
  requires o (chosen matcher mat) ("r." ++ f)%string ->
  exists ev', EnforceExWithMatcher o matcher ds e = (set_ev (Some ev') e, Throw ThrownString) /\
     ev_expr ev' = chosen matcher mat /\ ev_bad ev' = true.
Proof.
  intros o e rf pf eft mat matcher ds r0 rest f D EV EN PI PR L0 HE NE LD J RQ.
  eapply fails_spec; eauto. unfold own_evaluator. rewrite EV. cbn [ev_vars ev_expr ev_bad new_evaluator].
  intros ev V E B. unfold Eval. rewrite E. rewrite (proj2 (String.eqb_neq _ _)) by congruence. cbn [fst ev_bad].
  rewrite RQ; auto. unfold sig_vars, ahas. rewrite V.
  rewrite aget_setall_none.
  - rewrite aget_setall by (apply written_NoDup, (d_rf _ _ _ _ _ D)).
    rewrite written_json; auto. apply (d_rf _ _ _ _ _ D).
  - intro I. apply in_combine_fst in I. apply (r_p_disjoint ("r." ++ f)%string rf pf); auto.
    apply in_map_iff. exists f. split; auto. apply in_combine_l in J. auto.
Qed.

Lemma stuck_fails : forall o e rf pf eft mat matcher ds r0 rest,
  declares (e_model e) rf pf eft mat -> e_enabled e = true -> p_indexed (e_model e) = false ->
  p_rules (e_model e) = r0 :: rest -> List.length r0 = List.length pf -> HasEval (chosen matcher mat) = false ->
  stuck (chosen matcher mat) e -> List.length ds = List.length rf ->
  snd (EnforceExWithMatcher o matcher ds e) = Throw ThrownString /\
  exists ev', fst (EnforceExWithMatcher o matcher ds e) = set_ev (Some ev') e /\ stuck (chosen matcher mat) (set_ev (Some ev') e).
Proof.
  intros o e rf pf eft mat matcher ds r0 rest D EN PI PR L0 HE [ev [EV [E1 E2]]] LD.
  destruct (fails_spec o e rf pf eft mat matcher ds r0 rest D EN PI PR L0 HE LD) as [ev' [E [A B]]].
  - unfold own_evaluator. rewrite EV. intros ev3 V E3 B3. unfold Eval. rewrite E3, E1, String.eqb_refl. cbn [fst]. congruence.
  - rewrite E. cbn [fst snd]. split; auto. exists ev'. split; auto. exists ev'. auto.
Qed.

Lemma wrong_length : forall o e rf pf eft mat matcher ds, declares (e_model e) rf pf eft mat ->
  List.length ds <> List.length rf -> EnforceExWithMatcher o matcher ds e = (e, Ok (false, [])).
Proof.
  intros o e rf pf eft mat matcher ds D N. unfold EnforceExWithMatcher.
  destruct (d_r _ _ _ _ _ D) as [ar [AR1 AR2]]. rewrite AR1, AR2, map_length.
  rewrite (proj2 (Nat.eqb_neq _ _)) by auto. auto.
Qed.

Lemma stuck_history : forall o rf pf eft mat r0 rest matcher dss e,
  declares (e_model e) rf pf eft mat -> e_enabled e = true -> p_indexed (e_model e) = false ->
  p_rules (e_model e) = r0 :: rest -> List.length r0 = List.length pf -> HasEval (chosen matcher mat) = false ->
  stuck (chosen matcher mat) e ->
  exists ev', ask_json o (map (fun ds => (matcher, ds)) dss) e = set_ev (Some ev') e /\ stuck (chosen matcher mat) (set_ev (Some ev') e).
Proof.
  intros o rf pf eft mat r0 rest matcher. induction dss as [|ds dss IH]; intros e D EN PI PR L0 HE S.
  - destruct S as [ev [EV S]]. exists ev. split; [cbn [map ask_json]; destruct e; simpl in *; subst; auto|]. exists ev. auto.
  - cbn [map ask_json]. destruct (Nat.eq_dec (List.length ds) (List.length rf)) as [L|L].
    + destruct (stuck_fails o e rf pf eft mat matcher ds r0 rest D EN PI PR L0 HE S L) as [_ [ev1 [E1 S1]]].
      rewrite E1. destruct (IH (set_ev (Some ev1) e)) as [ev2 [E2 S2]]; auto. exists ev2. rewrite E2. auto.
    + rewrite (wrong_length o e rf pf eft mat matcher ds D L). cbn [fst]. apply IH; auto.
Qed.

(** ** Fields the matcher does not look at *)

(** Changing the values of ignored fields one at a time. *)
Fixpoint same_off (fs : list string) (rf req req' : list string) : Prop :=
  match rf, req, req' with
  | [], [], [] => True
  | f :: rf1, a :: r1, b :: r2 => (a = b \/ In f fs) /\ same_off fs rf1 r1 r2
  | _, _, _ => False
  end.

Lemma same_off_get : forall fs rf req req' x, same_off fs rf req req' -> (forall f, In f fs -> x <> ("r." ++ f)%string) ->
  aget x (combine (r_names rf) req) = aget x (combine (r_names rf) req').
Proof.
  intros fs. induction rf as [|f rf IH]; intros [|a req] [|b req'] x S N; try destruct S; auto.
  cbn [r_names map combine aget]. destruct (String.eqb x ("r." ++ f)%string) eqn:E; [|apply IH; auto].
  apply String.eqb_eq in E. destruct H as [->|I]; auto. exfalso. apply (N f); auto.
Qed.

Lemma ignores_all : forall o text fs, oracle_ext o -> (forall f, In f fs -> ignores o text ("r." ++ f)%string) ->
  forall v w g, (forall y, (forall f, In f fs -> y <> ("r." ++ f)%string) -> v y = w y) -> o_value o text v g = o_value o text w g.
Proof.
  intros o text fs X. induction fs as [|f fs IH]; intros IG v w g A.
  - apply (proj2 X); auto.
  - set (u := fun y => if String.eqb y ("r." ++ f)%string then v y else w y).
    assert (E1 : o_value o text u g = o_value o text w g).
    { apply (IG f); [left; auto|]. intros y N. unfold u. rewrite (proj2 (String.eqb_neq _ _)); auto. }
    rewrite <- E1. apply IH; [intros h I; apply IG; right; auto|].
    intros y N. unfold u. destruct (String.eqb y ("r." ++ f)%string) eqn:E; auto.
    apply A. intros h [<-|I]; [apply String.eqb_neq; auto|auto].
Qed.

Lemma env_off : forall fs rf req req' pf vals y, same_off fs rf req req' -> (forall f, In f fs -> y <> ("r." ++ f)%string) ->
  env rf req pf vals y = env rf req' pf vals y.
Proof. intros. unfold env. rewrite !aget_app. rewrite (same_off_get fs rf req req' y); auto. Qed.

Lemma outcome_off : forall o e rf pf eft mat matcher fs req req', oracle_ext o ->
  p_indexed (e_model e) = false -> HasEval (chosen matcher mat) = false ->
  (forall f, In f fs -> ignores o (chosen matcher mat) ("r." ++ f)%string) -> same_off fs rf req req' ->
  enforce_outcome o e rf pf eft mat matcher req = enforce_outcome o e rf pf eft mat matcher req'.
Proof.
  intros o e rf pf eft mat matcher fs req req' X PI HE IG S.
  unfold enforce_outcome. destruct (negb (e_enabled e)); auto.
  assert (C : candidates (e_model e) req = candidates (e_model e) req') by (unfold candidates; rewrite PI; auto).
  rewrite C. assert (V : forall vals g, o_value o (chosen matcher mat) (env rf req pf vals) g = o_value o (chosen matcher mat) (env rf req' pf vals) g).
  { intros. eapply ignores_all; eauto. intros. eapply env_off; eauto. }
  destruct (candidates (e_model e) req') as [|r0 rules].
  - unfold empty_outcome. rewrite HE, V. auto.
  - unfold loop_outcome. erewrite (map_ext (rule_outcome o _ _ rf pf _ req)); [reflexivity|]. intros r. unfold rule_outcome, verdict, matcher_text, rule_expression.
    rewrite HE. cbn [bind]. rewrite V. auto.
Qed.

(** The fields a request gives as JSON. *)
Fixpoint json_fields (rf : list string) (ds : list data) : list string :=
  match rf, ds with
  | f :: rf', DJson :: ds' => f :: json_fields rf' ds'
  | _ :: rf', DStr _ :: ds' => json_fields rf' ds'
  | _, _ => []
  end.

Lemma json_fields_in : forall rf ds f, In f (json_fields rf ds) <-> In (f, DJson) (combine rf ds).
Proof.
  induction rf as [|g rf IH]; intros [|[v|] ds] f; cbn [json_fields combine In]; try tauto.
  - rewrite IH. intuition congruence.
  - rewrite IH. intuition congruence.
Qed.

Lemma same_off_incl : forall fs fs' rf a b, incl fs fs' -> same_off fs rf a b -> same_off fs' rf a b.
Proof.
  intros fs fs'. induction rf as [|f rf IH]; intros [|x a] [|y b] I S; auto; try (destruct S; fail).
  destruct S as [[->|J] S]; split; auto.
Qed.

Lemma filled_agrees : forall before ds req, filled before ds req -> forall rf req', List.length before = List.length rf ->
  agrees ds req' -> same_off (json_fields rf ds) rf req req'.
Proof.
  induction 1 as [|b before v ds req F IH|b before ds req F IH]; intros [|f rf] req' L A; try discriminate;
    inversion A as [|d w ds' req1 W A']; subst; cbn [json_fields same_off]; auto.
  - split; [left; destruct W as [W|W]; congruence|]. apply IH; auto.
  - split; [right; left; auto|]. eapply same_off_incl; [|apply IH; eauto]. intros x I. right; auto.
Qed.

Lemma filled_exists : forall before ds, List.length ds = List.length before -> exists req, filled before ds req.
Proof.
  induction before as [|b before IH]; intros [|d ds] L; try discriminate.
  - exists []. constructor.
  - destruct (IH ds) as [req F]; [auto|]. destruct d as [v|]; [exists (v :: req)|exists (b :: req)]; constructor; auto.
Qed.

(** ** The hash index *)

Lemma requested_missing : forall vals rf f, In f rf -> aget f vals = None ->
  requested_policy vals (map (fun g => ("r_" ++ g)%string) rf) = Throw StdLogicError.
Proof.
  intros vals. induction rf as [|g rf IH]; intros f I N; [destruct I|].
  cbn [map requested_policy]. change ("r_" ++ g)%string with (String "r" (String "_" g)). rewrite sdrop2.
  destruct I as [<-|I]; [rewrite N; auto|]. destruct (aget g vals); auto. rewrite (IH f); auto.
Qed.

Lemma requestValues_missing : forall ev f, aget ("r." ++ f)%string (ev_vars ev) = None ->
  (forall x, ahas x (ev_vars ev) = true -> exists g, x = ("r." ++ g)%string) ->
  aget f (requestValues ev) = None.
Proof.
  intros ev f N K. unfold requestValues.
  assert (G : forall k v, In (k, v) (ev_vars ev) -> exists g, k = ("r." ++ g)%string /\ g <> f).
  { intros k v I. assert (H : ahas k (ev_vars ev) = true).
    { unfold ahas. destruct (aget k (ev_vars ev)) eqn:E; auto. apply aget_None in E. exfalso. apply E.
      apply (in_map fst) in I. auto. }
    destruct (K k H) as [g ->]. exists g. split; auto. intro. subst. unfold ahas in H. rewrite N in H. discriminate. }
  revert G. generalize (ev_vars ev) at 1 3 as l. intros l. induction l as [|[k v] l IH]; intros G; auto.
  destruct (G k v) as [g [-> NE]]; [left; auto|]. cbn [flat_map fst app aget].
  change ("r." ++ g)%string with (String "r" (String "." g)). cbn [app aget].
  rewrite (proj2 (String.eqb_neq f g)) by auto. apply IH. intros k' v' I. apply (G k' v'). right; auto.
Qed.

Lemma indexed_throws : forall o e rf pf eft mat matcher ds f,
  declares (e_model e) rf pf eft mat -> e_ev e = None -> e_enabled e = true -> p_indexed (e_model e) = true ->
  List.length ds = List.length rf -> In (f, DJson) (combine rf ds) ->
  exists ev, EnforceExWithMatcher o matcher ds e = (set_ev (Some ev) e, Throw StdLogicError) /\ fits o (e_model e) rf pf ev.
Proof.
  intros o e rf pf eft mat matcher ds f D EV EN PI LD J.
  unfold EnforceExWithMatcher. destruct (d_r _ _ _ _ _ D) as [ar [AR1 AR2]]. rewrite AR1, AR2, map_length.
  rewrite (proj2 (Nat.eqb_eq _ _)) by congruence. simpl negb. cbv iota.
  rewrite push_r_written by apply (d_sym_r _ _ _ _ _ D). unfold own_evaluator. rewrite EV.
  set (ev0 := with_vars new_evaluator (setall (written rf ds) (ev_vars new_evaluator))) in *.
  assert (V0 : forall x, ahas x (ev_vars ev0) = true -> exists g, x = ("r." ++ g)%string /\ In g rf).
  { intros x H. unfold ev0, with_vars in H. cbn [ev_vars new_evaluator] in H. unfold ahas in H.
    rewrite aget_setall in H by (apply written_NoDup, (d_rf _ _ _ _ _ D)). cbn [aget] in H.
    destruct (aget x (written rf ds)) eqn:E; [|discriminate]. apply aget_In, (in_map fst) in E. apply (written_in _ _ _ E). }
  assert (N0 : aget ("r." ++ f)%string (ev_vars ev0) = None).
  { unfold ev0, with_vars. cbn [ev_vars new_evaluator].
    rewrite aget_setall by (apply written_NoDup, (d_rf _ _ _ _ _ D)). rewrite written_json; auto. apply (d_rf _ _ _ _ _ D). }
  assert (F0 : fits o (e_model e) rf pf ev0).
  { constructor; auto.
    - intros x H. destruct (V0 x H) as [g [-> I]]. apply known_r. apply in_map_iff. exists g. auto.
    - intros g k H. discriminate. }
  unfold m_enforce. rewrite EN. simpl negb. cbv iota. fold (prepared (e_model e) ev0).
  destruct (prepared_frame (e_model e) ev0) as [PV [PE [PB PP]]].
  pose proof (prepared_funs o (e_model e) rf pf eft mat ev0 D F0) as PF.
  set (ev1 := prepared (e_model e) ev0) in *. cbv zeta.
  destruct (d_m _ _ _ _ _ D) as [am [AM1 AM2]].
  destruct (d_p _ _ _ _ _ D) as [ap [AP1 AP2]].
  assert (EX : (if String.eqb matcher "" then let! a := get_ast (e_model e) "m" "m" in Ok (a_value a) else Ok matcher)
               = Ok (chosen matcher mat)).
  { unfold chosen. rewrite AM1. simpl. rewrite AM2. destruct (String.eqb matcher ""); reflexivity. }
  rewrite EX, AR1, AP1. cbn [bind].
  assert (SP : selected_policies (e_model e) ev1 = Throw StdLogicError).
  { unfold selected_policies, p_indexed in *. rewrite AP1 in *. cbn [bind] in *.
    destruct (a_policy ap); [discriminate|]. rewrite AR1. cbn [bind]. rewrite AR2.
    rewrite (requested_missing _ rf f); auto.
    - apply in_combine_l in J. auto.
    - apply requestValues_missing; [rewrite PV; auto|]. intros x H. rewrite PV in H. destruct (V0 x H) as [g [-> _]]. eauto. }
  rewrite SP. cbn [bind]. exists ev1. split; auto.
  apply funs_current_fits; auto.
  - intros x H. rewrite PV in H. apply (f_vars _ _ _ _ _ F0); auto.
Qed.
