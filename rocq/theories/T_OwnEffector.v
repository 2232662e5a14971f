(** Property C83: enforcement with an effector of the caller. *)
From Coq Require Import ZArith.
From Verif Require Import Base P_Base M_Util M_RoleManager M_Effector M_Model M_Persist M_Eval M_Evaluator M_Enforcer M_Matcher M_OwnEffector
  S_Effect S_Enforce S_OwnEffector P_Effect P_Enforce P_Decide P_OwnEffector E_Examples.

Lemma results_outcomes : forall o e rf pf mat matcher req os, results o e rf pf mat matcher req os ->
  Forall2 (fun r oc => rule_outcome o (e_model e) (e_heap e) rf pf (chosen matcher mat) req r = Ok oc) (candidates (e_model e) req) os.
Proof.
  intros o e rf pf mat matcher req os H. unfold results in H. induction H as [|r [b x] l os [A B] F IH]; constructor; auto.
  unfold rule_outcome. cbn [fst snd] in *. rewrite A, B. reflexivity.
Qed.

(** With the default effector this is the enforcement of the other properties. *)
Theorem C83_default : forall o e matcher params,
  EnforceExWithMatcher_own o unit default_effector matcher params e tt =
  (fst (EnforceExWithMatcher o matcher params e), tt, snd (EnforceExWithMatcher o matcher params e)).
Proof. intros. rewrite default_enforce. destruct (EnforceExWithMatcher o matcher params e); auto. Qed.

(** The effector is asked once for every rule in order, with the results so far, until it
    decides; its last answer is the decision, and its index selects the explanation. *)
Theorem C83_decision : forall o St (eff : effector St) e rf pf eft mat matcher req os st0 k st r x,
  oracle_ext o -> asked o e rf pf eft mat matcher req -> results o e rf pf mat matcher req os ->
  final eff eft os st0 k st r (Some x) ->
  exists ev b, EnforceExWithMatcher_own o St eff matcher (map DStr req) e st0 =
      (set_ev (Some ev) e, st, Ok (b, rule_at (candidates (e_model e) req) x)) /\ (b = true <-> r = Allow).
Proof.
  intros o St eff e rf pf eft mat matcher req os st0 k st r x X A R F. apply results_outcomes in R.
  destruct (own_enforce St eff o e rf pf eft mat matcher req os st0 X A R) as [ev [E _]].
  rewrite (consult_final _ _ _ _ _ _ _ _ _ (UB Uninitialised) F) in E. exists ev, (effect_eqb r Allow). split; [|destruct r; simpl; intuition congruence].
  rewrite E. cbn [fst snd bind]. unfold decide_own. cbn [fst snd]. do 3 f_equal. unfold rule_at.
  destruct (x <? 0)%Z; auto. destruct (nth_error (candidates (e_model e) req) (Z.to_nat x)) eqn:N.
  - symmetry. apply nth_error_nth. auto.
  - symmetry. apply nth_overflow. apply nth_error_None. auto.
Qed.
(** The evaluator left behind serves later requests. *)
Theorem C83_stays_ready : forall o St (eff : effector St) e rf pf eft mat matcher req os st0,
  oracle_ext o -> asked o e rf pf eft mat matcher req -> results o e rf pf mat matcher req os ->
  ready o (fst (fst (EnforceExWithMatcher_own o St eff matcher (map DStr req) e st0))) rf pf eft mat.
Proof.
  intros o St eff e rf pf eft mat matcher req os st0 X A R. apply results_outcomes in R.
  destruct (own_enforce St eff o e rf pf eft mat matcher req os st0 X A R) as [ev [E F]]. rewrite E. cbn [fst].
  destruct A as [[D _] _ _ _ _]. split; auto.
Qed.
(** An effector that never throws always gets to a last answer. *)
Theorem C83_comes_to_end : forall St (eff : effector St) eft os st0, os <> [] ->
  (forall st effs ms i n x, exists st' r x', eff st eft effs ms i n x = (st', Ok (r, x'))) ->
  exists k st r x, final eff eft os st0 k st r x.
Proof. intros. apply comes_to_end; auto. Qed.
(** What the effector throws, the caller gets. *)
Theorem C83_throws : forall o St (eff : effector St) e rf pf eft mat matcher req os st0 k st x st' t,
  oracle_ext o -> asked o e rf pf eft mat matcher req -> results o e rf pf mat matcher req os ->
  asked_up_to eff eft os st0 k st Indeterminate x -> S k < List.length os ->
  eff st eft (shown_effects os (S k)) (shown_matches os (S k)) (S k) (List.length os) x = (st', Throw t) ->
  exists ev, EnforceExWithMatcher_own o St eff matcher (map DStr req) e st0 = (set_ev (Some ev) e, st', Throw t).
Proof.
  intros o St eff e rf pf eft mat matcher req os st0 k st x st' t X A R Q L E. apply results_outcomes in R.
  destruct (own_enforce St eff o e rf pf eft mat matcher req os st0 X A R) as [ev [E' _]].
  rewrite (consult_fails _ _ _ _ _ _ _ _ _ _ Q L E) in E' by discriminate. eauto.
Qed.

(** Without rules it is asked once: about the matcher with empty values for the rule. *)
Theorem C83_no_rules : forall o St (eff : effector St) e rf pf eft mat matcher req st0 b st r x,
  oracle_ext o -> ready o e rf pf eft mat -> e_enabled e = true -> List.length req = List.length rf ->
  candidates (e_model e) req = [] -> HasEval (chosen matcher mat) = false -> chosen matcher mat <> "" ->
  verdict o (e_model e) (e_heap e) rf pf (chosen matcher mat) req (map (fun _ => "") pf) = Ok b ->
  eff st0 eft [if b then Allow else Indeterminate] [true] 0 1 None = (st, Ok (r, Some x)) ->
  exists ev b', EnforceExWithMatcher_own o St eff matcher (map DStr req) e st0 = (set_ev (Some ev) e, st, Ok (b', [])) /\ (b' = true <-> r = Allow).
Proof.
  intros o St eff e rf pf eft mat matcher req st0 b st r x X RE EN L CN HE NE V E.
  destruct (own_empty St eff o e rf pf eft mat matcher req st0 X RE EN L CN HE NE) as [ev ->].
  unfold verdict, matcher_text, rule_expression in V. rewrite map_length, Nat.eqb_refl, HE in V. cbn [negb bind] in V.
  destruct (o_compiles o (chosen matcher mat) (known_vars rf pf) (role_arity (e_model e))); [|discriminate]. rewrite V, E.
  exists ev, (effect_eqb r Allow). split; [|destruct r; simpl; intuition congruence]. cbn [bind]. unfold decide_own. cbn [fst snd].
  destruct (x <? 0)%Z; auto. destruct (Z.to_nat x); reflexivity.
Qed.

(** An example: at least two allowing rules must match; the state counts all questions. *)
Definition count_allow (effs : list effect) (ms : list bool) : nat :=
  List.length (List.filter (fun p => snd p && effect_eqb (fst p) Allow) (combine effs ms)).
Definition two_needed : effector nat :=
  fun st _ effs ms idx len _ =>
    if Nat.leb 2 (count_allow effs ms) then (S st, Ok (Allow, Some (Z.of_nat idx)))
    else if Nat.eqb (S idx) len then (S st, Ok (Deny, Some (-1)%Z)) else (S st, Ok (Indeterminate, Some (-1)%Z)).
Definition votes : enforcer := boot (basic_model [["alice"; "data1"; "read"]; ["bob"; "data2"; "read"]; ["carol"; "data1"; "read"]; ["dave"; "data1"; "read"]]).
Definition same_object := "r.obj == p.obj".
Definition vote_results : list outcome := [(true, Allow); (false, Allow); (true, Allow); (true, Allow)].
Lemma votes_asked : asked mini votes f3 f3 (effect_text AllowOverride) basic_matcher same_object ["x"; "data1"; "read"].
Proof.
  constructor; try reflexivity; try discriminate.
  - split; [|exact Logic.I]. prove_declares.
  - split; [discriminate|]. intros r I. vm_compute in I. repeat destruct I as [<-|I]; try destruct I; vm_compute; discriminate.
Qed.
Example C83_case : oracle_ext mini /\ asked mini votes f3 f3 (effect_text AllowOverride) basic_matcher same_object ["x"; "data1"; "read"] /\
  results mini votes f3 f3 basic_matcher same_object ["x"; "data1"; "read"] vote_results /\
  final two_needed (effect_text AllowOverride) vote_results 0 2 3 Allow (Some 2%Z) /\
  snd (EnforceExWithMatcher_own mini nat two_needed same_object (reqs ["x"; "data1"; "read"]) votes 0) = Ok (true, ["carol"; "data1"; "read"]) /\
  snd (fst (EnforceExWithMatcher_own mini nat two_needed same_object (reqs ["x"; "data1"; "read"]) votes 0)) = 3 /\
  snd (EnforceExWithMatcher_own mini nat two_needed same_object (reqs ["x"; "data2"; "read"]) votes 0) = Ok (false, []).
Proof.
  split; [apply mini_ext|]. split; [apply votes_asked|].
  split. { unfold results, vote_results. change (candidates (e_model votes) ["x"; "data1"; "read"]) with
      [["alice"; "data1"; "read"]; ["bob"; "data2"; "read"]; ["carol"; "data1"; "read"]; ["dave"; "data1"; "read"]].
    repeat (apply Forall2_cons; [split; vm_compute; reflexivity|]). apply Forall2_nil. }
  split. { split; [|left; discriminate]. eapply asked_next; [|simpl; lia|reflexivity].
    eapply asked_next; [|simpl; lia|reflexivity]. apply asked_first; [simpl; lia|reflexivity]. }
  repeat split; vm_compute; reflexivity.
Qed.

Example C83_throws_case : exists eff : effector nat, asked_up_to eff (effect_text AllowOverride) vote_results 0 0 1 Indeterminate (Some (-1)%Z) /\
  eff 1 (effect_text AllowOverride) (shown_effects vote_results 1) (shown_matches vote_results 1) 1 4 (Some (-1)%Z) = (1, Throw UnsupportedOperation) /\
  snd (EnforceExWithMatcher_own mini nat eff same_object (reqs ["x"; "data1"; "read"]) votes 0) = Throw UnsupportedOperation.
Proof.
  exists (fun st _ _ _ idx _ _ => match idx with 0 => (S st, Ok (Indeterminate, Some (-1)%Z)) | _ => (st, Throw UnsupportedOperation) end).
  split; [apply asked_first; [simpl; lia|reflexivity]|]. split; vm_compute; reflexivity.
Qed.
Example C83_no_rules_case : ready mini (boot (basic_model [])) f3 f3 (effect_text AllowOverride) basic_matcher /\
  candidates (e_model (boot (basic_model []))) [""; ""; ""] = [] /\
  verdict mini (e_model (boot (basic_model []))) (e_heap (boot (basic_model []))) f3 f3 (chosen "" basic_matcher) [""; ""; ""] ["";"";""] = Ok true /\
  snd (EnforceExWithMatcher_own mini nat two_needed "" (reqs [""; ""; ""]) (boot (basic_model [])) 0) = Ok (false, []).
Proof. split; [split; [prove_declares|exact Logic.I]|]. repeat split; vm_compute; reflexivity. Qed.

(** An effector that leaves the explain index alone makes the enforcer read an uninitialised
    variable. *)
Theorem C83_index_unset_refuted : exists (eff : effector unit),
  (forall st expr effs ms i n x, eff st expr effs ms i n x = (st, Ok (Allow, x))) /\
  snd (EnforceExWithMatcher_own mini unit eff same_object (reqs ["x"; "data1"; "read"]) votes tt) = UB Uninitialised.
Proof. exists (fun st _ _ _ _ _ x => (st, Ok (Allow, x))). split; [reflexivity|vm_compute; reflexivity]. Qed.

Print Assumptions C83_default.
Print Assumptions C83_decision.
Print Assumptions C83_stays_ready.
Print Assumptions C83_comes_to_end.
Print Assumptions C83_throws.
Print Assumptions C83_no_rules.
Print Assumptions C83_index_unset_refuted.
