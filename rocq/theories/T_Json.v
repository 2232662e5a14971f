(** Property C106: requests some of whose values are JSON documents. *)
From Verif Require Import Base P_Base M_Util M_RoleManager M_Effector M_Model M_Persist M_Eval M_Evaluator M_Enforcer M_Matcher
  S_Effect S_Enforce S_Json P_Effect P_Enforce P_Decide P_MapRequest P_Json E_Examples.

(** Once a complete request was asked, and after any further requests, the matcher sees
    for a JSON document the value that its field had in the request before: the answer is
    that of the request in which each document is replaced by that value. *)
Theorem C106_previous : forall o e rf pf eft mat m0 req0 qs before matcher ds req,
  oracle_ext o -> ready o e rf pf eft mat -> List.length req0 = List.length rf ->
  carried req0 qs before -> filled before ds req ->
  Forall (fun m => texts_ok (chosen m mat) pf (p_rules (e_model e))) (m0 :: matcher :: map fst qs) ->
  snd (EnforceExWithMatcher o matcher ds (ask_json o ((m0, map DStr req0) :: qs) e)) =
  snd (EnforceExWithMatcher o matcher (map DStr req) e).
Proof.
  intros o e rf pf eft mat m0 req0 qs before matcher ds req X R L C FI T.
  inversion T as [|? ? T0 T']; subst. inversion T' as [|? ? T1 T2]; subst.
  destruct (position_spec o e rf pf eft mat m0 req0 X R L (texts_candidates _ _ _ _ T0)) as [ev0 [E0 [F0 H0]]].
  cbn [ask_json]. rewrite E0. cbn [fst].
  destruct (json_history o rf pf eft mat qs req0 (set_ev (Some ev0) e) before X (ready_ev _ _ _ _ _ _ _ R F0) L H0 C) as [ev1 [E1 [F1 H1]]].
  { apply Forall_forall. intros q I. rewrite Forall_forall in T2. apply (T2 (fst q)). apply in_map; auto. }
  rewrite E1. pose proof (carried_length _ _ _ C) as LB. destruct (filled_length _ _ _ FI) as [_ LR].
  destruct (json_spec o (set_ev (Some ev1) (set_ev (Some ev0) e)) rf pf eft mat matcher before ds req X
    (ready_ev _ _ _ _ _ _ _ (ready_ev _ _ _ _ _ _ _ R F0) F1)) as [ev2 [E2 _]]; auto.
  { congruence. }
  { apply texts_candidates; auto. }
  rewrite E2. cbn [snd]. rewrite !outcome_ev.
  destruct (position_spec o e rf pf eft mat matcher req X R) as [ev3 [E3 _]]; [congruence|apply texts_candidates; auto|].
  rewrite E3. auto.
Qed.
Print Assumptions C106_previous.

(** So a document in a field that the matcher does not look at is harmless: the answer is
    that of the request with any strings in place of the documents. *)
Theorem C106_harmless : forall o e rf pf eft mat m0 req0 qs before matcher ds req,
  oracle_ext o -> ready o e rf pf eft mat -> List.length req0 = List.length rf -> carried req0 qs before ->
  List.length ds = List.length rf -> agrees ds req ->
  p_indexed (e_model e) = false -> HasEval (chosen matcher mat) = false ->
  (forall f, In (f, DJson) (combine rf ds) -> ignores o (chosen matcher mat) ("r." ++ f)%string) ->
  Forall (fun m => texts_ok (chosen m mat) pf (p_rules (e_model e))) (m0 :: matcher :: map fst qs) ->
  snd (EnforceExWithMatcher o matcher ds (ask_json o ((m0, map DStr req0) :: qs) e)) =
  snd (EnforceExWithMatcher o matcher (map DStr req) e).
Proof.
  intros o e rf pf eft mat m0 req0 qs before matcher ds req X R L C LD A PI HE IG T.
  pose proof (carried_length _ _ _ C) as LB.
  destruct (filled_exists before ds) as [req1 FI]; [congruence|].
  rewrite (C106_previous o e rf pf eft mat m0 req0 qs before matcher ds req1 X R L C FI T).
  inversion T as [|? ? T0 T']; subst. inversion T' as [|? ? T1 T2]; subst.
  destruct (filled_length _ _ _ FI) as [_ LR].
  destruct (position_spec o e rf pf eft mat matcher req1 X R) as [ev1 [E1 _]]; [congruence|apply texts_candidates; auto|].
  destruct (position_spec o e rf pf eft mat matcher req X R) as [ev2 [E2 _]].
  { rewrite <- LD. symmetry. eapply Forall2_len; eauto. }
  { apply texts_candidates; auto. }
  rewrite E1, E2. cbn [snd].
  eapply outcome_off with (fs := json_fields rf ds); eauto.
  - intros f I. apply IG. apply json_fields_in; auto.
  - eapply filled_agrees; eauto. congruence.
Qed.
Print Assumptions C106_harmless.

(** On an enforcer that was asked nothing yet, a document in a field that the matcher
    needs throws. *)
Theorem C106_first_throws : forall o e rf pf eft mat matcher ds r0 rest f,
  declares (e_model e) rf pf eft mat -> e_ev e = None -> e_enabled e = true -> p_indexed (e_model e) = false ->
  p_rules (e_model e) = r0 :: rest -> List.length r0 = List.length pf -> HasEval (chosen matcher mat) = false ->
  chosen matcher mat <> "" -> List.length ds = List.length rf -> In (f, DJson) (combine rf ds) ->
  requires o (chosen matcher mat) ("r." ++ f)%string ->
  snd (EnforceExWithMatcher o matcher ds e) = Throw ThrownString.
Proof.
  intros o e rf pf eft mat matcher ds r0 rest f D EV EN PI PR L0 HE NE LD J RQ.
  destruct (first_fails o e rf pf eft mat matcher ds r0 rest f D EV EN PI PR L0 HE NE LD J RQ) as [ev [-> _]]. auto.
Qed.
Print Assumptions C106_first_throws.

(** And from then on every request with this matcher throws, however often it is asked and
    although it has strings in all fields. *)
Theorem C106_sticks : forall o e rf pf eft mat matcher ds r0 rest f dss req,
  declares (e_model e) rf pf eft mat -> e_ev e = None -> e_enabled e = true -> p_indexed (e_model e) = false ->
  p_rules (e_model e) = r0 :: rest -> List.length r0 = List.length pf -> HasEval (chosen matcher mat) = false ->
  chosen matcher mat <> "" -> List.length ds = List.length rf -> In (f, DJson) (combine rf ds) ->
  requires o (chosen matcher mat) ("r." ++ f)%string -> List.length req = List.length rf ->
  snd (EnforceExWithMatcher o matcher (map DStr req)
        (ask_json o (map (fun d => (matcher, d)) (ds :: dss)) e)) = Throw ThrownString.
Proof.
  intros o e rf pf eft mat matcher ds r0 rest f dss req D EV EN PI PR L0 HE NE LD J RQ LR.
  destruct (first_fails o e rf pf eft mat matcher ds r0 rest f D EV EN PI PR L0 HE NE LD J RQ) as [ev [E [A B]]].
  cbn [map ask_json]. rewrite E. cbn [fst].
  destruct (stuck_history o rf pf eft mat r0 rest matcher dss (set_ev (Some ev) e)) as [ev1 [E1 S1]]; auto.
  { exists ev. auto. }
  rewrite E1.
  destruct (stuck_fails o (set_ev (Some ev1) (set_ev (Some ev) e)) rf pf eft mat matcher (map DStr req) r0 rest) as [Q _]; auto.
  rewrite map_length. auto.
Qed.
Print Assumptions C106_sticks.

(** With the hash index the first such request throws too, whatever the matcher is, but
    this leaves no trace in the answers to requests of strings. *)
Theorem C106_indexed_throws : forall o e rf pf eft mat matcher ds f,
  declares (e_model e) rf pf eft mat -> e_ev e = None -> e_enabled e = true -> p_indexed (e_model e) = true ->
  List.length ds = List.length rf -> In (f, DJson) (combine rf ds) ->
  snd (EnforceExWithMatcher o matcher ds e) = Throw StdLogicError /\
  (forall req, oracle_ext o -> List.length req = List.length rf ->
     texts_ok (chosen matcher mat) pf (p_rules (e_model e)) ->
     snd (EnforceExWithMatcher o matcher (map DStr req) (fst (EnforceExWithMatcher o matcher ds e))) =
     snd (EnforceExWithMatcher o matcher (map DStr req) e)).
Proof.
  intros o e rf pf eft mat matcher ds f D EV EN PI LD J.
  destruct (indexed_throws o e rf pf eft mat matcher ds f D EV EN PI LD J) as [ev [E F]].
  rewrite E. cbn [fst snd]. split; auto. intros req X LR T.
  assert (R : ready o e rf pf eft mat) by (split; auto; rewrite EV; auto).
  destruct (position_spec o (set_ev (Some ev) e) rf pf eft mat matcher req X (ready_ev _ _ _ _ _ _ _ R F) LR (texts_candidates _ _ _ _ T)) as [ev1 [E1 _]].
  destruct (position_spec o e rf pf eft mat matcher req X R LR (texts_candidates _ _ _ _ T)) as [ev2 [E2 _]].
  rewrite E1, E2. reflexivity.
Qed.
Print Assumptions C106_indexed_throws.

(** One and the same request, on enforcers with the same model, policy and role links,
    has both answers: a document stands for whoever asked last. *)
Theorem C106_decision_refuted : exists e ds q1 q2,
  ready mini e f3 f3 "some(where (p.eft == allow))" basic_matcher /\
  Forall (fun q => List.length q = List.length f3) [q1; q2] /\
  snd (Enforce mini ds (fst (Enforce mini (reqs q1) e))) = Ok true /\
  snd (Enforce mini ds (fst (Enforce mini (reqs q2) e))) = Ok false /\
  snd (Enforce mini ds e) = Throw ThrownString.
Proof.
  exists (boot (basic_model [["alice"; "data1"; "read"]])), [DJson; DStr "data1"; DStr "read"],
    ["alice"; "data2"; "write"], ["bob"; "data2"; "write"].
  split; [apply basic_ready|]. split; [repeat constructor|]. repeat split; vm_compute; reflexivity.
Qed.
Print Assumptions C106_decision_refuted.

Example C106_case :
  let e := boot (basic_model [["alice"; "data1"; "read"]]) in
  let qs := [("r.act == 'read'", [DJson; DStr "data2"; DStr "read"]); ("", [DStr "alice"; DJson; DJson])] in
  let ds := [DJson; DStr "data1"; DJson] in
  ready mini e f3 f3 "some(where (p.eft == allow))" basic_matcher /\
  carried ["bob"; "data1"; "write"] qs ["alice"; "data2"; "read"] /\
  filled ["alice"; "data2"; "read"] ds ["alice"; "data1"; "read"] /\
  Forall (fun m => texts_ok (chosen m basic_matcher) f3 (p_rules (e_model e))) ("" :: "" :: map fst qs) /\
  snd (Enforce mini ds (ask_json mini (("", reqs ["bob"; "data1"; "write"]) :: qs) e)) = Ok true.
Proof.
  cbv zeta. split; [apply basic_ready|].
  split; [repeat econstructor|]. split; [repeat constructor|].
  split; [|vm_compute; reflexivity].
  repeat constructor; try discriminate; simpl; intros r H; destruct H as [<-|[]]; discriminate.
Qed.

Example C106_harmless_case :
  let e := boot (basic_model [["alice"; "data1"; "read"]]) in
  let ds := [DJson; DJson; DStr "read"] in
  p_indexed (e_model e) = false /\ HasEval (chosen "r.act == 'read'" basic_matcher) = false /\
  agrees ds ["anyone"; "anything"; "read"] /\
  (forall f, In (f, DJson) (combine f3 ds) -> ignores mini (chosen "r.act == 'read'" basic_matcher) ("r." ++ f)%string) /\
  snd (EnforceWithMatcher mini "r.act == 'read'" ds (ask_json mini [("", reqs ["bob"; "data1"; "write"])] e)) = Ok true.
Proof.
  cbv zeta. split; [reflexivity|]. split; [reflexivity|]. split.
  { unfold agrees. apply Forall2_cons; [right; reflexivity|]. apply Forall2_cons; [right; reflexivity|].
    apply Forall2_cons; [left; reflexivity|]. apply Forall2_nil. }
  split; [|vm_compute; reflexivity].
  assert (V : forall v g, o_value mini "r.act == 'read'" v g = Ok (String.eqb (term_val v (TmVar "r.act")) "read")).
  { intros v g. vm_compute. reflexivity. }
  intros f I. unfold chosen. change (String.eqb "r.act == 'read'" "") with false. cbv iota. intros v w g A. rewrite !V.
  assert (E : v "r.act" = w "r.act").
  { apply A. destruct I as [I|[I|[I|[]]]]; inversion I; subst; discriminate. }
  unfold term_val. rewrite E. reflexivity.
Qed.

Example C106_first_case :
  let e := boot (basic_model [["alice"; "data1"; "read"]]) in
  let ds := [DJson; DStr "data1"; DStr "read"] in
  declares (e_model e) f3 f3 "some(where (p.eft == allow))" basic_matcher /\ e_ev e = None /\ e_enabled e = true /\
  p_indexed (e_model e) = false /\ p_rules (e_model e) = [["alice"; "data1"; "read"]] /\
  HasEval (chosen "" basic_matcher) = false /\ In ("sub", DJson) (combine f3 ds) /\
  requires mini (chosen "" basic_matcher) "r.sub" /\
  snd (Enforce mini (reqs ["alice"; "data1"; "read"]) e) = Ok true /\
  snd (Enforce mini (reqs ["alice"; "data1"; "read"]) (fst (Enforce mini ds e))) = Throw ThrownString.
Proof.
  cbv zeta. split; [apply (basic_ready mini [["alice"; "data1"; "read"]])|].
  repeat (split; [reflexivity|]). split; [left; reflexivity|]. split; [|split; vm_compute; reflexivity].
  intros vars arity H. vm_compute. rewrite H. reflexivity.
Qed.

Example C106_indexed_case :
  let e := boot (basic_hash_model [["alice"; "data1"; "read"]]) in
  let ds := [DJson; DStr "data1"; DStr "read"] in
  declares (e_model e) f3 f3 "some(where (p.eft == allow))" basic_matcher /\ p_indexed (e_model e) = true /\
  In ("sub", DJson) (combine f3 ds) /\ texts_ok (chosen "" basic_matcher) f3 (p_rules (e_model e)) /\
  snd (Enforce mini ds e) = Throw StdLogicError /\
  snd (Enforce mini (reqs ["alice"; "data1"; "read"]) (fst (Enforce mini ds e))) = Ok true.
Proof.
  cbv zeta. split; [apply (basic_hash_ready mini [["alice"; "data1"; "read"]])|].
  split; [reflexivity|]. split; [left; reflexivity|].
  split; [|split; vm_compute; reflexivity].
  split; [discriminate|]. simpl. intros r H. destruct H as [<-|[]]; discriminate.
Qed.
