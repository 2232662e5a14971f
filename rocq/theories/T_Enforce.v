(** Theorems about decisions: C01 - C13.

    Vocabulary: S_Effect.v and S_Enforce.v.  [answerable ...] says that enforcement is
    on, the request has one value per declared field, there are candidate rules and the
    matcher has a truth value for each of them; [matches ... r] that it holds for [r]. *)
From Coq Require Import Permutation.
From Verif Require Import Base P_Base M_Util M_RoleManager M_Effector M_Model M_Persist M_Eval M_Evaluator M_Enforcer M_Matcher.
From Verif Require Import S_Effect S_Enforce P_Effect P_Enforce P_Decide E_Examples.

(** ** C01 Allow-override *)
Theorem C01_allow_override : forall o e rf pf mat matcher req,
  oracle_ext o -> answerable o e rf pf "some(where (p.eft == allow))" mat matcher req ->
  exists b, snd (EnforceWithMatcher o matcher (map DStr req) e) = Ok b /\
    (b = true <-> exists r, In r (candidates (e_model e) req) /\
                    matches o e rf pf mat matcher req r /\ effect_of pf r = Allow).
Proof.
  intros o e rf pf mat matcher req X A.
  destruct (enforce_permits o e rf pf mat matcher req AllowOverride X A) as [b [E P]].
  exists b. split; auto. rewrite P. simpl. apply in_hit.
Qed.
Print Assumptions C01_allow_override.

(** ** C02 Deny-override *)
Theorem C02_deny_override : forall o e rf pf mat matcher req,
  oracle_ext o -> answerable o e rf pf "!some(where (p.eft == deny))" mat matcher req ->
  exists b, snd (EnforceWithMatcher o matcher (map DStr req) e) = Ok b /\
    (b = false <-> exists r, In r (candidates (e_model e) req) /\
                     matches o e rf pf mat matcher req r /\ effect_of pf r = Deny).
Proof.
  intros o e rf pf mat matcher req X A.
  destruct (enforce_permits o e rf pf mat matcher req DenyOverride X A) as [b [E P]].
  exists b. split; auto. rewrite <- in_hit. simpl in P.
  destruct (in_dec (fun a b => effect_dec a b) (true, Deny)
              (map (outc o e rf pf mat matcher req) (candidates (e_model e) req))) as [I|I];
    destruct b; split; intros; auto; try congruence; try tauto.
  exfalso. apply I. destruct P as [_ P]. exfalso. assert (false = true) by auto. congruence.
Qed.
Print Assumptions C02_deny_override.

(** ** C03 Allow-and-deny *)
Theorem C03_allow_and_deny : forall o e rf pf mat matcher req,
  oracle_ext o ->
  answerable o e rf pf "some(where (p.eft == allow)) && !some(where (p.eft == deny))" mat matcher req ->
  exists b, snd (EnforceWithMatcher o matcher (map DStr req) e) = Ok b /\
    (b = true <->
       (exists r, In r (candidates (e_model e) req) /\
          matches o e rf pf mat matcher req r /\ effect_of pf r = Allow) /\
       ~ (exists r, In r (candidates (e_model e) req) /\
          matches o e rf pf mat matcher req r /\ effect_of pf r = Deny)).
Proof.
  intros o e rf pf mat matcher req X A.
  destruct (enforce_permits o e rf pf mat matcher req AllowAndDeny X A) as [b [E P]].
  exists b. split; auto. rewrite P. simpl. rewrite <- !in_hit. reflexivity.
Qed.
Print Assumptions C03_allow_and_deny.

(** ** C04 Priority: the first matching rule that says allow or deny decides *)
Theorem C04_priority : forall o e rf pf mat matcher req,
  oracle_ext o -> answerable o e rf pf "priority(p.eft) || deny" mat matcher req ->
  exists b, snd (EnforceWithMatcher o matcher (map DStr req) e) = Ok b /\
    (b = true <-> exists pre r post, candidates (e_model e) req = pre ++ r :: post /\
       matches o e rf pf mat matcher req r /\ effect_of pf r = Allow /\
       forall r', In r' pre -> matches o e rf pf mat matcher req r' -> effect_of pf r' = Indeterminate).
Proof.
  intros o e rf pf mat matcher req X A.
  destruct (enforce_permits o e rf pf mat matcher req Priority X A) as [b [E P]].
  exists b. split; auto. rewrite P. apply priority_rules.
Qed.
Print Assumptions C04_priority.

(** The hypotheses are met: a policy of four rules with effects, for each of the four
    effect definitions. *)
Definition ex_rules : list rule :=
  [["bob"; "data2"; "write"; "allow"]; ["alice"; "data1"; "read"; "maybe"];
   ["alice"; "data1"; "read"; "allow"]; ["alice"; "data1"; "read"; "deny"]].

Lemma ex_answerable : forall pe,
  answerable mini (boot (eft_model (effect_text pe) ex_rules)) f3 f4 (effect_text pe) basic_matcher ""
             ["alice"; "data1"; "read"].
Proof.
  intros pe. split.
  - constructor; try reflexivity.
    + apply eft_ready.
    + discriminate.
    + split; [discriminate|]. simpl. intros r H. in_cases; discriminate.
  - simpl. intros r H. in_cases; eexists; vm_compute; reflexivity.
Qed.

Example C01_case : snd (Enforce mini (reqs ["alice"; "data1"; "read"])
                          (boot (eft_model (effect_text AllowOverride) ex_rules))) = Ok true.
Proof. vm_compute. reflexivity. Qed.
Example C02_case : snd (Enforce mini (reqs ["alice"; "data1"; "read"])
                          (boot (eft_model (effect_text DenyOverride) ex_rules))) = Ok false.
Proof. vm_compute. reflexivity. Qed.
Example C03_case : snd (Enforce mini (reqs ["alice"; "data1"; "read"])
                          (boot (eft_model (effect_text AllowAndDeny) ex_rules))) = Ok false.
Proof. vm_compute. reflexivity. Qed.
Example C04_case : snd (Enforce mini (reqs ["alice"; "data1"; "read"])
                          (boot (eft_model (effect_text Priority) ex_rules))) = Ok true.
Proof. vm_compute. reflexivity. Qed.

(** ** C05 Unknown effect texts *)
Theorem C05_unknown_effect : forall o e rf pf eft mat matcher req,
  oracle_ext o -> asked o e rf pf eft mat matcher req ->
  eft <> "some(where (p.eft == allow))" -> eft <> "!some(where (p.eft == deny))" ->
  eft <> "some(where (p.eft == allow)) && !some(where (p.eft == deny))" -> eft <> "priority(p.eft) || deny" ->
  (forall d, snd (EnforceExWithMatcher o matcher (map DStr req) e) <> Ok d) /\
  (forall r rest b, candidates (e_model e) req = r :: rest ->
     verdict o (e_model e) (e_heap e) rf pf (chosen matcher mat) req r = Ok b ->
     snd (EnforceExWithMatcher o matcher (map DStr req) e) = Throw UnsupportedOperation).
Proof.
  intros o e rf pf eft mat matcher req X A H1 H2 H3 H4.
  destruct (unknown_effect o e rf pf eft mat matcher req X A) as [t [<- [N U]]].
  - intros []; simpl; auto.
  - split; auto.
Qed.
Print Assumptions C05_unknown_effect.

Example C05_case : asked mini (boot (eft_model "any(p.eft)" ex_rules)) f3 f4 "any(p.eft)" basic_matcher ""
                         ["alice"; "data1"; "read"].
Proof.
  constructor; try reflexivity.
  - apply eft_ready.
  - discriminate.
  - split; [discriminate|]. simpl. intros r H. in_cases; discriminate.
Qed.

(** ** C06 Explanations *)
Theorem C06_explanation_sound : forall o e rf pf pe mat matcher req,
  oracle_ext o -> answerable o e rf pf (effect_text pe) mat matcher req ->
  let out := map (fun r => (holds o e rf pf mat matcher req r, effect_of pf r)) (candidates (e_model e) req) in
  exists b x, snd (EnforceExWithMatcher o matcher (map DStr req) e) = Ok (b, x) /\
    ((x = [] /\ forall r, In r (candidates (e_model e) req) ->
        ~ reason pe out (holds o e rf pf mat matcher req r, effect_of pf r))
     \/ (exists pre post, candidates (e_model e) req = pre ++ x :: post /\
          In x (p_rules (e_model e)) /\
          matches o e rf pf mat matcher req x /\
          (effect_of pf x = if b then Allow else Deny) /\
          forall r, In r pre -> ~ reason pe out (holds o e rf pf mat matcher req r, effect_of pf r))).
Proof.
  intros o e rf pf pe mat matcher req X [[R EN L NE T] V] out.
  destruct (decision_good o e rf pf mat matcher req pe X R EN L T NE V) as [b [x [E [P Q]]]].
  exists b, x. split; auto. change out with (map (outc o e rf pf mat matcher req) (candidates (e_model e) req)).
  destruct Q as [[-> F]|[pre [post [C [RS F]]]]].
  - left. split; auto. rewrite Forall_forall in F. exact F.
  - right. exists pre, post. rewrite Forall_forall in F.
    assert (IX : In x (candidates (e_model e) req)) by (rewrite C; apply in_app_iff; simpl; auto).
    assert (B : outc o e rf pf mat matcher req x = (true, if b then Allow else Deny)).
    { assert (IO : In (outc o e rf pf mat matcher req x) (map (outc o e rf pf mat matcher req) (candidates (e_model e) req)))
        by (apply in_map; auto).
      destruct pe; simpl in RS, P.
      - rewrite RS in *. replace b with true; auto. symmetry. tauto.
      - rewrite RS in *. replace b with false; auto. destruct b; auto. exfalso. tauto.
      - destruct RS as [RS|[RS ND]]; rewrite RS in *.
        + replace b with false; auto. destruct b; auto. exfalso. tauto.
        + replace b with true; auto. symmetry. tauto.
      - destruct RS as [D1 D2].
        destruct (outc o e rf pf mat matcher req x) as [hb he] eqn:OX. simpl in D1, D2. subst hb. f_equal.
        destruct b.
        + destruct P as [P _]. destruct (P eq_refl) as [p1 [p2 [S1 S2]]].
          destruct (map_split _ _ _ _ _ _ _ S1) as [l1 [y [l2 [M1 [M2 [M3 M4]]]]]].
          assert (l1 = pre /\ y = x) as [-> ->].
          { rewrite C in M1. clear - M1 M2 M3 F S2 OX D2. revert pre F M1 p1 M2 S2.
            induction l1 as [|a l1 IH]; intros.
            - destruct pre; simpl in M1; inversion M1; subst; auto.
              exfalso. apply (F y). { simpl; auto. } rewrite M3. split; simpl; congruence.
            - destruct pre as [|c pre]; simpl in M1; inversion M1; subst.
              + exfalso. simpl in S2. inversion S2; subst. apply H1. rewrite OX. split; simpl; auto.
              + simpl in S2. inversion S2; subst. destruct (IH pre) with (p1 := map (outc o e rf pf mat matcher req) l1) as [-> ->]; auto.
                intros; apply F; simpl; auto. }
          congruence.
        + destruct he; auto; [|congruence]. exfalso.
          assert (false = true); [|discriminate]. apply P.
          exists (map (outc o e rf pf mat matcher req) pre), (map (outc o e rf pf mat matcher req) post). split.
          * rewrite C, map_app. simpl. rewrite OX. reflexivity.
          * rewrite Forall_map, Forall_forall. intros r I. apply (F r I). }
    apply outc_hit in B. destruct B as [B1 B2].
    repeat split; auto. apply candidates_stored with req. auto.
Qed.
Print Assumptions C06_explanation_sound.

Example C06_case : snd (EnforceEx mini (reqs ["alice"; "data1"; "read"])
                          (boot (eft_model (effect_text DenyOverride) ex_rules)))
                   = Ok (false, ["alice"; "data1"; "read"; "deny"]).
Proof. vm_compute. reflexivity. Qed.

(** ** C07 Disabled enforcement *)
Theorem C07_disabled_allows_partial : forall o e rf pf eft mat matcher req,
  ready o e rf pf eft mat -> List.length req = List.length rf ->
  snd (EnforceWithMatcher o matcher (map DStr req) (fst (EnableEnforce false e))) = Ok true.
Proof.
  intros o e rf pf eft mat matcher req R L.
  assert (R' : ready o (set_enabled false e) rf pf eft mat) by exact R.
  simpl. rewrite snd_EnforceWithMatcher. unfold EnforceExWithMatcher.
  destruct R' as [D F]. pose proof D as [[ra [G TK]] _ _ _ ND _ SY _ _]. rewrite G, TK, !map_length, L, Nat.eqb_refl.
  cbn [negb]. rewrite push_r_ok by auto. cbn. reflexivity.
Qed.
Print Assumptions C07_disabled_allows_partial.

(** Not for requests of the wrong length: those are denied even when enforcement is off. *)
Theorem C07_disabled_allows_refuted : exists e req,
  e_enabled e = false /\ snd (Enforce mini (reqs req) e) = Ok false.
Proof.
  exists (fst (EnableEnforce false (boot (basic_model [])))), ["alice"; "data1"].
  split; vm_compute; reflexivity.
Qed.
Print Assumptions C07_disabled_allows_refuted.

(** ** C08 Default deny *)
Theorem C08_no_match_denied_partial : forall o e rf pf mat matcher req,
  oracle_ext o -> answerable o e rf pf "some(where (p.eft == allow))" mat matcher req ->
  (forall r, In r (candidates (e_model e) req) -> ~ matches o e rf pf mat matcher req r) ->
  snd (EnforceWithMatcher o matcher (map DStr req) e) = Ok false.
Proof.
  intros o e rf pf mat matcher req X A N.
  destruct (C01_allow_override o e rf pf mat matcher req X A) as [b [E B]].
  rewrite E. destruct b; auto. exfalso. destruct B as [B _]. destruct (B eq_refl) as [r [I [M _]]].
  apply (N r I M).
Qed.
Print Assumptions C08_no_match_denied_partial.

(** With no candidate rule the matcher is evaluated with every policy field empty, and
    its value is the decision. *)
Theorem C08_empty_policy_partial : forall o e rf pf mat matcher req,
  oracle_ext o -> ready o e rf pf "some(where (p.eft == allow))" mat -> e_enabled e = true ->
  List.length req = List.length rf -> chosen matcher mat <> "" ->
  candidates (e_model e) req = [] ->
  snd (EnforceWithMatcher o matcher (map DStr req) e) = Ok true <->
  HasEval (chosen matcher mat) = false /\
  o_compiles o (chosen matcher mat) (known_vars rf pf) (role_arity (e_model e)) = true /\
  o_value o (chosen matcher mat) (env rf req pf (map (fun _ => "") pf)) (role_fun (e_model e) (e_heap e)) = Ok true.
Proof.
  intros o e rf pf mat matcher req X R EN L NE C.
  destruct (enforce_spec o e rf pf "some(where (p.eft == allow))" mat matcher req X R L) as [ev' [E _]].
  { split; auto. rewrite C. simpl. tauto. }
  rewrite snd_EnforceWithMatcher, E. cbn [snd]. unfold enforce_outcome. rewrite EN, C. cbn [negb].
  unfold empty_outcome. destruct (HasEval (chosen matcher mat)); [split; [discriminate|intuition discriminate]|].
  destruct (o_compiles o (chosen matcher mat) (known_vars rf pf) (role_arity (e_model e))); [|split; [discriminate|intuition discriminate]].
  destruct (o_value o (chosen matcher mat) (env rf req pf (map (fun _ => "") pf)) (role_fun (e_model e) (e_heap e))) as [[]|t|u];
    cbn; split; try discriminate; auto; intuition discriminate.
Qed.
Print Assumptions C08_empty_policy_partial.

(** So an empty policy allows the request of empty strings, with the standard model. *)
Theorem C08_default_deny_refuted :
  exists e, ready mini e f3 f3 "some(where (p.eft == allow))" basic_matcher /\
    p_rules (e_model e) = [] /\
    snd (Enforce mini (reqs [""; ""; ""]) e) = Ok true.
Proof.
  exists (boot (basic_model [])). split; [apply basic_ready|]. split; vm_compute; reflexivity.
Qed.
Print Assumptions C08_default_deny_refuted.

(** The same with the hash index and a non-empty policy. *)
Theorem C08_indexed_default_deny_refuted :
  exists e, ready mini e f3 f3 "some(where (p.eft == allow))" basic_matcher /\
    p_rules (e_model e) = [["alice"; "data1"; "read"]] /\
    snd (Enforce mini (reqs [""; ""; ""]) e) = Ok true.
Proof.
  exists (boot (basic_hash_model [["alice"; "data1"; "read"]])).
  split; [apply basic_hash_ready|]. split; vm_compute; reflexivity.
Qed.
Print Assumptions C08_indexed_default_deny_refuted.

Example C08_case : snd (Enforce mini (reqs ["carol"; "data1"; "read"])
                          (boot (basic_model [["alice"; "data1"; "read"]; ["bob"; "data2"; "write"]]))) = Ok false
  /\ snd (Enforce mini (reqs ["carol"; "data1"; "read"]) (boot (basic_model []))) = Ok false.
Proof. split; vm_compute; reflexivity. Qed.

(** ** C09 Order of the rules *)
Theorem C09_order_irrelevant : forall o e1 e2 rf pf eft mat matcher req,
  oracle_ext o -> answerable o e1 rf pf eft mat matcher req ->
  (eft = "some(where (p.eft == allow))" \/ eft = "!some(where (p.eft == deny))" \/
   eft = "some(where (p.eft == allow)) && !some(where (p.eft == deny))") ->
  reordered e1 e2 ->
  snd (EnforceWithMatcher o matcher (map DStr req) e1) = snd (EnforceWithMatcher o matcher (map DStr req) e2).
Proof.
  intros o e1 e2 rf pf eft mat matcher req X A [ -> | [ -> | -> ] ] R.
  - apply (reorder_same o e1 e2 rf pf AllowOverride mat); auto; discriminate.
  - apply (reorder_same o e1 e2 rf pf DenyOverride mat); auto; discriminate.
  - apply (reorder_same o e1 e2 rf pf AllowAndDeny mat); auto; discriminate.
Qed.
Print Assumptions C09_order_irrelevant.

Example C09_case : reordered (boot (eft_model (effect_text DenyOverride) ex_rules))
                             (boot (eft_model (effect_text DenyOverride) (rev ex_rules))).
Proof.
  exists (ast "p" "sub, obj, act, eft" p4 (Vec ex_rules)), ex_rules, (rev ex_rules).
  repeat split. apply Permutation_rev.
Qed.

(** Priority is the one effect for which the order matters. *)
Theorem C09_priority_order_matters : exists e1 e2 req,
  reordered e1 e2 /\ ready mini e1 f3 f4 "priority(p.eft) || deny" basic_matcher /\
  snd (Enforce mini (reqs req) e1) = Ok true /\ snd (Enforce mini (reqs req) e2) = Ok false.
Proof.
  exists (boot (eft_model (effect_text Priority) ex_rules)),
         (boot (eft_model (effect_text Priority) (rev ex_rules))), ["alice"; "data1"; "read"].
  split. { exists (ast "p" "sub, obj, act, eft" p4 (Vec ex_rules)), ex_rules, (rev ex_rules).
           repeat split. apply Permutation_rev. }
  split; [apply (eft_ready mini (effect_text Priority))|]. split; vm_compute; reflexivity.
Qed.
Print Assumptions C09_priority_order_matters.

(** ** C10 Enforcement is a read

    Whatever the request (strings, JSON, too short or too long, a map), the matcher and
    the outcome (decision, exception): policy, role links, adapter, watcher, files and
    switches are the same afterwards. *)
Definition same_store (e e' : enforcer) : Prop :=
  e_model e' = e_model e /\ e_heap e' = e_heap e /\ e_rm e' = e_rm e /\ e_adapter e' = e_adapter e /\
  e_watcher e' = e_watcher e /\ e_fs e' = e_fs e /\ e_enabled e' = e_enabled e /\
  e_auto_save e' = e_auto_save e /\ e_auto_build e' = e_auto_build e /\ e_notify e' = e_notify e.

Theorem C10_enforcement_is_a_read : forall o matcher params e,
  same_store e (fst (EnforceExWithMatcher o matcher params e)) /\
  same_store e (fst (EnforceWithMatcher o matcher params e)).
Proof.
  intros. rewrite fst_EnforceWithMatcher. destruct (EnforceEx_frame o matcher params e) as [ev ->].
  repeat split.
Qed.
Print Assumptions C10_enforcement_is_a_read.

Theorem C10_map_enforcement_is_a_read : forall o matcher params e,
  same_store e (fst (EnforceExWithMatcherMap o matcher params e)).
Proof. intros. destruct (EnforceExMap_frame o matcher params e) as [ev ->]. repeat split. Qed.
Print Assumptions C10_map_enforcement_is_a_read.

(** This is about role managers without matching function.  With one, asking whether a
    link exists - which is what the matcher's g() does - adds links, and afterwards
    another query answers differently. *)
Theorem C10_pattern_query_refuted : exists r,
  GetUsers r "/book/*" [] = Ok [] /\
  let (r', out) := HasLink r "/book/1" "/book/*" [] in
  out = Ok true /\ GetUsers r' "/book/*" [] = Ok ["/book/1"].
Proof.
  exists (fst (AddLink (AddMatchingFunc (fun a b => String.eqb b "/book/*" && String.eqb (stake 6 a) "/book/" || String.eqb a b) (new_rm 10))
                       "/book/*" "book_group" [])).
  vm_compute. repeat split.
Qed.
Print Assumptions C10_pattern_query_refuted.

(** ** C11 Independence of earlier requests *)

(** A request with one value per field and, for each rule, some matcher text. *)
Theorem C11_earlier_requests_irrelevant : forall o e rf pf eft mat qs q,
  oracle_ext o -> ready o e rf pf eft mat ->
  Forall (admissible (e_model e) rf pf mat) (q :: qs) ->
  snd (EnforceExWithMatcher o (fst q) (map DStr (snd q)) (ask o qs e)) =
  snd (EnforceExWithMatcher o (fst q) (map DStr (snd q)) e).
Proof.
  intros o e rf pf eft mat qs q X R F. inversion F as [|? ? [L T] F']; subst.
  destruct (ask_ready o rf pf eft mat qs e X R F') as [ev [Q RQ]].
  destruct (enforce_spec o e rf pf eft mat (fst q) (snd q) X R L T) as [ev1 [E1 _]].
  destruct (enforce_spec o (ask o qs e) rf pf eft mat (fst q) (snd q) X RQ L) as [ev2 [E2 _]].
  { rewrite Q. exact T. }
  rewrite E1, E2, Q. reflexivity.
Qed.
Print Assumptions C11_earlier_requests_irrelevant.

(** Nor does it matter whether the evaluator object is fresh. *)
Theorem C11_fresh_evaluator : forall o e rf pf eft mat q,
  oracle_ext o -> ready o e rf pf eft mat -> admissible (e_model e) rf pf mat q ->
  snd (EnforceExWithMatcher o (fst q) (map DStr (snd q)) e) =
  snd (EnforceExWithMatcher o (fst q) (map DStr (snd q)) (set_ev None e)).
Proof.
  intros o e rf pf eft mat q X R [L T].
  assert (R0 : ready o (set_ev None e) rf pf eft mat) by (split; [apply R|exact I]).
  destruct (enforce_spec o e rf pf eft mat (fst q) (snd q) X R L T) as [ev1 [E1 _]].
  destruct (enforce_spec o (set_ev None e) rf pf eft mat (fst q) (snd q) X R0 L T) as [ev2 [E2 _]].
  rewrite E1, E2. reflexivity.
Qed.
Print Assumptions C11_fresh_evaluator.

Example C11_case :
  Forall (admissible (eft_model (effect_text DenyOverride) ex_rules) f3 f4 basic_matcher)
         [("", ["alice"; "data1"; "read"]); ("r.sub == 'root'", ["x"; "y"; "z"]); ("nonsense(", ["a"; "b"; "c"])].
Proof.
  repeat constructor; try discriminate; simpl; intros r H; in_cases; discriminate.
Qed.

(** A request given as a map is not checked for completeness: a missing value is the
    one of an earlier request. *)
Theorem C11_map_history_refuted : exists e,
  ready mini e f3 f3 "some(where (p.eft == allow))" basic_matcher /\
  (exists t, snd (EnforceMap mini [("obj", DStr "data1"); ("act", DStr "read")] e) = Throw t) /\
  snd (EnforceMap mini [("obj", DStr "data1"); ("act", DStr "read")]
         (fst (Enforce mini (reqs ["alice"; "data2"; "write"]) e))) = Ok true.
Proof.
  exists (boot (basic_model [["alice"; "data1"; "read"]])). split; [apply basic_ready|].
  split; [eexists|]; vm_compute; reflexivity.
Qed.
Print Assumptions C11_map_history_refuted.

(** After such an incomplete request every later complete request with the same
    matcher fails: the failed compilation is remembered. *)
Theorem C11_failed_compile_sticks_refuted : exists e,
  ready mini e f3 f3 "some(where (p.eft == allow))" basic_matcher /\
  snd (Enforce mini (reqs ["alice"; "data1"; "read"]) e) = Ok true /\
  exists t, snd (Enforce mini (reqs ["alice"; "data1"; "read"])
                   (fst (EnforceMap mini [("sub", DStr "alice")] e))) = Throw t.
Proof.
  exists (boot (basic_model [["alice"; "data1"; "read"]])). split; [apply basic_ready|].
  split; [|eexists]; vm_compute; reflexivity.
Qed.
Print Assumptions C11_failed_compile_sticks_refuted.

(** A JSON value is dropped, and the value of the earlier request is used for it. *)
Theorem C11_json_history_refuted : exists e,
  ready mini e f3 f3 "some(where (p.eft == allow))" basic_matcher /\
  snd (Enforce mini [DJson; DStr "data1"; DStr "read"]
         (fst (Enforce mini (reqs ["alice"; "data2"; "write"]) e))) = Ok true.
Proof.
  exists (boot (basic_model [["alice"; "data1"; "read"]])). split; [apply basic_ready|].
  vm_compute; reflexivity.
Qed.
Print Assumptions C11_json_history_refuted.

(** The role function is bound once: an enforcer asked before its first role link
    exists denies forever what a fresh one allows. *)
Theorem C11_role_function_history_refuted : exists e : enforcer,
  let grow e := fst (AddRoleForUser "alice" "admin" (fst (e_AddPolicy ["admin"; "data1"; "read"] e))) in
  let q := reqs ["alice"; "data1"; "read"] in
  declares (e_model e) f3 f3 "some(where (p.eft == allow))" rbac_matcher /\
  snd (Enforce mini q (grow e)) = Ok true /\
  snd (Enforce mini q (grow (fst (Enforce mini q e)))) = Ok false.
Proof.
  exists (boot (rbac_model [] [])). split; [apply rbac_declares|]. split; vm_compute; reflexivity.
Qed.
Print Assumptions C11_role_function_history_refuted.

(** ** C12 Batches *)

(** The results are those of the single requests in order; [mapr] collects them and
    stops at the first request that raises, with its exception. *)
Theorem C12_batch_pointwise : forall o rf pf eft mat matcher reqs e,
  oracle_ext o -> ready o e rf pf eft mat ->
  Forall (fun q => admissible (e_model e) rf pf mat (matcher, q)) reqs ->
  snd (BatchEnforceWithMatcher o matcher (map (map DStr) reqs) e) =
    mapr (fun q => snd (EnforceWithMatcher o matcher (map DStr q) e)) reqs /\
  (matcher = "" -> snd (BatchEnforce o (map (map DStr) reqs) e) =
    mapr (fun q => snd (Enforce o (map DStr q) e)) reqs).
Proof.
  intros o rf pf eft mat matcher reqs e X R F. split.
  - eapply batch_matcher_spec; eauto.
  - intros ->. rewrite batch_same. unfold Enforce. eapply batch_matcher_spec; eauto.
Qed.
Print Assumptions C12_batch_pointwise.

Example C12_case :
  snd (BatchEnforce mini [reqs ["alice"; "data1"; "read"]; reqs ["bob"; "data1"; "read"]; reqs ["alice"; "data1"; "read"]]
         (boot (basic_model [["alice"; "data1"; "read"]]))) = Ok [true; false; true].
Proof. vm_compute. reflexivity. Qed.

(** ** C13 Wrong arity *)
Theorem C13_request_of_wrong_length_refused : forall o e matcher params a,
  get_ast (e_model e) "r" "r" = Ok a -> List.length params <> List.length (a_tokens a) ->
  EnforceWithMatcher o matcher params e = (e, Ok false).
Proof.
  intros. unfold EnforceWithMatcher, mbind, EnforceExWithMatcher. rewrite H.
  apply Nat.eqb_neq in H0. rewrite H0. reflexivity.
Qed.
Print Assumptions C13_request_of_wrong_length_refused.

(** The first rule of the wrong length raises CasbinEnforcerException, unless a rule
    before it matches, says allow or deny, and gives the decision. *)
Theorem C13_rule_of_wrong_length_raises : forall o e rf pf pe mat matcher req pre bad post,
  oracle_ext o -> asked o e rf pf (effect_text pe) mat matcher req ->
  candidates (e_model e) req = pre ++ bad :: post ->
  (forall r, In r pre -> exists b, verdict o (e_model e) (e_heap e) rf pf (chosen matcher mat) req r = Ok b) ->
  List.length bad <> List.length pf ->
  snd (EnforceWithMatcher o matcher (map DStr req) e) = Throw CasbinEnforcer \/
  exists r, In r pre /\ matches o e rf pf mat matcher req r /\ effect_of pf r <> Indeterminate /\
    snd (EnforceWithMatcher o matcher (map DStr req) e) = Ok (effect_eqb (effect_of pf r) Allow).
Proof.
  intros o e rf pf pe mat matcher req pre bad post X [R EN L NE T] C V B.
  assert (VB : verdict o (e_model e) (e_heap e) rf pf (chosen matcher mat) req bad = Throw CasbinEnforcer).
  { unfold verdict. destruct (Nat.eqb_spec (List.length pf) (List.length bad)); [congruence|]. reflexivity. }
  rewrite snd_EnforceWithMatcher.
  destruct (decision_bad o e rf pf mat matcher req pe pre bad post X R EN L T C V) as [[r [I [S [x E]]]]|[N [E _]]].
  - intros b. rewrite VB. discriminate.
  - right. exists r. apply settles_decisive in S. destruct S as [D Q].
    rewrite decisive_outc in D. rewrite E, Q. simpl. tauto.
  - left. rewrite (E _ VB). reflexivity.
Qed.
Print Assumptions C13_rule_of_wrong_length_raises.

Example C13_case :
  snd (Enforce mini (reqs ["bob"; "data1"; "read"]) (boot (basic_model [["alice"; "data1"; "read"]; ["bob"; "data1"]])))
    = Throw CasbinEnforcer /\
  snd (Enforce mini (reqs ["alice"; "data1"; "read"]) (boot (basic_model [["alice"; "data1"; "read"]; ["bob"; "data1"]])))
    = Ok true.
Proof. split; vm_compute; reflexivity. Qed.
