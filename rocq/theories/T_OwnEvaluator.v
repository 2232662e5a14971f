(** Property C102: enforcement with an evaluator of the caller. *)
From Verif Require Import Base P_Base M_Util M_RoleManager M_Effector M_Model M_Persist M_Eval M_Evaluator M_Enforcer M_Matcher M_OwnEvaluator
  S_Effect S_Enforce S_OwnEvaluator P_Effect P_Enforce P_Decide P_OwnEvaluator E_Examples.

(** With the default evaluator this is the enforcement of the other properties. *)
Theorem C102_default : forall o float e,
  (forall ev matcher, m_enforce_ev (exprtk o float) e matcher ev = m_enforce o e ev matcher) /\
  (forall matcher params r, get_ast (e_model e) "r" "r" = Ok r -> List.length params = List.length (a_tokens r) ->
     EnforceExWithMatcher o matcher (map plain params) e =
     let (ev, out) := EnforceExWithMatcher_ev (exprtk o float) e matcher params (own_evaluator e) in (set_ev (Some ev) e, out)) /\
  (forall matcher params,
     EnforceExWithMatcherMap o matcher (map (fun kv => (fst kv, plain (snd kv))) params) e =
     let (ev, out) := EnforceExWithMatcherMap_ev (exprtk o float) e matcher params (own_evaluator e) in (set_ev (Some ev) e, out)).
Proof.
  intros o float e. split; [|split].
  - intros. apply exprtk_m_enforce.
  - intros matcher params r G L. rewrite (exprtk_enforce o float), G, L, Nat.eqb_refl. reflexivity.
  - intros. apply exprtk_enforce_map.
Qed.

(** The evaluator is introduced to the functions, then asked about the rules in order until
    the matter is settled; the decision is the one the policy effect gives to its answers about
    all rules, and the explanation the first rule that is a reason. *)
Theorem C102_decides : forall St (iv : ievaluator St) e rf pf pe mat matcher st st1 st2 rules st3 os,
  outline (e_model e) rf pf (effect_text pe) mat -> e_enabled e = true ->
  introduced iv (e_heap e) (e_model e) st = (st1, Ok tt) ->
  consults iv (e_heap e) (e_model e) rf st1 st2 rules -> rules <> [] ->
  consulted iv (e_heap e) (chosen matcher mat) pf rules st2 st3 os ->
  exists b x st' k i,
    m_enforce_ev iv e matcher st = (st', Ok (b, x)) /\
    (b = true <-> permits pe os) /\
    explains pe os i /\ x = match i with Some i => nth i rules [] | None => [] end /\
    consulted iv (e_heap e) (chosen matcher mat) pf (firstn (S k) rules) st2 st' (firstn (S k) os) /\ k < List.length rules /\
    undecided pe (firstn k os) /\ (S k = List.length rules \/ ~ undecided pe (firstn (S k) os)).
Proof.
  intros St iv e rf pf pe mat matcher st st1 st2 rules st3 os OL EN I CS NE C.
  pose proof (consulted_length _ _ _ _ _ _ _ _ C) as LO.
  assert (NO : os <> []) by (intros ->; destruct rules; [congruence|discriminate]).
  rewrite (introduced_step iv e rf pf (effect_text pe) mat OL matcher st st1 EN I).
  rewrite (vbind_ok _ _ _ _ _ _ _ _ (selected_ev iv e rf pf (effect_text pe) mat OL st1 st2 rules CS)).
  rewrite rest_of_rules by auto.
  destruct (loop_good iv (e_heap e) pe (chosen matcher mat) pf rules st2 st3 os (l_pf _ _ _ _ _ OL) C [] (UB Uninitialised) (List.length rules))
    as [[eff x] [k [st' [E [[G1 G2] [C' [K [O1 O2]]]]]]]]; [simpl; auto|destruct pe; simpl; auto|auto|].
  simpl app in *. unfold fill_e, fill_m, effs, mats in E. simpl map in E. simpl app in E. rewrite LO in *.
  change (List.length (@nil outcome)) with 0 in E. rewrite (vbind_ok _ _ _ _ _ _ _ _ E). cbn [fst snd] in *.
  exists (effect_eqb eff Allow), (snd (decide rules (eff, x))), st', k, x.
  split; [reflexivity|]. split; [rewrite <- G1; destruct eff; simpl; split; congruence|]. split; auto. split; [|split; auto; split; auto; split; auto; destruct pe; exact O1 || auto].
  unfold decide. cbn [snd]. destruct x as [i|]; auto. destruct (nth_error rules i) eqn:N.
  - symmetry. apply nth_error_nth. auto.
  - symmetry. apply nth_overflow. apply nth_error_None. auto.
Qed.

(** What the evaluator throws when it is asked, the caller gets, and nothing is asked after. *)
Theorem C102_throws : forall St (iv : ievaluator St) e rf pf pe mat matcher st st1 st2 pre r post text st3 os st4 t,
  outline (e_model e) rf pf (effect_text pe) mat -> e_enabled e = true ->
  introduced iv (e_heap e) (e_model e) st = (st1, Ok tt) ->
  consults iv (e_heap e) (e_model e) rf st1 st2 (pre ++ r :: post) ->
  consulted iv (e_heap e) (chosen matcher mat) pf pre st2 st3 os -> undecided pe os ->
  List.length r = List.length pf -> matcher_text (chosen matcher mat) pf r = Ok text ->
  question iv (e_heap e) text pf r st3 = (st4, Throw t) ->
  m_enforce_ev iv e matcher st = (st4, Throw t).
Proof.
  intros St iv e rf pf pe mat matcher st st1 st2 pre r post text st3 os st4 t OL EN I CS C U LR T Q.
  pose proof (consulted_length _ _ _ _ _ _ _ _ C) as LO.
  rewrite (introduced_step iv e rf pf (effect_text pe) mat OL matcher st st1 EN I).
  rewrite (vbind_ok _ _ _ _ _ _ _ _ (selected_ev iv e rf pf (effect_text pe) mat OL st1 st2 _ CS)).
  pose proof (loop_throws iv (e_heap e) pe (chosen matcher mat) pf pre st2 st3 os (l_pf _ _ _ _ _ OL) C r text post st4 t []
    (UB Uninitialised) (List.length (pre ++ r :: post)) LR T Q) as L. simpl app in L.
  assert (LL : List.length (pre ++ r :: post) = List.length os + S (List.length post)) by (rewrite app_length, LO; reflexivity).
  rewrite rest_of_rules by (destruct pre; discriminate).
  apply vbind_throw. rewrite LL in *. unfold fill_e, fill_m, effs, mats in L. simpl map in L. simpl app in L. change (List.length (@nil outcome)) with 0 in L.
  apply L; auto; destruct pe; simpl; auto.
Qed.
Theorem C102_throws_early : forall St (iv : ievaluator St) e matcher st st1 t, e_enabled e = true ->
  introduced iv (e_heap e) (e_model e) st = (st1, Throw t) -> m_enforce_ev iv e matcher st = (st1, Throw t).
Proof. intros. apply not_introduced; auto. Qed.

(** Without rules it is asked once, with empty values for the rule: an invalid text means no,
    otherwise its answer is taken for that of an allowing rule. *)
Theorem C102_no_rules : forall St (iv : ievaluator St) e rf pf pe mat matcher st st1 st2 st3 valid,
  outline (e_model e) rf pf (effect_text pe) mat -> e_enabled e = true -> HasEval (chosen matcher mat) = false ->
  introduced iv (e_heap e) (e_model e) st = (st1, Ok tt) -> consults iv (e_heap e) (e_model e) rf st1 st2 [] ->
  (iv (e_heap e) unit (CClean false) ;~ iv (e_heap e) unit (CInitialObject "p") ;~
   hand_over iv (e_heap e) "p" (map (fun f => (f, "")) pf) ;~ iv (e_heap e) bool (CEval (chosen matcher mat))) st2 = (st3, Ok valid) ->
  (valid = false -> m_enforce_ev iv e matcher st = (st3, Ok (false, []))) /\
  (forall st4 b, valid = true -> iv (e_heap e) bool CGetBoolean st3 = (st4, Ok b) ->
     exists d, m_enforce_ev iv e matcher st = (st4, Ok (d, [])) /\
       (d = true <-> permits pe [(true, if b then Allow else Indeterminate)])).
Proof.
  intros St iv e rf pf pe mat matcher st st1 st2 st3 valid OL EN HE I CS Q.
  rewrite (introduced_step iv e rf pf (effect_text pe) mat OL matcher st st1 EN I).
  rewrite (vbind_ok _ _ _ _ _ _ _ _ (selected_ev iv e rf pf (effect_text pe) mat OL st1 st2 _ CS)).
  unfold rest_of. cbv zeta. rewrite HE.
  assert (A : forall B (k : bool -> V St B),
    (iv (e_heap e) unit (CClean false) ;~ iv (e_heap e) unit (CInitialObject "p") ;~
     push_p_ev iv (e_heap e) (map (fun f => ("p_" ++ f)%string) pf) (map (fun _ => "") (map (fun f => ("p_" ++ f)%string) pf)) ;~
     v <~ iv (e_heap e) bool (CEval (chosen matcher mat)) ;; k v) st2 = k valid st3).
  { intros B k. revert Q. unfold vbind.
    destruct (iv (e_heap e) unit (CClean false) st2) as [s1 [x1|t|u]]; try (intros Q; inversion Q; fail).
    destruct (iv (e_heap e) unit (CInitialObject "p") s1) as [s2 [x2|t|u]]; try (intros Q; inversion Q; fail).
    rewrite push_p_spec. replace (combine pf (map (fun _ => "") (map (fun f => ("p_" ++ f)%string) pf))) with (map (fun f => (f, "")) pf)
      by (rewrite map_map; clear; induction pf; cbn [map combine]; [auto|f_equal; auto]).
    destruct (hand_over iv (e_heap e) "p" (map (fun f => (f, "")) pf) s2) as [s3 [x3|t|u]]; try (intros Q; inversion Q; fail).
    destruct (iv (e_heap e) bool (CEval (chosen matcher mat)) s3) as [s4 [x4|t|u]]; intros Q; inversion Q; subst; auto. }
  rewrite A. split.
  - intros ->. reflexivity.
  - intros st4 b -> G. cbn [negb]. rewrite (vbind_ok _ _ _ _ _ _ _ _ G).
    pose proof (ploop_good pe [(true, if b then Allow else Indeterminate)] [] (UB Uninitialised)) as P.
    destruct P as [[eff x] [PE [G1 G2]]]; [destruct pe; simpl; auto|discriminate|].
    cbn [List.length map ploop Nat.add] in PE. unfold fill_e, fill_m, effs, mats in PE. cbn in PE.
    unfold vbind, vlift. cbn [fst app] in G1.
    destruct (MergeEffects (effect_text pe) [if b then Allow else Indeterminate] [true] 0 1) as [[e1 x1]|t|u] eqn:ME; try discriminate.
    exists (effect_eqb e1 Allow). assert (e1 = eff) as -> by (destruct e1; inversion PE; auto).
    split; [|rewrite <- G1; destruct eff; simpl; split; congruence].
    unfold vret, decide. cbn [fst snd]. destruct x1 as [[|i]|]; reflexivity.
Qed.

(** A request is handed over value by value under the names of the request fields; one of the
    wrong length is refused without asking.  With enforcement off nothing is asked. *)
Theorem C102_request : forall St (iv : ievaluator St) e rf pf eft mat matcher params st,
  outline (e_model e) rf pf eft mat ->
  EnforceExWithMatcher_ev iv e matcher params st =
  if Nat.eqb (List.length params) (List.length rf)
  then (iv (e_heap e) unit (CInitialObject "r") ;~ hand_over_request iv (e_heap e) (combine rf params) ;~ m_enforce_ev iv e matcher) st
  else (st, Ok (false, [])).
Proof.
  intros St iv e rf pf eft mat matcher params st [[ar [GR TR]] _ _ _ _]. unfold EnforceExWithMatcher_ev. unfold vbind at 1, vlift.
  rewrite GR, TR, map_length. destruct (Nat.eqb _ _); auto. cbn [negb]. apply vbind_ext; auto. intros _ s1. apply vbind_ext; auto. apply push_r_spec.
Qed.
(** ... and a request that is a map, whatever its names. *)
Theorem C102_request_map : forall St (iv : ievaluator St) e matcher params st,
  EnforceExWithMatcherMap_ev iv e matcher params st =
  (iv (e_heap e) unit (CInitialObject "r") ;~ hand_over_request iv (e_heap e) params ;~ m_enforce_ev iv e matcher) st.
Proof.
  intros. unfold EnforceExWithMatcherMap_ev. apply vbind_ext; auto. intros _ s1. apply vbind_ext; auto. revert s1.
  induction params as [|[n [v|v]] params IH]; intros s1; cbn [push_map_ev hand_over_request]; auto; apply vbind_ext; auto.
Qed.
Theorem C102_off : forall St (iv : ievaluator St) e matcher st, e_enabled e = false -> m_enforce_ev iv e matcher st = (st, Ok (true, [])).
Proof. intros. unfold m_enforce_ev. rewrite H. reflexivity. Qed.
(** With the hash index an evaluator that does not give back a field of the request is refused. *)
Theorem C102_field_missing : forall St (iv : ievaluator St) e rf pf eft mat matcher st st1 st2 vals f,
  outline (e_model e) rf pf eft mat -> e_enabled e = true -> p_indexed (e_model e) = true ->
  introduced iv (e_heap e) (e_model e) st = (st1, Ok tt) ->
  iv (e_heap e) (list (string * string)) CRequestValues st1 = (st2, Ok vals) -> In f rf -> aget f vals = None ->
  m_enforce_ev iv e matcher st = (st2, Throw StdLogicError).
Proof.
  intros St iv e rf pf eft mat matcher st st1 st2 vals f OL EN P I E F A.
  rewrite (introduced_step iv e rf pf eft mat OL matcher st st1 EN I). apply vbind_throw. eapply selected_missing; eauto.
Qed.

(** An evaluator is never told that an enforcement is over: whatever it does on that call
    makes no difference. *)
Theorem C102_never_cleaned : forall St (iv iv' : ievaluator St) e,
  (forall h A (c : ecall A) st, is_final_clean c = false -> iv h A c st = iv' h A c st) ->
  (forall matcher st, m_enforce_ev iv e matcher st = m_enforce_ev iv' e matcher st) /\
  (forall matcher params st, EnforceExWithMatcher_ev iv e matcher params st = EnforceExWithMatcher_ev iv' e matcher params st).
Proof. intros St iv iv' e S. split; intros; [apply same_enforce|apply same_request]; auto. Qed.

(** An example: an evaluator that ignores the text, keeps the values handed over and counts
    the questions.  A rule matches when its object is the requested one and its subject is the
    requested one or a star, in which case the result is a float; it throws on the object "x". *)
Definition memo : Type := list (string * string) * nat.
Definition seen (st : memo) (k : string) : string := match aget k (fst st) with Some v => v | None => "" end.
Definition star : ievaluator memo :=
  fun h A c => match c in ecall A return memo -> memo * res A with
  | CClearList | CLoadFunctions | CLoadGFunction _ _ _ | CInitialObject _ | CPushJson _ _ _ | CClean _ => fun st => (st, Ok tt)
  | CPushString t p v => fun st => ((aset (t ++ p)%string v (fst st), snd st), Ok tt)
  | CEval t => fun st => if String.eqb (seen st "pobj") "x" then (st, Throw UnsupportedOperation) else ((fst st, S (snd st)), Ok true)
  | CCheckType => fun st => (st, Ok (if String.eqb (seen st "psub") "*" then TyFloat else TyBool))
  | CGetBoolean => fun st => (st, Ok (String.eqb (seen st "psub") (seen st "rsub") && String.eqb (seen st "pobj") (seen st "robj")))
  | CGetFloat => fun st => (st, Ok (String.eqb (seen st "pobj") (seen st "robj")))
  | CRequestValues => fun st => (st, Ok [("sub", seen st "rsub"); ("obj", seen st "robj"); ("act", seen st "ract")])
  end.
Definition star_rules : list rule := [["bob"; "data1"; "read"]; ["*"; "data1"; "read"]; ["alice"; "data2"; "read"]].
Definition starred : enforcer := boot (basic_model star_rules).
Definition cursed : enforcer := boot (basic_model (star_rules ++ [["alice"; "x"; "read"]])).
Definition indexed : enforcer := boot (basic_hash_model star_rules).
Definition asking (sub obj : string) : memo := ([("rsub", sub); ("robj", obj); ("ract", "read")], 0).

Lemma basic_outline : forall l, outline (e_model (boot (basic_model l))) f3 f3 (effect_text AllowOverride) basic_matcher.
Proof. intros l. constructor; try (eexists; split; reflexivity). prove_declares. Qed.
Ltac consult := repeat (eapply consulted_rule; [reflexivity|vm_compute; reflexivity|vm_compute; reflexivity|]); apply consulted_none.

Example C102_decides_case : exists st3,
  outline (e_model starred) f3 f3 (effect_text AllowOverride) basic_matcher /\ e_enabled starred = true /\
  introduced star (e_heap starred) (e_model starred) (asking "alice" "data1") = (asking "alice" "data1", Ok tt) /\
  consults star (e_heap starred) (e_model starred) f3 (asking "alice" "data1") (asking "alice" "data1") star_rules /\
  consulted star (e_heap starred) (chosen "" basic_matcher) f3 star_rules (asking "alice" "data1") st3 [(false, Allow); (true, Allow); (false, Allow)] /\
  permits AllowOverride [(false, Allow); (true, Allow); (false, Allow)] /\
  (exists st', m_enforce_ev star starred "" (asking "alice" "data1") = (st', Ok (true, ["*"; "data1"; "read"])) /\ snd st' = 2) /\
  (exists st', m_enforce_ev star starred "" (asking "carol" "data2") = (st', Ok (false, [])) /\ snd st' = 3).
Proof.
  eexists. split; [apply basic_outline|]. split; [reflexivity|]. split; [reflexivity|]. split; [split; reflexivity|].
  split; [unfold star_rules; consult|]. split; [simpl; auto|]. split; eexists; split; vm_compute; reflexivity.
Qed.
Example C102_throws_case : exists st3 st4,
  outline (e_model cursed) f3 f3 (effect_text AllowOverride) basic_matcher /\
  consults star (e_heap cursed) (e_model cursed) f3 (asking "carol" "data2") (asking "carol" "data2") (star_rules ++ ["alice"; "x"; "read"] :: []) /\
  consulted star (e_heap cursed) (chosen "" basic_matcher) f3 star_rules (asking "carol" "data2") st3 [(false, Allow); (false, Allow); (false, Allow)] /\
  undecided AllowOverride [(false, Allow); (false, Allow); (false, Allow)] /\
  matcher_text (chosen "" basic_matcher) f3 ["alice"; "x"; "read"] = Ok basic_matcher /\
  question star (e_heap cursed) basic_matcher f3 ["alice"; "x"; "read"] st3 = (st4, Throw UnsupportedOperation) /\
  snd (m_enforce_ev star cursed "" (asking "carol" "data2")) = Throw UnsupportedOperation /\
  snd (m_enforce_ev star cursed "" (asking "carol" "data1")) = Ok (true, ["*"; "data1"; "read"]).
Proof.
  eexists. eexists. split; [apply basic_outline|]. split; [split; reflexivity|]. split; [unfold star_rules; consult|].
  split; [simpl; intuition discriminate|]. split; [vm_compute; reflexivity|]. split; [vm_compute; reflexivity|]. split; vm_compute; reflexivity.
Qed.
Example C102_no_rules_case : exists st3,
  (star (e_heap (boot (basic_model []))) unit (CClean false) ;~ star (e_heap (boot (basic_model []))) unit (CInitialObject "p") ;~
   hand_over star (e_heap (boot (basic_model []))) "p" (map (fun f => (f, "")) f3) ;~
   star (e_heap (boot (basic_model []))) bool (CEval (chosen "" basic_matcher))) (asking "" "") = (st3, Ok true) /\
  HasEval (chosen "" basic_matcher) = false /\ star (e_heap (boot (basic_model []))) bool CGetBoolean st3 = (st3, Ok true) /\
  snd (m_enforce_ev star (boot (basic_model [])) "" (asking "" "")) = Ok (true, []) /\
  snd (m_enforce_ev star (boot (basic_model [])) "" (asking "alice" "data1")) = Ok (false, []).
Proof. eexists. split; [vm_compute; reflexivity|]. split; [vm_compute; reflexivity|]. split; [vm_compute; reflexivity|]. split; vm_compute; reflexivity. Qed.
Example C102_index_case : outline (e_model indexed) f3 f3 (effect_text AllowOverride) basic_matcher /\ p_indexed (e_model indexed) = true /\
  consults star (e_heap indexed) (e_model indexed) f3 (asking "alice" "data2") (asking "alice" "data2") [["alice"; "data2"; "read"]] /\
  consults star (e_heap indexed) (e_model indexed) f3 (asking "alice" "data1") (asking "alice" "data1") [] /\
  snd (m_enforce_ev star indexed "" (asking "alice" "data2")) = Ok (true, ["alice"; "data2"; "read"]) /\
  snd (m_enforce_ev star indexed "" (asking "alice" "data1")) = Ok (false, []).
Proof.
  split; [constructor; try (eexists; split; reflexivity); prove_declares|]. split; [reflexivity|].
  split. { exists [("sub", "alice"); ("obj", "data2"); ("act", "read")], ["alice"; "data2"; "read"]. split; [reflexivity|]. split; [repeat constructor|reflexivity]. }
  split. { exists [("sub", "alice"); ("obj", "data1"); ("act", "read")], ["alice"; "data1"; "read"]. split; [reflexivity|]. split; [repeat constructor|reflexivity]. }
  split; vm_compute; reflexivity.
Qed.
Example C102_request_case :
  EnforceExWithMatcher_ev star starred "" [OStr "alice"; OStr "data1"; OJson "{}"] ([], 0) =
    ((aset "pact" "read" (aset "pobj" "data1" (aset "psub" "*" [("rsub", "alice"); ("robj", "data1"); ("psub", "bob"); ("pobj", "data1"); ("pact", "read")])), 2),
     Ok (true, ["*"; "data1"; "read"])) /\
  EnforceExWithMatcher_ev star starred "" [OStr "alice"] ([], 0) = (([], 0), Ok (false, [])).
Proof. split; vm_compute; reflexivity. Qed.
(** An evaluator that forgets the act: the index cannot be used. *)
Example C102_field_missing_case : exists iv : ievaluator unit,
  iv (e_heap indexed) (list (string * string)) CRequestValues tt = (tt, Ok [("sub", "alice"); ("obj", "data1")]) /\
  introduced iv (e_heap indexed) (e_model indexed) tt = (tt, Ok tt) /\
  m_enforce_ev iv indexed "" tt = (tt, Throw StdLogicError).
Proof.
  exists (fun h A c => match c in ecall A return unit -> unit * res A with
    | CRequestValues => fun st => (st, Ok [("sub", "alice"); ("obj", "data1")])
    | CEval _ | CGetBoolean | CGetFloat => fun st => (st, Ok true)
    | CCheckType => fun st => (st, Ok TyBool)
    | _ => fun st => (st, Ok tt) end). repeat split; vm_compute; reflexivity.
Qed.
(** An evaluator that would throw on the last call is not affected. *)
Example C102_never_cleaned_case : exists iv' : ievaluator memo,
  (forall h A (c : ecall A) st, is_final_clean c = false -> star h A c st = iv' h A c st) /\
  (forall h st, iv' h unit (CClean true) st = (st, Throw UnsupportedOperation)).
Proof.
  exists (fun h A c st => match c in ecall A return (memo * res A) -> memo * res A with
    | CClean true => fun _ => (st, Throw UnsupportedOperation)
    | _ => fun d => d end (star h A c st)). split; [|reflexivity].
  intros h A c st F. destruct c; auto. destruct after_enforce; [discriminate|reflexivity].
Qed.

Print Assumptions C102_default.
Print Assumptions C102_decides.
Print Assumptions C102_throws.
Print Assumptions C102_throws_early.
Print Assumptions C102_no_rules.
Print Assumptions C102_request.
Print Assumptions C102_request_map.
Print Assumptions C102_off.
Print Assumptions C102_field_missing.
Print Assumptions C102_never_cleaned.
