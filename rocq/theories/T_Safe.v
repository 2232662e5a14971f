(** Theorems about undefined behaviour: C64. *)
From Verif Require Import Base P_Base M_Util M_RoleManager M_Effector M_Model M_Persist M_Eval M_Evaluator M_Enforcer M_Matcher M_Config M_Load
  S_Text S_Policy S_Persist S_History S_Load S_Safe P_Store P_Api P_History P_Text P_Load P_Persist P_Safe P_SafeMore T_Load E_Examples.

(** ** C64 *)

(** A well-formed call on a well-formed state does not have undefined behaviour and
    leaves a well-formed state, whether it succeeds or throws.  All calls are covered:
    management, roles, queries, enforcement, loading, saving and replacing parts.
    (Partial because of the conditions in [proper] the property does not mention, all
    of which are needed, see below.) *)
Theorem C64_calls_partial : forall ar o c e, total_library o -> well_formed ar e -> proper ar e c ->
  defined (snd (run o c e)) /\ well_formed ar (fst (run o c e)).
Proof. exact run_safe. Qed.

(** No call of a history of well-formed calls, of any length, has undefined behaviour;
    calls that throw do not end the history. *)
Theorem C64_histories_partial : forall ar o cs e, total_library o -> well_formed ar e -> all_proper ar o e cs ->
  forall x, In x (outcomes o e cs) -> defined x.
Proof. exact history_safe. Qed.

(** A new enforcer is well-formed: with a model that has no links and rules of the right
    length, and an adapter that delivers rules of the right length. *)
Definition before_loading (f : fs) (m : model) (a : option adapter) : enforcer :=
  Initialize (mkE m [] 0 a None f None true true true true).
Theorem C64_new : forall ar f m a, fresh_model ar m ->
  (forall ad, a = Some ad -> adapter_valid ad = true -> loadable ar (before_loading f m a)) ->
  defined (snd (new_enforcer f m a)) /\ well_formed ar (fst (new_enforcer f m a)).
Proof.
  intros ar f m a F L.
  assert (W : well_formed ar (before_loading f m a)).
  { constructor; simpl; try lia.
    - intros sec pt r. unfold stored, rules_in. simpl. destruct (get_ast m sec pt) as [x| |] eqn:A; try (intros []; fail). apply (F sec pt x A).
    - intros sec pt x i A R. destruct (F sec pt x A). congruence.
    - intros; discriminate. }
  unfold new_enforcer. fold (before_loading f m a). destruct a as [ad|]; [|split; cbn [fst snd]; auto].
  destruct (adapter_valid ad) eqn:V; [|split; cbn [fst snd]; auto]. apply safe_load; auto. apply (L ad); auto.
Qed.

(** Every model that the loader accepts is such a model, whatever its text; and if the
    field names of requests and rules are plain, it can be enforced. *)
Theorem C64_loaded_model : forall odd d m, LoadModelFromConfig odd [] d = (m, Ok tt) ->
  (forall ar, fresh_model ar m) /\
  ((forall sec v parts part f, sec = "r" \/ sec = "p" -> written d sec sec v -> splits "," v parts -> In part parts -> trimmed S_Text.blank part f -> plain_name f) ->
   forall e matcher, e_model e = m -> enforceable e matcher).
Proof.
  intros odd d m L. split.
  - intros ar sec pt a A. destruct (C45_contents odd d m L sec pt) as [C _]. destruct (C a A) as [i [v [_ [_ H]]]].
    destruct H as [_ [R [M _]]]. rewrite R. split; auto. intros r [].
  - intros P e matcher <-.
    assert (K : forall sec, sec = "r" \/ sec = "p" \/ sec = "e" \/ sec = "m" -> exists a v, get_ast (e_model e) sec sec = Ok a /\ written d sec sec v /\ holds_definition sec sec v a).
    { intros sec S. pose proof (C45_sound odd d _ L) as C. destruct (C sec) as [v W]; [simpl; intuition|].
      destruct (C45_contents odd d _ L sec sec) as [_ X]. destruct (X 1 v) as [a [A H]]; eauto.
      split; auto. split; auto. intros j J. assert (j = 1) by lia. subst. eauto. }
    assert (T : forall sec, sec = "r" \/ sec = "p" -> exists a fs, get_ast (e_model e) sec sec = Ok a /\ a_tokens a = map (String.append (sec ++ "_")) fs /\ Forall plain_name fs).
    { intros sec S. destruct (K sec) as [a [v [A [W H]]]]; [tauto|]. destruct H as [_ [_ [_ [H _]]]]. destruct (H S) as [_ [parts [SP F]]].
      assert (Q : forall part f, In part parts -> trimmed S_Text.blank part f -> plain_name f) by (intros; eapply P; eauto).
      assert (X : exists fs, a_tokens a = map (String.append (sec ++ "_")) fs /\ Forall plain_name fs).
      { clear H SP A. revert F Q. generalize (a_tokens a). intros toks. revert toks. induction parts as [|x xs IH]; intros toks F Q; inversion F; subst.
        - exists []. split; auto.
        - destruct H1 as [g [G ->]]. destruct (IH l' H3) as [fs [-> FS]]. { intros. apply (Q part); simpl; auto. }
          exists (g :: fs). split; [cbn [map]; f_equal; auto; destruct S as [-> | ->]; reflexivity|]. constructor; auto. apply (Q x); simpl; auto. }
      destruct X as [fs [X Y]]. exists a, fs. auto. }
    split; [apply (T "r"); auto|]. split; [apply (T "p"); auto|]. split.
    + destruct (K "e") as [a [v [A _]]]; [tauto|]. exists a. auto.
    + intros _. destruct (K "m") as [a [v [A _]]]; [tauto|]. exists a. auto.
Qed.

(** The queries that are not in [call]. *)
Theorem C64_queries : forall ar e sec pt, well_formed ar e -> declared e sec pt ->
  (sec = "p" ->
     defined (snd (GetNamedPolicy pt e)) /\
     (forall r, defined (snd (HasNamedPolicy pt r e))) /\
     (forall i vals, i + List.length vals <= ar "p" pt -> defined (snd (GetFilteredNamedPolicy pt i vals e))) /\
     (0 < ar "p" pt -> defined (snd (GetAllNamedSubjects pt e))) /\
     (1 < ar "p" pt -> defined (snd (GetAllNamedObjects pt e))) /\
     (2 < ar "p" pt -> defined (snd (GetAllNamedActions pt e)))) /\
  (sec = "g" ->
     defined (snd (GetNamedGroupingPolicy pt e)) /\
     (forall r, defined (snd (HasNamedGroupingPolicy pt r e))) /\
     (forall i vals, i + List.length vals <= ar "g" pt -> defined (snd (GetFilteredNamedGroupingPolicy pt i vals e))) /\
     (1 < ar "g" pt -> defined (snd (GetAllNamedRoles pt e)))).
Proof.
  intros ar e sec pt W D.
  assert (L : forall s, defined (snd (read_policy s pt e)) \/ ~ declared e s pt).
  { intros s. unfold read_policy, read_model, GetPolicy. cbn [snd]. destruct (get_ast (e_model e) s pt) as [a| |] eqn:A; cbn [bind]; auto.
    right. intros [a X]. congruence. }
  assert (HA : forall s r, declared e s pt -> defined (HasPolicy (e_model e) s pt r)).
  { intros s r [a A]. unfold HasPolicy. rewrite A. cbn [bind]. auto. }
  assert (F : forall s i vals, declared e s pt -> i + List.length vals <= ar s pt -> defined (GetFilteredPolicy (e_model e) s pt i vals)).
  { intros s i vals [a A] LE. unfold GetFilteredPolicy. rewrite A. cbn [bind].
    destruct (filter_rules_range i vals (rules_of (a_policy a))) as [l E]; [|rewrite E; auto].
    intros x X. rewrite (wf_rules _ _ W s pt x); auto. rewrite (stored_of e s pt a A). auto. }
  split; intros ->.
  - repeat split; intros; try (apply (values_defined ar e "p" pt); auto; fail).
    + destruct (L "p"); [auto|tauto].
    + apply HA. auto.
    + apply F; auto.
  - repeat split; intros; try (apply (values_defined ar e "g" pt); auto; fail).
    + destruct (L "g"); [auto|tauto].
    + apply HA. auto.
    + apply F; auto.
Qed.
Theorem C64_role_queries : forall ar e, well_formed ar e -> links_built e ->
  (forall name domain, defined (snd (GetUsersForRole name domain e))) /\
  (forall name role, defined (snd (HasRoleForUser name role e))).
Proof.
  intros ar e W B. split.
  - intros name domain. destruct B as [a [i [A R]]]. unfold GetUsersForRole, g_rm. cbn [snd]. rewrite A. cbn [bind]. rewrite R. cbn [bind].
    destruct (hget_some _ _ (wf_links _ _ W _ _ _ _ A R)) as [r H]. rewrite H. cbn [bind]. unfold GetUsers.
    destruct (Nat.ltb 1 (List.length domain)); auto. destruct (HasRole r (prefixed domain name)); cbn [negb]; auto.
    apply mapr_defined. intros. apply unprefix_defined.
  - intros name role. unfold HasRoleForUser, mbind.
    destruct (safe_roles_for_user ar e name [] B e (inv_start ar e W)) as [D _].
    destruct (GetRolesForUser name [] e) as [e1 [l|t|u]]; simpl in *; auto. exfalso. eapply defined_ub; eauto.
Qed.

(** Without the condition on built links: asking for the roles of a user on an enforcer
    just created from a model that has roles dereferences a null pointer. *)
Theorem C64_roles_before_links_refuted : forall ps gs name domain,
  declared (boot (rbac_model ps gs)) "g" "g" /\ snd (GetRolesForUser name domain (boot (rbac_model ps gs))) = UB NullDeref /\
  snd (GetUsersForRole name domain (boot (rbac_model ps gs))) = UB NullDeref.
Proof. intros. split; [eexists; reflexivity|]. split; reflexivity. Qed.
(** Without the condition on batch changes: with the ordinary file adapter and the
    default settings, adding several rules at once dereferences a null pointer. *)
Theorem C64_batch_refuted : exists e, e = fst (new_enforcer no_files (basic_model []) (Some (AFile false "policy.csv"))) /\
  declared e "p" "p" /\
  forall r rs, snd (e_AddPolicies (r :: rs) e) = UB NullDeref.
Proof.
  eexists. split; [reflexivity|]. split; [eexists; reflexivity|]. intros r rs.
  unfold e_AddPolicies, AddNamedPolicies, i_addPolicies, mbind, on_model, AddPolicies.
  match goal with |- context [get_ast ?m "p" "p"] => replace (get_ast m "p" "p") with (Ok (ast "p" "sub, obj, act" p3 (Vec []))) by reflexivity end.
  cbn [bind a_policy ast rules_of]. change (existsb (has_rule []) (r :: rs)) with (existsb (has_rule []) rs).
  assert (X : existsb (has_rule []) rs = false) by (induction rs; simpl; auto). rewrite X. reflexivity.
Qed.

(** Without the conditions on the adapter: loading and saving without an adapter
    dereference a null pointer, and the filtered adapter that is asked to save before it
    has loaded with a filter calls itself for ever. *)
Theorem C64_no_adapter_refuted : forall e, e_adapter e = None ->
  snd (LoadPolicy e) = UB NullDeref /\ snd (SavePolicy e) = UB NullDeref /\ forall flt, snd (e_LoadFilteredPolicy flt e) = UB NullDeref.
Proof.
  intros e A. unfold LoadPolicy, SavePolicy, e_LoadFilteredPolicy, mbind, e_ClearPolicy, modify, adapter_load, IsFiltered.
  cbn [set_model e_adapter]. rewrite A. repeat split.
Qed.
Theorem C64_filtered_save_refuted : forall e path, e_adapter e = Some (AFiltered path false) -> snd (SavePolicy e) = UB InfiniteRecursion.
Proof. intros e path A. unfold SavePolicy, mbind, IsFiltered. rewrite A. cbn [adapter_filtered]. unfold adapter_save. rewrite A. reflexivity. Qed.
(** Without the condition on the text: a line of an undeclared type dereferences a null
    pointer. *)
Theorem C64_load_refuted : forall l gs, snd (new_enforcer no_files (rbac_model l gs) (Some (AString "q, a, b, c"))) = UB NullDeref.
Proof. intros. vm_compute. reflexivity. Qed.
(** Without the condition on field names: a request field whose name is not a name for the
    expression library dereferences a null pointer. *)
Theorem C64_field_name_refuted : forall o req, exists e, declared e "r" "r" /\ declared e "p" "p" /\ declared e "e" "e" /\ declared e "m" "m" /\
  snd (Enforce o [DStr req] e) = UB NullDeref.
Proof.
  intros o req. exists (boot [("r", [("r", ast "r" "the subject" ["r_the subject"] (Vec []))]); ("p", [("p", ast "p" "sub" ["p_sub"] (Vec []))]);
    ("e", [("e", ast "e" eft_allow_override [] (Vec []))]); ("m", [("m", ast "m" "1" [] (Vec []))])]).
  repeat (split; [eexists; reflexivity|]). reflexivity.
Qed.

(** ** The hypotheses are met *)
Definition org_arity : arity := fun sec _ => if String.eqb sec "p" then 3 else 2.
Definition org : enforcer :=
  linked_boot (rbac_model [["alice"; "data1"; "read"]; ["admin"; "data2"; "write"]] [["bob"; "admin"]]).
Lemma org_in : forall sec pt r, In r (stored org sec pt) -> List.length r = org_arity sec pt.
Proof.
  intros sec pt r. unfold stored, rules_in, get_ast, org_arity.
  change (e_model org) with
    [("r", [("r", ast "r" "sub, obj, act" r3 (Vec []))]);
     ("p", [("p", ast "p" "sub, obj, act" p3 (Vec [["alice"; "data1"; "read"]; ["admin"; "data2"; "write"]]))]);
     ("g", [("g", mkAst "g" "_, _" [] (Vec [["bob"; "admin"]]) (Some 0))]);
     ("e", [("e", ast "e" (S_Effect.effect_text S_Effect.AllowOverride) [] (Vec []))]);
     ("m", [("m", ast "m" rbac_matcher [] (Vec []))])].
  unfold sec_of. cbn [aget]. destruct (String.eqb_spec sec "r"); [subst; cbn [aget]; destruct (String.eqb pt "r"); cbn; tauto|].
  destruct (String.eqb_spec sec "p"). { subst. cbn [aget]. destruct (String.eqb pt "p"); cbn; [|tauto]. intros [<-|[<-|[]]]; reflexivity. }
  destruct (String.eqb_spec sec "g"). { subst. cbn [aget]. destruct (String.eqb pt "g"); cbn; [|tauto]. intros [<-|[]]; reflexivity. }
  destruct (String.eqb_spec sec "e"). { subst. cbn [aget]. destruct (String.eqb pt "e"); cbn; tauto. }
  destruct (String.eqb_spec sec "m"). { subst. cbn [aget]. destruct (String.eqb pt "m"); cbn; tauto. }
  cbn. tauto.
Qed.
Example org_well_formed : well_formed org_arity org.
Proof.
  constructor.
  - exact org_in.
  - simpl. lia.
  - intros sec pt a i. change (List.length (e_heap org)) with 1. unfold get_ast.
    change (e_model org) with
    [("r", [("r", ast "r" "sub, obj, act" r3 (Vec []))]);
     ("p", [("p", ast "p" "sub, obj, act" p3 (Vec [["alice"; "data1"; "read"]; ["admin"; "data2"; "write"]]))]);
     ("g", [("g", mkAst "g" "_, _" [] (Vec [["bob"; "admin"]]) (Some 0))]);
     ("e", [("e", ast "e" (S_Effect.effect_text S_Effect.AllowOverride) [] (Vec []))]);
     ("m", [("m", ast "m" rbac_matcher [] (Vec []))])].
    intros G R.
    revert G. unfold sec_of. cbn [aget].
    repeat (match goal with |- context [String.eqb ?x ?y] => destruct (String.eqb x y); cbn [aget] end);
      intros G; inversion G; subst; simpl in R; inversion R; lia.
  - intros; discriminate.
Qed.
Lemma org_enforceable' : forall e, 
  let shape := fun sec => match get_ast (e_model e) sec sec with Ok a => Some (a_tokens a) | _ => None end in
  [shape "r"; shape "p"; shape "e"; shape "m"] = [Some r3; Some p3; Some []; Some []] -> enforceable e "".
Proof.
  intros e shape E. unfold enforceable, declared.
  assert (P : Forall plain_name ["sub"; "obj"; "act"]) by (repeat constructor; discriminate).
  subst shape. cbv beta in E.
  destruct (get_ast (e_model e) "r" "r") as [ra| |]; try discriminate.
  destruct (get_ast (e_model e) "p" "p") as [pa| |]; try discriminate.
  destruct (get_ast (e_model e) "e" "e") as [ea| |]; try discriminate.
  destruct (get_ast (e_model e) "m" "m") as [ma| |]; try discriminate.
  inversion E.
  split. { exists ra, ["sub"; "obj"; "act"]. auto. }
  split. { exists pa, ["sub"; "obj"; "act"]. auto. }
  split; eauto.
Qed.
Example org_enforceable : enforceable org "".
Proof. apply org_enforceable'. reflexivity. Qed.
Lemma mini_total : total_library mini.
Proof.
  intros t vars funs F. simpl. destruct (parse_matcher t) as [e|]; auto. induction e; simpl; auto.
  - apply defined_bind; auto. intros [] _; auto.
  - apply defined_bind; auto. intros [] _; auto.
  - apply defined_bind; auto.
  - destruct (funs f (map (term_val vars) args)) eqn:X; auto. eapply F; eauto.
Qed.
Example org_proper : all_proper org_arity mini org
  [KAddPolicy "p" ["carol"; "data3"; "read"]; KAddGrouping "g" ["carol"; "admin"]; KGetImplicitPermissions "carol" [];
   KRemoveFiltered "p" 1 ["data1"; "read"]; KUpdateGrouping "g" ["carol"; "admin"] ["carol"; "user"];
   KGetAll "p" 2; KDeleteRole "admin"; KGetRolesForUser "bob" []; KClearPolicy; KBuildRoleLinks].
Proof.
  assert (D : forall e sec pt, (exists a, get_ast (e_model e) sec pt = Ok a) -> declared e sec pt) by auto.
  cbn [all_proper proper]. repeat split; try (vm_compute; lia); try (eexists; vm_compute; reflexivity).
  eexists. exists 0. split; vm_compute; reflexivity.
Qed.

(** A history with enforcement, saving and loading. *)
Definition org_saved : enforcer := set_adapter (Some (AString "p, alice, data1, read")) org.
Definition org_saved_1 : enforcer := Eval vm_compute in fst (run mini (KEnforce "" [DStr "bob"; DStr "data2"; DStr "write"]) org_saved).
Definition org_saved_2 : enforcer := Eval vm_compute in fst (run mini (KAddGrouping "g" ["carol"; "admin"]) org_saved_1).
Definition org_saved_3 : enforcer := Eval vm_compute in fst (run mini KSavePolicy org_saved_2).
Definition org_saved_4 : enforcer := Eval vm_compute in fst (run mini KLoadPolicy org_saved_3).
Definition org_saved_5 : enforcer := Eval vm_compute in fst (run mini (KGetImplicitUsers ["data2"; "write"]) org_saved_4).
Example org_saved_proper : all_proper org_arity mini org_saved
  [KEnforce "" [DStr "bob"; DStr "data2"; DStr "write"]; KAddGrouping "g" ["carol"; "admin"]; KSavePolicy; KLoadPolicy;
   KGetImplicitUsers ["data2"; "write"]; KEnforceMap "" [("sub", DStr "bob")]; KSetAdapter None].
Proof.
  cbn [all_proper].
  replace (fst (run mini (KEnforce "" [DStr "bob"; DStr "data2"; DStr "write"]) org_saved)) with org_saved_1 by (vm_compute; reflexivity).
  replace (fst (run mini (KAddGrouping "g" ["carol"; "admin"]) org_saved_1)) with org_saved_2 by (vm_compute; reflexivity).
  replace (fst (run mini KSavePolicy org_saved_2)) with org_saved_3 by (vm_compute; reflexivity).
  replace (fst (run mini KLoadPolicy org_saved_3)) with org_saved_4 by (vm_compute; reflexivity).
  replace (fst (run mini (KGetImplicitUsers ["data2"; "write"]) org_saved_4)) with org_saved_5 by (vm_compute; reflexivity).
  split. { exact org_enforceable. }
  split. { split; [eexists; reflexivity|reflexivity]. }
  split. { exact Logic.I. }
  split.
  { split; [discriminate|]. intros rs kr D J. unfold delivers in D.
    replace (e_adapter org_saved_3) with
      (Some (AString (String.concat (String "010" "") ["p, alice, data1, read"; "p, admin, data2, write"; "g, bob, admin"; "g, carol, admin"]))) in D by reflexivity.
    unfold offers in D. replace (e_adapter org_saved_3) with
      (Some (AString (String.concat (String "010" "") ["p, alice, data1, read"; "p, admin, data2, write"; "g, bob, admin"; "g, carol, admin"]))) in D by reflexivity.
    destruct D as [_ D]. apply string_means_fun in D.
    match type of D with rs = ?x => let y := eval vm_compute in x in replace x with y in D by (vm_compute; reflexivity) end.
    subst rs. repeat (destruct J as [<-|J]; [split; [eexists; reflexivity|reflexivity]|]). destruct J. }
  split.
  { split; [apply org_enforceable'; reflexivity|]. split; [simpl; lia|]. split; intros; unfold org_arity; cbn; lia. }
  split.
  { split; [apply org_enforceable'; reflexivity|]. repeat constructor; discriminate. }
  split; exact Logic.I.
Qed.

Print Assumptions C64_calls_partial.
Print Assumptions C64_histories_partial.
Print Assumptions C64_queries.
Print Assumptions C64_role_queries.
Print Assumptions C64_roles_before_links_refuted.
Print Assumptions C64_batch_refuted.
Print Assumptions C64_new.
Print Assumptions C64_loaded_model.
Print Assumptions C64_no_adapter_refuted.
Print Assumptions C64_filtered_save_refuted.
Print Assumptions C64_load_refuted.
Print Assumptions C64_field_name_refuted.
