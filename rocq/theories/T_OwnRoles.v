(** C94: what a role manager of the caller is told. *)
From Coq Require Import Permutation.
From Verif Require Import Base P_Base M_Util M_RoleManager M_Model M_Persist M_Evaluator M_Enforcer M_Matcher M_OwnRoles.
From Verif Require Import S_Policy S_History S_Sync S_OwnRoles P_Store P_Decide P_Api P_Nodup P_Group P_History P_Sync P_OwnRoles E_Examples.

(** The model of these calls is the one the other theorems are about: with the default
    manager in the place of the caller's, every call does the same. *)
Theorem C94_default_manager : forall o h c s,
  e_rm (o_e s) < List.length h -> (forall k, c = OOther k -> elsewhere k = true) ->
  run o (as_call c) (joined h s) =
    (joined h (fst (own_run o default_manager c s)), snd (own_run o default_manager c s)).
Proof. intros o h c s L K. apply (sim_run h o c K s L). Qed.

(** Whatever the manager does, it has been told of exactly the links the grouping policy
    lists, once the links were built and as long as the calls return and are in order. *)
Theorem C94_informed_partial : forall St o (mg : St -> heard -> St * res unit) s, tended o mg s -> informed s.
Proof. intros St o mg s H. exact (proj1 (tended_good mg o s H)). Qed.

(** What AddGroupingPolicy tells the manager: a new rule twice when links are built
    automatically. *)
Theorem C94_add_heard : forall St (mg : St -> heard -> St * res unit) pt r s s' added x y d,
  own_AddNamedGroupingPolicy St mg pt r s = (s', Ok added) ->
  fact_of (fields_of (o_e s) pt) r = Some (x, y, d) ->
  o_heard s' = o_heard s ++ (if added then [HAdd x y d] else []) ++ (if e_auto_build (o_e s) then [HAdd x y d] else []).
Proof.
  intros St mg pt r s s' added x y d H F.
  assert (INC : forall s1 s2 u, fields_of (o_e s1) pt = fields_of (o_e s) pt ->
    own_BuildIncrementalRoleLinks St mg policy_add pt [r] s1 = (s2, Ok u) ->
    o_heard s2 = o_heard s1 ++ [HAdd x y d]).
  { intros s1 s2 u FE K. apply obind_ok in K. destruct K as [s3 [v [K1 K2]]]. apply inside_ok in K1. destruct K1 as [e1 [K1 ->]].
    destruct (get_ast (e_model (o_e s1)) "g" pt) as [a|t|w] eqn:G; try discriminate. inversion K1; subst. clear K1.
    assert (N : scount "_" (a_value a) = fields_of (o_e s) pt).
    { rewrite <- FE. unfold fields_of. apply get_asts in G. unfold asts in G. rewrite G. auto. }
    unfold own_ast_links in K2. destruct (Nat.ltb (scount "_" (a_value a)) 2); [discriminate|]. rewrite N in K2.
    cbn [own_link_rules] in K2. apply obind_ok in K2. destruct K2 as [s4 [w [K2 K3]]]. inversion K3; subst.
    unfold own_link_rule in K2. unfold fact_of in F. destruct (Nat.ltb (List.length r) (fields_of (o_e s) pt)); [discriminate|].
    destruct (firstn (fields_of (o_e s) pt) r) as [|x' [|y' d']]; try discriminate. inversion F; subst.
    apply tell_ok in K2. destruct K2 as [_ K2]. simpl in K2. exact K2. }
  apply obind_ok in H. destruct H as [s1 [ad [H1 H2]]]. apply obind_ok in H2. destruct H2 as [s2 [u [H2 H3]]]. inversion H3; subst. clear H3.
  assert (A : o_heard s1 = o_heard s ++ (if added then [HAdd x y d] else []) /\ fields_of (o_e s1) pt = fields_of (o_e s) pt /\
              e_auto_build (o_e s1) = e_auto_build (o_e s)).
  { apply obind_ok in H1. destruct H1 as [s3 [c [H1 H4]]]. apply inside_ok in H1. destruct H1 as [e1 [H1 ->]].
    unfold on_model, AddPolicy in H1. destruct (get_ast_cases (e_model (o_e s)) "g" pt) as [[a G]|G]; rewrite G in H1; cbn [bind] in H1; [|discriminate].
    destruct (has_rule (rules_of (a_policy a)) r); inversion H1; subst; cbn [negb] in H4.
    - inversion H4; subst. rewrite set_model_id, app_nil_r. auto.
    - destruct (edit_g (o_e s) pt a (emplace (a_policy a) r) G) as [_ [FE _]].
      apply obind_ok in H4. destruct H4 as [s4 [v [H4 H5]]]. destruct (incremental_ok _ _ _ _ _ _ _ H4) as [SG _].
      destruct (tail_ok' _ _ _ _ H5) as [SG3 E3]. apply INC in H4; [|apply FE].
      assert (added = true).
      { apply obind_ok in H5. destruct H5 as [s6 [? [_ H5]]]. apply obind_ok in H5. destruct H5 as [s7 [? [_ H5]]]. inversion H5. auto. }
      subst added. rewrite E3, H4. split; auto. split.
      + rewrite (sg_fields _ _ SG3), (sg_fields _ _ SG). apply FE.
      + rewrite (sg_build _ _ SG3), (sg_build _ _ SG). auto. }
  destruct A as [A1 [A2 A3]]. rewrite A3 in H2. destruct (e_auto_build (o_e s)).
  - rewrite (INC _ _ _ A2 H2), A1, app_assoc. auto.
  - inversion H2; subst. rewrite A1, app_nil_r. auto.
Qed.

(** A manager that refuses a link.  If it throws when it is told of a new one, or when it is
    told of the same one again, AddGroupingPolicy throws; the rule is stored all the same.
    In the first case the adapter has not been told. *)
Theorem C94_refused : forall St (mg : St -> heard -> St * res unit) pt r s x y d st t,
  declared (o_e s) "g" pt -> no_anagram r (stored (o_e s) "g" pt) -> ~ In r (stored (o_e s) "g" pt) ->
  fact_of (fields_of (o_e s) pt) r = Some (x, y, d) -> mg (o_st s) (HAdd x y d) = (st, Throw t) ->
  exists s', own_AddNamedGroupingPolicy St mg pt r s = (s', Throw t) /\
    In r (stored (o_e s') "g" pt) /\ e_adapter (o_e s') = e_adapter (o_e s) /\ e_watcher (o_e s') = e_watcher (o_e s).
Proof.
  intros St mg pt r s x y d st t [a G] NA NI F R. rewrite (stored_get _ _ _ G) in NA, NI.
  unfold own_AddNamedGroupingPolicy, own_addPolicy, obind at 1 2. unfold inside at 1. unfold on_model, AddPolicy. rewrite G. cbn [bind].
  rewrite (proj2 (has_rule_false _ _ NA) NI). cbn [negb].
  set (e1 := set_model (put_policy (e_model (o_e s)) "g" pt a (emplace (a_policy a) r)) (o_e s)).
  destruct (edit_g (o_e s) pt a (emplace (a_policy a) r) G) as [S [FE _]]. fold e1 in S, FE.
  unfold obind, own_BuildIncrementalRoleLinks, obind, inside. cbn [o_e].
  assert (G1 : get_ast (e_model e1) "g" pt = Ok (with_policy a (emplace (a_policy a) r))) by (simpl; apply get_put_ast_same).
  rewrite G1.
  assert (N : scount "_" (a_value (with_policy a (emplace (a_policy a) r))) = fields_of (o_e s) pt).
  { simpl. unfold fields_of. apply get_asts in G. unfold asts in G. rewrite G. auto. }
  unfold own_ast_links. rewrite N. unfold fact_of in F. destruct (Nat.ltb (List.length r) (fields_of (o_e s) pt)) eqn:LT; [discriminate|].
  destruct (firstn (fields_of (o_e s) pt) r) as [|x' [|y' d']] eqn:FN; try discriminate. inversion F; subst.
  assert (2 <= fields_of (o_e s) pt).
  { destruct (fields_of (o_e s) pt) as [|[|n]]; simpl in FN; try lia; destruct r; discriminate. }
  destruct (Nat.ltb_spec (fields_of (o_e s) pt) 2); [lia|].
  cbn [own_link_rules]. unfold obind, own_link_rule. rewrite LT, FN. unfold tell. cbn [o_st o_e]. rewrite R.
  eexists. split; [reflexivity|]. cbn [o_e]. split; [|split; reflexivity].
  rewrite (stored_put_g e1 pt (with_rm (with_policy a (emplace (a_policy a) r)) (Some (e_rm e1)))) by reflexivity.
  rewrite eqb_refl_s. simpl. apply emplace_in. auto.
Qed.

(** A concrete manager: it keeps the links in a list and refuses a link it has. *)
Definition strict (l : list fact) (c : heard) : list fact * res unit :=
  match c with
  | HClear => ([], Ok tt)
  | HAdd a b d => if existsb (fun p => String.eqb (fst (fst p)) a && String.eqb (snd (fst p)) b) l
                  then (l, Throw IllegalArgument) else ((a, b, d) :: l, Ok tt)
  | HDelete a b d => (List.filter (fun p => negb (String.eqb (fst (fst p)) a && String.eqb (snd (fst p)) b)) l, Ok tt)
  end.
(** One that takes everything. *)
Definition obliging (n : nat) (c : heard) : nat * res unit := (S n, Ok tt).

Definition crew : enforcer := boot (rbac_model [["admin"; "data1"; "read"]] [["alice"; "admin"]; ["bob"; "staff"]]).
Definition start {St} (st : St) : own St := mkOwn crew st [].

(** AddGroupingPolicy cannot succeed for a new rule if the manager refuses a link it has. *)
Theorem C94_strict_refuted : exists s s',
  tended mini strict s /\ e_auto_build (o_e s) = true /\
  own_AddNamedGroupingPolicy _ strict "g" ["carol"; "staff"] s = (s', Throw IllegalArgument) /\
  ~ In ["carol"; "staff"] (stored (o_e s) "g" "g") /\ In ["carol"; "staff"] (stored (o_e s') "g" "g").
Proof.
  exists (fst (own_BuildRoleLinks _ strict (start []))). eexists. split; [|split; [reflexivity|split; [vm_compute; reflexivity|]]].
  - apply tended_built with (start []); [|vm_compute; reflexivity].
    unfold types_distinct. vm_compute. constructor; [simpl; tauto|constructor].
  - split; vm_compute; [intuition congruence|auto].
Qed.

(** With automatic building off, RemoveGroupingPolicy tells the manager to add the link of
    the rule it removes. *)
Theorem C94_remove_told : forall St (mg : St -> heard -> St * res unit) pt r s s' l,
  own_RemoveNamedGroupingPolicy St mg pt r s = (s', Ok true) -> e_auto_build (o_e s) = false ->
  fact_of (fields_of (o_e s) pt) r = Some l -> told (o_heard s') l.
Proof.
  intros St mg pt r s s' l H B F. apply obind_ok in H. destruct H as [s1 [ad [H1 H2]]]. apply obind_ok in H2. destruct H2 as [s2 [u [H2 H3]]].
  inversion H3; subst. clear H3. apply obind_ok in H1. destruct H1 as [s3 [c [H1 H4]]]. apply inside_ok in H1. destruct H1 as [e1 [H1 ->]].
  unfold on_model, RemovePolicy in H1. destruct (get_ast_cases (e_model (o_e s)) "g" pt) as [[a G]|G]; rewrite G in H1; cbn [bind] in H1; [|discriminate].
  destruct (erase_first r (rules_of (a_policy a))) as [l'|]; inversion H1; subst; cbn [negb] in H4; [|inversion H4].
  destruct (edit_g (o_e s) pt a (with_rules (a_policy a) l') G) as [_ [FE _]].
  apply obind_ok in H4. destruct H4 as [s4 [v [H4 H5]]]. destruct (incremental_ok _ _ _ _ _ _ _ H4) as [SG [_ L]].
  destruct (tail_ok' _ _ _ _ H5) as [SG3 E3]. unfold own_rebuild_if_auto in H2.
  rewrite (sg_build _ _ SG3), (sg_build _ _ SG) in H2. cbn [o_e] in H2. simpl in H2. rewrite B in H2. inversion H2; subst.
  rewrite E3. cbn [linked_as] in L. apply L. right. exists r. split; [left; auto|]. cbn [o_e]. rewrite FE. auto.
Qed.
Theorem C94_remove_refuted : exists s s',
  informed s /\ own_run mini obliging (ORemove "g" ["alice"; "admin"]) s = (s', Ok tt) /\
  ~ listed_links (o_e s') ("alice", "admin", []) /\ told (o_heard s') ("alice", "admin", []).
Proof.
  set (s0 := fst (own_BuildRoleLinks _ obliging (start 0))).
  assert (T0 : tended mini obliging s0).
  { apply tended_built with (start 0); [|vm_compute; reflexivity]. unfold types_distinct. vm_compute. constructor; [simpl; tauto|constructor]. }
  set (s1 := fst (own_run mini obliging (OOther (KEnableAutoBuild false)) s0)).
  assert (T1 : tended mini obliging s1).
  { apply tended_call with s0 (OOther (KEnableAutoBuild false)); auto. exact Logic.I. }
  exists s1. eexists. split; [eapply C94_informed_partial; eauto|]. split; [vm_compute; reflexivity|]. split.
  - intros [pt [r [I E]]]. unfold stored, rules_in, get_ast, fields_of in *. vm_compute in I.
    destruct (String.eqb pt "g") eqn:P.
    + apply String.eqb_eq in P. subst pt. vm_compute in I. destruct I as [<-|[]]. vm_compute in E. inversion E.
    + cbn [o_e e_model] in I. vm_compute in P. rewrite P in I. destruct I.
  - vm_compute. auto.
Qed.

(** An update of a rule whose link another type also lists: the manager forgets the link. *)
Definition two_types : model :=
  aset "g" [("g", ast "g" "_, _" [] (Vec [["alice"; "admin"]])); ("g2", ast "g2" "_, _" [] (Vec [["alice"; "admin"]]))]
       (rbac_model [] []).
Theorem C94_update_refuted : exists s s',
  tended mini obliging s /\ own_run mini obliging (OUpdate "g" ["alice"; "admin"] ["alice"; "staff"]) s = (s', Ok tt) /\
  listed_links (o_e s') ("alice", "admin", []) /\ ~ told (o_heard s') ("alice", "admin", []).
Proof.
  exists (fst (own_BuildRoleLinks _ obliging (mkOwn (boot two_types) 0 []))). eexists. split; [|split; [vm_compute; reflexivity|split]].
  - apply tended_built with (mkOwn (boot two_types) 0 []); [|vm_compute; reflexivity]. unfold types_distinct. vm_compute.
    constructor; [simpl; intuition congruence|]. constructor; [simpl; tauto|constructor].
  - exists "g2", ["alice"; "admin"]. split; [vm_compute; auto|reflexivity].
  - vm_compute. intuition congruence.
Qed.

(** Concrete histories. *)
Definition and_then {St} (mg : St -> heard -> St * res unit) (cs : list ocall) (s : own St) : own St :=
  fold_left (fun s c => fst (own_run mini mg c s)) cs s.
Lemma tended_step : forall St (mg : St -> heard -> St * res unit) c s, tended mini mg s -> in_order c s ->
  snd (own_run mini mg c s) = Ok tt -> tended mini mg (fst (own_run mini mg c s)).
Proof. intros St mg c s T O E. apply tended_call with s c; auto. rewrite <- E. apply surjective_pairing. Qed.
Ltac no_ana := intros x I P; vm_compute in I;
  repeat (destruct I as [<-|I]; [first [reflexivity|exfalso; apply ArrayEquals_perm in P; vm_compute in P; discriminate]|]); destruct I.
Example C94_case :
  let s := and_then obliging [OBuild; OAdd "g" ["carol"; "staff"]; OAddMany "g" [["dave"; "admin"]; ["erin"; "staff"]];
                              OOther (KAddPolicy "p" ["staff"; "data2"; "read"]);
                              OUpdate "g" ["bob"; "staff"] ["bob"; "guest"]; ORemove "g" ["alice"; "admin"]] (start 0) in
  tended mini obliging s /\ informed s /\ told (o_heard s) ("bob", "guest", []) /\ List.length (o_heard s) = 15.
Proof.
  cbv zeta. set (s := and_then _ _ _).
  assert (T : tended mini obliging s).
  { unfold s, and_then. cbn [fold_left].
    apply tended_step; [|vm_compute; reflexivity|vm_compute; reflexivity].
    apply tended_step; [| |vm_compute; reflexivity].
    2:{ cbn [in_order]. split; [vm_compute; repeat constructor; simpl; intuition congruence|].
        split; [no_ana|split; [no_ana|split]].
        - vm_compute. intuition congruence.
        - intros q r I E. destruct (String.eqb_spec q "g").
          + subst q. split; auto. vm_compute in I.
            repeat (destruct I as [<-|I]; [first [reflexivity|vm_compute in E; inversion E]|]). destruct I.
          + exfalso. revert I. unfold stored, rules_in, get_ast. 
            match goal with |- context [sec_of (e_model ?e) "g"] => let v := eval vm_compute in (sec_of (e_model e) "g") in change (sec_of (e_model e) "g") with v end.
            cbn [aget]. destruct (String.eqb_spec q "g"); auto. }
    apply tended_step; [|exact Logic.I|vm_compute; reflexivity].
    apply tended_step; [|exact Logic.I|vm_compute; reflexivity].
    apply tended_step; [|cbn [in_order]; no_ana|vm_compute; reflexivity].
    apply tended_built with (start 0); [|vm_compute; reflexivity]. unfold types_distinct. vm_compute. constructor; [simpl; tauto|constructor]. }
  split; auto. split; [eapply C94_informed_partial; eauto|]. split; vm_compute; auto.
Qed.
(** Loading, and a manager that throws. *)
Definition moody (n : nat) (c : heard) : nat * res unit :=
  match c with HAdd "mallory" _ _ => (n, Throw CasbinRBAC) | _ => (S n, Ok tt) end.
Example C94_case_load :
  let s0 := mkOwn (set_adapter (Some (AString "g, alice, admin
g, carol, staff")) crew) 0 [] in
  tended mini moody (and_then moody [OBuild; OLoad] s0) /\
  o_heard (and_then moody [OBuild; OLoad] s0) =
    [HClear; HAdd "alice" "admin" []; HAdd "bob" "staff" []; HClear; HAdd "alice" "admin" []; HAdd "carol" "staff" []] /\
  exists s', own_AddNamedGroupingPolicy _ moody "g" ["mallory"; "admin"] s0 = (s', Throw CasbinRBAC) /\
    In ["mallory"; "admin"] (stored (o_e s') "g" "g").
Proof.
  cbv zeta. split; [|split; [vm_compute; reflexivity|eexists; split; [vm_compute; reflexivity|vm_compute; auto]]].
  apply tended_step; [|vm_compute; reflexivity|vm_compute; reflexivity].
  match goal with |- tended _ _ (fst (own_run _ _ _ ?x)) => apply tended_built with x; [|vm_compute; reflexivity] end. unfold types_distinct. vm_compute. constructor; [simpl; tauto|constructor].
Qed.
Example C94_case_heard : exists s', own_AddNamedGroupingPolicy _ obliging "g" ["carol"; "staff"] (start 0) = (s', Ok true) /\
  fact_of (fields_of (o_e (start 0)) "g") ["carol"; "staff"] = Some ("carol", "staff", []) /\
  o_heard s' = [HAdd "carol" "staff" []; HAdd "carol" "staff" []].
Proof. eexists. split; [vm_compute; reflexivity|]. split; vm_compute; reflexivity. Qed.
Example C94_case_default : exists s : own role_manager, e_rm (o_e s) < List.length (e_heap crew) /\
  snd (own_run mini default_manager OBuild s) = Ok tt /\
  snd (run mini KBuildRoleLinks (joined (e_heap crew) s)) = Ok tt.
Proof.
  exists (mkOwn crew (match e_heap crew with r :: _ => r | [] => new_rm 10 end) []). split; [vm_compute; auto|]. split; vm_compute; reflexivity.
Qed.

Print Assumptions C94_default_manager.
Print Assumptions C94_informed_partial.
Print Assumptions C94_add_heard.
Print Assumptions C94_refused.
Print Assumptions C94_strict_refuted.
Print Assumptions C94_remove_told.
Print Assumptions C94_remove_refuted.
Print Assumptions C94_update_refuted.
