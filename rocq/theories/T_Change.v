(** C100: what one rule can change. *)
From Coq Require Import Permutation.
From Verif Require Import Base P_Base M_Util M_RoleManager M_Effector M_Model M_Persist M_Eval M_Evaluator M_Enforcer M_Matcher S_Effect S_Policy S_Enforce P_Effect P_Enforce P_Decide P_Store P_Api P_Change E_Examples T_Policy.

(** The answer to a request. *)
Definition answer (o : oracle) (matcher : string) (req : list string) (e : enforcer) : res bool :=
  snd (EnforceWithMatcher o matcher (map DStr req) e).

(** AddPolicy, whatever it returns and whether or not the adapter or the watcher fails:
    an allow rule never takes a permission away, a deny rule never gives one, and a rule
    that does not match the request, or that is neither, changes nothing. *)
Theorem C100_add : forall o e rf pf pe mat matcher req r,
  oracle_ext o -> answerable o e rf pf (effect_text pe) mat matcher req ->
  matcher_text (chosen matcher mat) pf r <> Ok "" ->
  (exists v, verdict o (e_model e) (e_heap e) rf pf (chosen matcher mat) req r = Ok v) ->
  exists b b',
    answer o matcher req e = Ok b /\ answer o matcher req (fst (e_AddPolicy r e)) = Ok b' /\
    (effect_of pf r = Allow -> b = true -> b' = true) /\
    (effect_of pf r = Deny -> b = false -> b' = false) /\
    (~ matches o e rf pf mat matcher req r \/ effect_of pf r = Indeterminate -> b' = b).
Proof.
  intros o e rf pf pe mat matcher req r X A TR VR.
  destruct (enforce_permits o e rf pf mat matcher req pe X A) as [b [E P]].
  assert (SAME : fst (e_AddPolicy r e) = e -> exists b0 b',
    answer o matcher req e = Ok b0 /\ answer o matcher req (fst (e_AddPolicy r e)) = Ok b' /\
    (effect_of pf r = Allow -> b0 = true -> b' = true) /\
    (effect_of pf r = Deny -> b0 = false -> b' = false) /\
    (~ matches o e rf pf mat matcher req r \/ effect_of pf r = Indeterminate -> b' = b0)).
  { intros ->. exists b, b. auto. }
  destruct (d_p _ _ _ _ _ (proj1 (k_ready _ _ _ _ _ _ _ _ (proj1 A)))) as [a [G _]].
  unfold e_AddPolicy, AddNamedPolicy in *. rewrite i_addPolicy_p in *. unfold AddPolicy in *. rewrite G in *. cbn [bind] in *.
  destruct (has_rule (rules_of (a_policy a)) r) eqn:H.
  { rewrite set_model_id in *. auto. }
  clear SAME.
  pose proof (tail_core (CAdd "p" "p" r) (set_model (put_policy (e_model e) "p" "p" a (emplace (a_policy a) r)) e)) as SC.
  destruct (tail _ _) as [e' out]. cbn [fst] in *.
  assert (M : e_model e' = put_policy (e_model e) "p" "p" a (emplace (a_policy a) r)) by apply SC.
  pose proof (k_some _ _ _ _ _ _ _ _ (proj1 A)) as NE.
  assert (OM0 : one_more r (rules_of (a_policy a)) (rules_of (emplace (a_policy a) r))).
  { right. exists (rules_of (a_policy a)), []. rewrite app_nil_r. split; auto. apply emplace_new. auto. }
  assert (NE' : candidates (e_model e') req <> []).
  { rewrite M. intro Q. apply NE. unfold candidates, p_indexed, p_rules in *. rewrite get_put_same in Q. rewrite G.
    cbn [a_policy with_policy] in Q. rewrite is_hash_emplace in Q. rewrite emplace_new in Q by auto.
    destruct (is_hash (a_policy a)).
    - rewrite existsb_app in Q. destruct (existsb _ (rules_of (a_policy a))); [discriminate|auto].
    - destruct (rules_of (a_policy a)); [auto|discriminate]. }
  assert (OM : one_more r (candidates (e_model e) req) (candidates (e_model e') req)).
  { rewrite M in *. apply candidates_one_more; auto. apply is_hash_emplace. }
  destruct (changed_answerable o e e' rf pf (effect_text pe) mat matcher req a _ r A G SC NE') as [A' F]; auto.
  { intros x. apply one_more_in with (1 := OM). }
  destruct (enforce_permits o e' rf pf mat matcher req pe X A') as [b' [E' P']].
  rewrite (map_ext _ _ F) in P'.
  destruct (decisions_related pe _ _ _ _ b b' OM P P') as [Q1 [Q2 Q3]].
  exists b, b'. split; auto. split; auto. cbn [snd outc] in *. split; auto. split.
  - intros D B. destruct b'; auto. rewrite Q2 in B; auto.
  - intros N. apply Q3. rewrite decisive_outc. tauto.
Qed.

(** RemovePolicy of a rule of which no rearrangement is stored, as long as a rule is left
    to consult. *)
Theorem C100_remove : forall o e rf pf pe mat matcher req r,
  oracle_ext o -> answerable o e rf pf (effect_text pe) mat matcher req ->
  matcher_text (chosen matcher mat) pf r <> Ok "" ->
  (exists v, verdict o (e_model e) (e_heap e) rf pf (chosen matcher mat) req r = Ok v) ->
  no_anagram r (stored e "p" "p") ->
  candidates (e_model (fst (e_RemovePolicy r e))) req <> [] ->
  exists b b',
    answer o matcher req e = Ok b /\ answer o matcher req (fst (e_RemovePolicy r e)) = Ok b' /\
    (effect_of pf r = Allow -> b = false -> b' = false) /\
    (effect_of pf r = Deny -> b = true -> b' = true) /\
    (~ matches o e rf pf mat matcher req r \/ effect_of pf r = Indeterminate -> b' = b).
Proof.
  intros o e rf pf pe mat matcher req r X A TR VR NA NE'.
  destruct (enforce_permits o e rf pf mat matcher req pe X A) as [b [E P]].
  destruct (d_p _ _ _ _ _ (proj1 (k_ready _ _ _ _ _ _ _ _ (proj1 A)))) as [a [G _]].
  unfold stored in NA. rewrite (rules_in_get _ _ _ _ G) in NA.
  unfold e_RemovePolicy, RemoveNamedPolicy in *. rewrite i_removePolicy_p in *. unfold RemovePolicy in *. rewrite G in *. cbn [bind] in *.
  destruct (erase_first r (rules_of (a_policy a))) as [l|] eqn:ER.
  2:{ rewrite set_model_id in *. cbn [fst]. exists b, b. auto. }
  apply erase_first_some in ER. destruct ER as [pre [x [post [E1 [E2 [PX N]]]]]].
  assert (x = r) by (apply NA; auto; rewrite E1, in_app_iff; simpl; auto). subst x l.
  pose proof (tail_core (CRemove "p" "p" r) (set_model (put_policy (e_model e) "p" "p" a (with_rules (a_policy a) (pre ++ post))) e)) as SC.
  destruct (tail _ _) as [e' out]. cbn [fst] in *.
  assert (M : e_model e' = put_policy (e_model e) "p" "p" a (with_rules (a_policy a) (pre ++ post))) by apply SC.
  pose proof (k_some _ _ _ _ _ _ _ _ (proj1 A)) as NE.
  assert (OM : one_more r (candidates (e_model e') req) (candidates (e_model e) req)).
  { rewrite M in *. apply candidates_one_more; auto. { apply is_hash_with. }
    right. exists pre, post. rewrite rules_with. auto. }
  destruct (changed_answerable o e e' rf pf (effect_text pe) mat matcher req a _ r A G SC NE') as [A' F]; auto.
  { intros x I. left. apply one_more_in with (1 := OM). auto. }
  destruct (enforce_permits o e' rf pf mat matcher req pe X A') as [b' [E' P']].
  rewrite (map_ext _ _ F) in P'.
  destruct (decisions_related pe _ _ _ _ b' b OM P' P) as [Q1 [Q2 Q3]].
  exists b, b'. split; auto. split; auto. cbn [snd outc] in *. split; [|split; auto].
  - intros D B. destruct b'; auto. rewrite Q1 in B; auto.
  - intros D. symmetry. apply Q3. rewrite decisive_outc. tauto.
Qed.

(** A rule that matches takes effect at once: an allow rule under allow-override, a deny
    rule under both effects with deny. *)
Theorem C100_takes_effect : forall o e rf pf pe mat matcher req r,
  oracle_ext o -> answerable o e rf pf (effect_text pe) mat matcher req ->
  matcher_text (chosen matcher mat) pf r <> Ok "" ->
  p_indexed (e_model e) = false -> no_anagram r (stored e "p" "p") ->
  matches o e rf pf mat matcher req r ->
  (pe = AllowOverride -> effect_of pf r = Allow ->
     answer o matcher req (fst (e_AddPolicy r e)) = Ok true) /\
  (pe = DenyOverride \/ pe = AllowAndDeny -> effect_of pf r = Deny ->
     answer o matcher req (fst (e_AddPolicy r e)) = Ok false).
Proof.
  intros o e rf pf pe mat matcher req r X A TR HI NA MR.
  destruct (d_p _ _ _ _ _ (proj1 (k_ready _ _ _ _ _ _ _ _ (proj1 A)))) as [a [G _]].
  unfold stored in NA. rewrite (rules_in_get _ _ _ _ G) in NA.
  assert (S : exists e', fst (e_AddPolicy r e) = e' /\ answerable o e' rf pf (effect_text pe) mat matcher req /\
    (forall x, outc o e' rf pf mat matcher req x = outc o e rf pf mat matcher req x) /\
    In r (candidates (e_model e') req)).
  { unfold p_indexed in HI. rewrite G in HI.
    unfold e_AddPolicy, AddNamedPolicy. rewrite i_addPolicy_p. unfold AddPolicy. rewrite G. cbn [bind].
    destruct (has_rule (rules_of (a_policy a)) r) eqn:H.
    - rewrite set_model_id. exists e. split; [auto|split; [exact A|split; [auto|]]].
      apply has_rule_in in H; auto. unfold candidates, p_indexed, p_rules. rewrite G, HI. auto.
    - pose proof (tail_core (CAdd "p" "p" r) (set_model (put_policy (e_model e) "p" "p" a (emplace (a_policy a) r)) e)) as SC.
      destruct (tail _ _) as [e' out]. cbn [fst] in *. exists e'. split; auto.
      assert (M : e_model e' = put_policy (e_model e) "p" "p" a (emplace (a_policy a) r)) by apply SC.
      assert (C : candidates (e_model e') req = candidates (e_model e) req ++ [r]).
      { rewrite M. unfold candidates, p_indexed, p_rules. rewrite get_put_same, G. cbn [a_policy with_policy].
        rewrite is_hash_emplace, HI. apply emplace_new. auto. }
      destruct (changed_answerable o e e' rf pf (effect_text pe) mat matcher req a _ r A G SC) as [A' F]; auto.
      + rewrite C. destruct (candidates (e_model e) req); discriminate.
      + intros x. rewrite C, in_app_iff. simpl. intuition.
      + exists true. apply MR.
      + split; [exact A'|split; [exact F|]]. rewrite C, in_app_iff. simpl. auto. }
  destruct S as [e' [-> [A' [F I]]]].
  destruct (enforce_permits o e' rf pf mat matcher req pe X A') as [b' [E' P']].
  unfold answer. rewrite E'. rewrite (map_ext _ _ F) in P'.
  assert (Q : forall ef, effect_of pf r = ef -> In (true, ef) (map (outc o e rf pf mat matcher req) (candidates (e_model e') req))).
  { intros ef EF. apply in_hit. exists r. auto. }
  split.
  - intros -> EF. f_equal. apply P'. simpl. auto.
  - intros PE EF. f_equal. destruct b'; auto. exfalso. pose proof (proj1 P' eq_refl) as PP.
    destruct PE as [-> | ->]; simpl in PP; [|destruct PP as [_ PP]]; apply PP; auto.
Qed.

(** ** The limits *)

(** The first rule of all: with no rule stored the matcher is evaluated for an empty rule,
    and adding an allow rule can take a permission away. *)
Theorem C100_first_rule_refuted :
  exists e r req, effect_of f3 r = Allow /\
    answer mini "" req e = Ok true /\ snd (e_AddPolicy r e) = Ok true /\
    answer mini "" req (fst (e_AddPolicy r e)) = Ok false.
Proof.
  exists (boot (basic_model [])), ["alice"; "data1"; "read"], [""; ""; ""].
  repeat split; vm_compute; reflexivity.
Qed.

(** A rearranged rule: RemovePolicy of an allow rule that does not match the request, and is
    not stored, takes the permission of the request away. *)
Theorem C100_anagram_refuted :
  exists e r req, effect_of f3 r = Allow /\ ~ In r (stored e "p" "p") /\
    (matches mini e f3 f3 basic_matcher "" req r -> False) /\
    candidates (e_model (fst (e_RemovePolicy r e))) req <> [] /\
    answer mini "" req e = Ok true /\ answer mini "" req (fst (e_RemovePolicy r e)) = Ok false.
Proof.
  exists (boot (basic_model [["alice"; "bob"; "read"]; ["carol"; "data1"; "read"]])), ["bob"; "alice"; "read"], ["alice"; "bob"; "read"].
  split; [vm_compute; reflexivity|]. split.
  { vm_compute. intros [C|[C|[]]]; inversion C. }
  split; [intros C; vm_compute in C; discriminate|].
  split; [vm_compute; discriminate|]. split; vm_compute; reflexivity.
Qed.

(** Concrete case of the theorems. *)
Definition change_start : enforcer :=
  boot (eft_model (effect_text Priority) [["alice"; "data1"; "read"; "allow"]; ["bob"; "data2"; "write"; "deny"]]).

Example C100_case :
  answerable mini change_start f3 f4 (effect_text Priority) basic_matcher "" ["alice"; "data1"; "read"] /\
  answer mini "" ["alice"; "data1"; "read"] change_start = Ok true /\
  answer mini "" ["alice"; "data1"; "read"] (fst (e_AddPolicy ["alice"; "data1"; "read"; "deny"] change_start)) = Ok true /\
  answer mini "" ["alice"; "data1"; "read"] (fst (e_RemovePolicy ["alice"; "data1"; "read"; "allow"] change_start)) = Ok false /\
  candidates (e_model (fst (e_RemovePolicy ["alice"; "data1"; "read"; "allow"] change_start))) ["alice"; "data1"; "read"] <> [] /\
  no_anagram ["alice"; "data1"; "read"; "allow"] (stored change_start "p" "p").
Proof.
  split; [|split; [vm_compute; reflexivity|split; [vm_compute; reflexivity|split; [vm_compute; reflexivity|split; [vm_compute; discriminate|no_anag]]]]].
  split.
  - constructor; try reflexivity.
    + apply eft_ready.
    + discriminate.
    + split; [discriminate|]. simpl. intros r H. in_cases; discriminate.
  - simpl. intros r H. in_cases; eexists; vm_compute; reflexivity.
Qed.
Print Assumptions C100_add.
Print Assumptions C100_remove.
Print Assumptions C100_takes_effect.
Print Assumptions C100_first_rule_refuted.
Print Assumptions C100_anagram_refuted.
