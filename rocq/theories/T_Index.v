(** Theorems about the hash index: C14. *)
From Verif Require Import Base P_Base M_Util M_RoleManager M_Effector M_Model M_Persist M_Eval M_Evaluator M_Enforcer M_Matcher.
From Verif Require Import S_Effect S_Enforce P_Effect P_Enforce P_Decide P_Index E_Examples.

(** ** C14 For a matcher that compares request and rule field by field, and a request
    that is not all empty and has no NUL characters, the hash index changes no decision,
    under any of the four effects. *)
Theorem C14_index_agrees_partial : forall o e1 e2 rf pf pe mat matcher req,
  oracle_ext o -> ready o e1 rf pf (effect_text pe) mat -> e_enabled e1 = true ->
  List.length req = List.length rf -> List.length pf = List.length rf ->
  reindexed e1 e2 -> plain_equality o e1 rf pf mat matcher req ->
  (forall r, In r (p_rules (e_model e1)) -> List.length r = List.length pf) ->
  (exists v, In v req /\ v <> "") -> map c_str req = req ->
  exists b, snd (EnforceWithMatcher o matcher (map DStr req) e1) = Ok b /\
            snd (EnforceWithMatcher o matcher (map DStr req) e2) = Ok b.
Proof. exact index_same. Qed.
Print Assumptions C14_index_agrees_partial.

Example C14_case : forall l,
  reindexed (boot (basic_model l)) (boot (basic_hash_model l)) /\
  plain_equality mini (boot (basic_model l)) f3 f3 basic_matcher "" ["alice"; "data1"; "read"].
Proof.
  intros. split.
  - exists (ast "p" "sub, obj, act" p3 (Vec l)), l. repeat split.
  - apply basic_plain. reflexivity.
Qed.

(** A custom matcher is ignored by the index: the rule that would match is not even
    consulted. *)
Theorem C14_custom_matcher_refuted : exists e1 e2 matcher req,
  ready mini e1 f3 f3 "some(where (p.eft == allow))" basic_matcher /\ reindexed e1 e2 /\
  snd (EnforceWithMatcher mini matcher (reqs req) e1) = Ok true /\
  snd (EnforceWithMatcher mini matcher (reqs req) e2) = Ok false.
Proof.
  exists (boot (basic_model [["alice"; "data1"; "read"]])), (boot (basic_hash_model [["alice"; "data1"; "read"]])),
         "r.sub == p.sub", ["alice"; "data2"; "write"].
  split; [apply basic_ready|]. split; [|split; vm_compute; reflexivity].
  exists (ast "p" "sub, obj, act" p3 (Vec [["alice"; "data1"; "read"]])), [["alice"; "data1"; "read"]]. repeat split.
Qed.
Print Assumptions C14_custom_matcher_refuted.

(** The request of empty values: denied by the scan, allowed with the index. *)
Theorem C14_empty_request_refuted : exists e1 e2,
  ready mini e1 f3 f3 "some(where (p.eft == allow))" basic_matcher /\ reindexed e1 e2 /\
  snd (Enforce mini (reqs [""; ""; ""]) e1) = Ok false /\
  snd (Enforce mini (reqs [""; ""; ""]) e2) = Ok true.
Proof.
  exists (boot (basic_model [["alice"; "data1"; "read"]])), (boot (basic_hash_model [["alice"; "data1"; "read"]])).
  split; [apply basic_ready|]. split; [|split; vm_compute; reflexivity].
  exists (ast "p" "sub, obj, act" p3 (Vec [["alice"; "data1"; "read"]])), [["alice"; "data1"; "read"]]. repeat split.
Qed.
Print Assumptions C14_empty_request_refuted.
