(** Model of casbin/model/policy_collection.cpp, casbin/model/assertion.cpp and of
    the policy operations of casbin/model/model.cpp.  (Loading a model from
    configuration text is in M_Load.v.) *)
From Verif Require Import Base M_Util M_RoleManager.

(** ** PoliciesValues: include/casbin/model/policy_collection.hpp:36-105

    Either a vector or an unordered_set of rules.  For [Hash] the list order
    stands for the iteration order; simplification: insertion order is used as
    the representative of the unspecified order. *)
Inductive store := Vec (l : list rule) | Hash (l : list rule).

(** Iteration over the collection (policy_collection.cpp:91-101, 151-161). *)
Definition rules_of (s : store) : list rule := match s with Vec l => l | Hash l => l end.

(** policy_collection.cpp:56-58 [is_hash]. *)
Definition is_hash (s : store) : bool := match s with Vec _ => false | Hash _ => true end.

(** policy_collection.cpp:44-48 [size]. *)
Definition store_size (s : store) : nat := List.length (rules_of s).

(** policy_collection.cpp:60-65 [emplace]: push_back, or insert unless present. *)
Definition emplace (s : store) (r : rule) : store :=
  match s with
  | Vec l => Vec (l ++ [r])
  | Hash l => if existsb (rule_eqb r) l then Hash l else Hash (l ++ [r])
  end.

(** policy_collection.cpp:103-107 [find]: exact comparison. *)
Definition store_find (s : store) (r : rule) : option rule :=
  List.find (rule_eqb r) (rules_of s).

(** policy_collection.cpp:109-114 [clear] (the kind of storage is kept). *)
Definition store_clear (s : store) : store := match s with Vec _ => Vec [] | Hash _ => Hash [] end.

(** Same kind of storage, other contents. *)
Definition with_rules (s : store) (l : list rule) : store :=
  match s with Vec _ => Vec l | Hash _ => Hash l end.

(** ** Assertions and models

    include/casbin/model/assertion.h:32-43.  [a_rm] is the shared_ptr to the role
    manager, an address in the heap of role managers ([None] is the null pointer). *)
Record assertion := mkAst {
  a_key : string;
  a_value : string;
  a_tokens : list string;
  a_policy : store;
  a_rm : option nat }.

Definition with_policy (a : assertion) (p : store) : assertion :=
  mkAst (a_key a) (a_value a) (a_tokens a) p (a_rm a).
Definition with_rm (a : assertion) (r : option nat) : assertion :=
  mkAst (a_key a) (a_value a) (a_tokens a) (a_policy a) r.

Definition assertion_map := list (string * assertion).

(** include/casbin/model/model.h:47 [Model::m]. *)
Definition model := list (string * assertion_map).

(** m[sec].assertion_map, for reading; a missing section reads as empty. *)
Definition sec_of (m : model) (sec : string) : assertion_map :=
  match aget sec m with Some am => am | None => [] end.

(** m[sec]: operator[] creates an empty section when there is none. *)
Definition touch (m : model) (sec : string) : model := ainsert sec [] m.

(** m[sec].assertion_map[p_type]->...: operator[] creates a null pointer for an
    unknown key, whose dereference is undefined. *)
Definition get_ast (m : model) (sec pt : string) : res assertion :=
  match aget pt (sec_of m sec) with Some a => Ok a | None => UB NullDeref end.

(** m[sec].assertion_map[p_type] = a *)
Definition put_ast (m : model) (sec pt : string) (a : assertion) : model :=
  aset sec (aset pt a (sec_of m sec)) m.

Definition put_policy (m : model) (sec pt : string) (a : assertion) (p : store) : model :=
  put_ast m sec pt (with_policy a p).

(** model.cpp:242-244 [GetPolicy]. *)
Definition GetPolicy (m : model) (sec pt : string) : res store :=
  let! a := get_ast m sec pt in Ok (a_policy a).

(** The test of model.cpp:252-258 and 408-414: for each non-empty filter value the
    field at field_index + j must be equal to it; stops at the first difference.
    Reading past the end of the rule is undefined. *)
Fixpoint field_match (r : rule) (i : nat) (vals : list string) : res bool :=
  match vals with
  | [] => Ok true
  | v :: vs =>
      if String.eqb v "" then field_match r (S i) vs
      else match nth_error r i with
           | None => UB OutOfBounds
           | Some x => if String.eqb x v then field_match r (S i) vs else Ok false
           end
  end.

(** model.cpp:251-261, the loop: rules that match, in order. *)
Fixpoint filter_rules (i : nat) (vals : list string) (l : list rule) : res (list rule) :=
  match l with
  | [] => Ok []
  | r :: rs =>
      let! b := field_match r i vals in
      let! rest := filter_rules i vals rs in
      Ok (if b then r :: rest else rest)
  end.

(** model.cpp:247-264 [GetFilteredPolicy]; the result is a vector. *)
Definition GetFilteredPolicy (m : model) (sec pt : string) (i : nat) (vals : list string)
  : res (list rule) :=
  let! a := get_ast m sec pt in filter_rules i vals (rules_of (a_policy a)).

(** The loop of model.cpp:269-271. *)
Definition has_rule (l : list rule) (r : rule) : bool := existsb (ArrayEquals r) l.

(** model.cpp:267-274 [HasPolicy]. *)
Definition HasPolicy (m : model) (sec pt : string) (r : rule) : res bool :=
  let! a := get_ast m sec pt in Ok (has_rule (rules_of (a_policy a)) r).

(** model.cpp:277-284 [AddPolicy]. *)
Definition AddPolicy (m : model) (sec pt : string) (r : rule) : res (model * bool) :=
  let! a := get_ast m sec pt in
  if has_rule (rules_of (a_policy a)) r then Ok (m, false)
  else Ok (put_policy m sec pt a (emplace (a_policy a) r), true).

(** model.cpp:287-296 [AddPolicies].  With no rules the assertion is never
    dereferenced, so an unknown policy type is harmless then. *)
Definition AddPolicies (m : model) (sec pt : string) (rs : list rule) : res (model * bool) :=
  match rs with
  | [] => Ok (m, true)
  | _ =>
    let! a := get_ast m sec pt in
    if existsb (has_rule (rules_of (a_policy a))) rs then Ok (m, false)
    else Ok (put_policy m sec pt a (fold_left emplace rs (a_policy a)), true)
  end.

(** The erase loops model.cpp:305-311, 336-342, 366-371: erase the first rule that
    is ArrayEquals, if any. *)
Fixpoint erase_first (r : rule) (l : list rule) : option (list rule) :=
  match l with
  | [] => None
  | x :: xs => if ArrayEquals r x then Some xs else option_map (cons x) (erase_first r xs)
  end.

(** model.cpp:298-326 [UpdatePolicy]. *)
Definition UpdatePolicy (m : model) (sec pt : string) (old new : rule) : res (model * bool) :=
  let! a := get_ast m sec pt in
  match erase_first old (rules_of (a_policy a)) with
  | None => Ok (m, false)
  | Some l =>
      let p := with_rules (a_policy a) l in
      if has_rule l new then Ok (put_policy m sec pt a p, false)
      else Ok (put_policy m sec pt a (emplace p new), true)
  end.

(** model.cpp:334-345: erase the old rules one after the other; stops at the first
    one that is missing, the earlier ones stay erased. *)
Fixpoint erase_all (olds : list rule) (l : list rule) : list rule * bool :=
  match olds with
  | [] => (l, true)
  | o :: os => match erase_first o l with
               | None => (l, false)
               | Some l' => erase_all os l'
               end
  end.

(** model.cpp:328-360 [UpdatePolicies]. *)
Definition UpdatePolicies (m : model) (sec pt : string) (olds news : list rule) : res (model * bool) :=
  let! a := get_ast m sec pt in
  let (l, ok) := erase_all olds (rules_of (a_policy a)) in
  let p := with_rules (a_policy a) l in
  if negb ok then Ok (put_policy m sec pt a p, false)
  else if existsb (has_rule l) news then Ok (put_policy m sec pt a p, false)
  else Ok (put_policy m sec pt a (fold_left emplace news p), true).

(** model.cpp:363-373 [RemovePolicy]. *)
Definition RemovePolicy (m : model) (sec pt : string) (r : rule) : res (model * bool) :=
  let! a := get_ast m sec pt in
  match erase_first r (rules_of (a_policy a)) with
  | None => Ok (m, false)
  | Some l => Ok (put_policy m sec pt a (with_rules (a_policy a) l), true)
  end.

(** model.cpp:376-399 [RemovePolicies].  After the check every rule has a match, so
    the second loop erases through an iterator and then increments it: undefined
    as soon as there is one rule to remove. *)
Definition RemovePolicies (m : model) (sec pt : string) (rs : list rule) : res (model * bool) :=
  let! a := get_ast m sec pt in
  if forallb (has_rule (rules_of (a_policy a))) rs
  then match rs with [] => Ok (m, true) | _ => UB InvalidIterator end
  else Ok (m, false).

(** model.cpp:407-420, the loop: (effects, tmp) = rules that match and rules that
    do not. *)
Fixpoint partition_rules (i : nat) (vals : list string) (l : list rule)
  : res (list rule * list rule) :=
  match l with
  | [] => Ok ([], [])
  | r :: rs =>
      let! b := field_match r i vals in
      let! (eff, tmp) := partition_rules i vals rs in
      Ok (if b then (r :: eff, tmp) else (eff, r :: tmp))
  end.

(** model.cpp:402-425 [RemoveFilteredPolicy].  [policy = tmp] makes the storage a
    vector whatever it was before. *)
Definition RemoveFilteredPolicy (m : model) (sec pt : string) (i : nat) (vals : list string)
  : res (model * (bool * list rule)) :=
  let! a := get_ast m sec pt in
  let! (eff, tmp) := partition_rules i vals (rules_of (a_policy a)) in
  Ok (put_policy m sec pt a (Vec tmp), (match eff with [] => false | _ => true end, eff)).

(** model.cpp:428-439 [GetValuesForFieldInPolicy]. *)
Definition GetValuesForFieldInPolicy (m : model) (sec pt : string) (i : nat) : res (list string) :=
  let! a := get_ast m sec pt in
  let! vs := mapr (fun r => match nth_error r i with Some x => Ok x | None => UB OutOfBounds end)
                  (rules_of (a_policy a)) in
  Ok (ArrayRemoveDuplicates vs).

(** model.cpp:442-454 [GetValuesForFieldInPolicyAllTypes]. *)
Definition GetValuesForFieldInPolicyAllTypes (m : model) (sec : string) (i : nat)
  : model * res (list string) :=
  let m' := touch m sec in
  (m', let! vss := mapr (fun kv => GetValuesForFieldInPolicy m' sec (fst kv) i) (sec_of m' sec) in
       Ok (ArrayRemoveDuplicates (List.concat vss))).

(** model.cpp:227-239 [ClearPolicy]; the test "size() > 0" changes nothing. *)
Definition clear_sec (am : assertion_map) : assertion_map :=
  map (fun kv => (fst kv, with_policy (snd kv) (store_clear (a_policy (snd kv))))) am.
Definition ClearPolicy (m : model) : model :=
  let m1 := touch m "p" in
  let m2 := aset "p" (clear_sec (sec_of m1 "p")) m1 in
  let m3 := touch m2 "g" in
  aset "g" (clear_sec (sec_of m3 "g")) m3.

(** ** Role links: casbin/model/assertion.cpp *)

Inductive policy_op := policy_add | policy_remove.

(** One iteration of assertion.cpp:36-52 / 62-70: cut the rule to [n] fields, the
    first two are the names, the rest is the domain. *)
Definition link_rule (op : policy_op) (n : nat) (r : role_manager) (ru : rule)
  : role_manager * res unit :=
  if Nat.ltb (List.length ru) n then (r, Throw IllegalArgument)
  else match firstn n ru with
       | a :: b :: dom =>
           match op with
           | policy_add => AddLink r a b dom
           | policy_remove => DeleteLink r a b dom
           end
       | _ => (r, UB OutOfBounds)
       end.

(** The loops assertion.cpp:36-52 and 62-70; an exception leaves the links of the
    earlier rules in place. *)
Fixpoint link_rules (op : policy_op) (n : nat) (r : role_manager) (rs : list rule)
  : role_manager * res unit :=
  match rs with
  | [] => (r, Ok tt)
  | x :: xs => match link_rule op n r x with
               | (r', Ok _) => link_rules op n r' xs
               | (r', e) => (r', e)
               end
  end.

(** assertion.cpp:29-53 [Assertion::BuildIncrementalRoleLinks] without the
    assignment this->rm = rm, which [set_rm_of] below performs. *)
Definition ast_links (op : policy_op) (value : string) (r : role_manager) (rs : list rule)
  : role_manager * res unit :=
  let n := scount "_" value in
  if Nat.ltb n 2 then (r, Throw IllegalArgument) else link_rules op n r rs.

(** The heap of role managers. *)
Definition heap := list role_manager.
Definition hget (h : heap) (i : nat) : res role_manager :=
  match nth_error h i with Some r => Ok r | None => UB NullDeref end.
Fixpoint hset (h : heap) (i : nat) (r : role_manager) : heap :=
  match h, i with
  | [], _ => []
  | _ :: t, 0 => r :: t
  | x :: t, S j => x :: hset t j r
  end.

(** model.cpp:195-198 [Model::BuildIncrementalRoleLinks]; only for section "g". *)
Definition BuildIncrementalRoleLinks (m : model) (h : heap) (rm : nat) (op : policy_op)
           (sec pt : string) (rs : list rule) : model * heap * res unit :=
  if String.eqb sec "g" then
    match get_ast m sec pt with
    | Ok a =>
        let m' := put_ast m sec pt (with_rm a (Some rm)) in
        match hget h rm with
        | Ok r => let (r', out) := ast_links op (a_value a) r rs in (m', hset h rm r', out)
        | Throw e => (m', h, Throw e)
        | UB u => (m', h, UB u)
        end
    | Throw e => (m, h, Throw e)
    | UB u => (m, h, UB u)
    end
  else (m, h, Ok tt).

(** model.cpp:201-204 [Model::BuildRoleLinks] with assertion.cpp:55-81: for every
    assertion of section g, in iteration order; stops at an exception. *)
Fixpoint build_asts (h : heap) (rm : nat) (todo : assertion_map) : assertion_map * heap * res unit :=
  match todo with
  | [] => ([], h, Ok tt)
  | (k, a) :: rest =>
      let a' := with_rm a (Some rm) in
      match hget h rm with
      | Ok r =>
          match ast_links policy_add (a_value a) r (rules_of (a_policy a)) with
          | (r', Ok _) =>
              let '(am, h', out) := build_asts (hset h rm r') rm rest in
              ((k, a') :: am, h', out)
          | (r', e) => ((k, a') :: rest, hset h rm r', e)
          end
      | Throw e => ((k, a') :: rest, h, Throw e)
      | UB u => ((k, a') :: rest, h, UB u)
      end
  end.
Definition BuildRoleLinks (m : model) (h : heap) (rm : nat) : model * heap * res unit :=
  let m1 := touch m "g" in
  let '(am, h', out) := build_asts h rm (sec_of m1 "g") in
  (aset "g" am m1, h', out).
