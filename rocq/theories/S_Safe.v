(** Well-formed states and well-formed calls, for the absence of undefined behaviour. *)
From Verif Require Import Base M_Util M_RoleManager M_Model M_Persist M_Eval M_Evaluator M_Enforcer S_Text S_Policy S_Persist S_History.

(** The number of fields of the rules of each policy type, by section and name. *)
Definition arity := string -> string -> nat.

(** A well-formed state: every rule has the number of fields of its type; the enforcer
    has a role manager, and so has every role definition whose links have been built and
    every role function known to the evaluator. *)
Record well_formed (ar : arity) (e : enforcer) : Prop := mkWF {
  wf_rules : forall sec pt r, In r (stored e sec pt) -> List.length r = ar sec pt;
  wf_rm : e_rm e < List.length (e_heap e);
  wf_links : forall sec pt a i, get_ast (e_model e) sec pt = Ok a -> a_rm a = Some i -> i < List.length (e_heap e);
  wf_funs : forall v f i n, e_ev e = Some v -> In (f, FG (Some i) n) (ev_funs v) -> i < List.length (e_heap e) }.

(** The expression library itself has no undefined behaviour: with role functions that
    have none its values are values or exceptions. *)
Definition defined {A} (r : res A) : Prop := forall u, r <> UB u.
Definition total_library (o : oracle) : Prop :=
  forall t vars funs, (forall f args r, funs f args = Some r -> defined r) -> defined (o_value o t vars funs).

(** The role links of the definition g have been built at least once. *)
Definition links_built (e : enforcer) : Prop := exists a i, get_ast (e_model e) "g" "g" = Ok a /\ a_rm a = Some i.

(** A batch change can be saved: no adapter, automatic saving off, or an adapter that
    implements the batch functions. *)
Definition is_batch_adapter (a : adapter) : bool :=
  match a with AFile b _ => b | AString _ | AFiltered _ _ => false | AUser u => ua_batch u end.
Definition batch_saveable (e : enforcer) : Prop :=
  match e_adapter e with
  | None => True
  | Some a => e_auto_save e = false \/ is_batch_adapter a = true
  end.

(** Names of fields that the expression library accepts as parts of variable names. *)
Definition plain_name (s : string) : Prop := s <> "" /\ every (fun c => is_word c = true) s.
(** The model can be enforced: the four definitions are there, and the fields have plain
    names.  With a matcher given in the call the definition of the matcher is not needed. *)
Definition enforceable (e : enforcer) (matcher : string) : Prop :=
  (exists a fs, get_ast (e_model e) "r" "r" = Ok a /\ a_tokens a = map (String.append "r_") fs /\ Forall plain_name fs) /\
  (exists a fs, get_ast (e_model e) "p" "p" = Ok a /\ a_tokens a = map (String.append "p_") fs /\ Forall plain_name fs) /\
  declared e "e" "e" /\ (matcher = "" -> declared e "m" "m").

(** The rules an adapter delivers, also when it throws in the end. *)
Definition delivers (e : enforcer) (rs : list (string * rule)) : Prop :=
  match e_adapter e with
  | Some (AUser u) => lines_mean eq (fst (ua_load u (ua_log u))) rs
  | _ => offers e rs
  end.
(** There is an adapter, and the rules it delivers are of declared types and of the number
    of fields of their type. *)
Definition loadable (ar : arity) (e : enforcer) : Prop :=
  e_adapter e <> None /\
  forall rs kr, delivers e rs -> In kr rs -> known e kr /\ List.length (snd kr) = ar (section_of (fst kr)) (fst kr).
(** An adapter that can save: not the filtered one before it has loaded with a filter. *)
Definition saveable (e : enforcer) : Prop :=
  match e_adapter e with None => False | Some (AFiltered _ filtered) => filtered = true | Some _ => True end.
(** A model as the loader delivers it: the rules it may have fit, nothing is linked. *)
Definition fresh_model (ar : arity) (m : model) : Prop :=
  forall sec pt a, get_ast m sec pt = Ok a -> a_rm a = None /\ forall r, In r (rules_of (a_policy a)) -> List.length r = ar sec pt.

(** A well-formed call: the policy types it names are declared, the rules it brings
    have the number of fields of their type, and the fields it filters or reads exist;
    what is loaded fits the model, the model has what enforcement needs, and the adapter
    can do what it is asked to. *)
Definition proper (ar : arity) (e : enforcer) (c : call) : Prop :=
  match c with
  | KAddPolicy pt r => declared e "p" pt /\ List.length r = ar "p" pt
  | KAddPolicies pt rs | KRemovePolicies pt rs =>
      declared e "p" pt /\ (forall r, In r rs -> List.length r = ar "p" pt) /\ batch_saveable e
  | KRemovePolicy pt _ => declared e "p" pt
  | KRemoveFiltered pt i vals => declared e "p" pt /\ i + List.length vals <= ar "p" pt
  | KUpdatePolicy pt _ new => declared e "p" pt /\ List.length new = ar "p" pt
  | KUpdatePolicies pt _ news => declared e "p" pt /\ forall r, In r news -> List.length r = ar "p" pt
  | KAddGrouping pt r => declared e "g" pt /\ List.length r = ar "g" pt
  | KAddGroupings pt rs | KRemoveGroupings pt rs =>
      declared e "g" pt /\ (forall r, In r rs -> List.length r = ar "g" pt) /\ batch_saveable e
  | KRemoveGrouping pt _ => declared e "g" pt
  | KRemoveFilteredGrouping pt i vals => declared e "g" pt /\ i + List.length vals <= ar "g" pt
  | KUpdateGrouping pt _ new => declared e "g" pt /\ List.length new = ar "g" pt
  | KAddRolesForUser _ _ => declared e "g" "g" /\ ar "g" "g" = 2
  | KDeleteUser _ => declared e "g" "g" /\ 1 <= ar "g" "g" /\ declared e "p" "p" /\ 1 <= ar "p" "p"
  | KDeleteRole _ => declared e "g" "g" /\ 2 <= ar "g" "g" /\ declared e "p" "p" /\ 1 <= ar "p" "p"
  | KGetAll sec i => forall pt, declared e sec pt -> i < ar sec pt
  | KGetRolesForUser _ _ => links_built e
  | KGetImplicitRoles _ _ => True
  | KGetImplicitPermissions _ domain => declared e "p" "p" /\ 1 + List.length domain <= ar "p" "p"
  | KGetImplicitUsers perm =>
      enforceable e "" /\ 2 <= List.length perm /\
      (forall pt, declared e "p" pt -> 0 < ar "p" pt) /\ (forall pt, declared e "g" pt -> 1 < ar "g" pt)
  | KEnforce matcher _ | KBatchEnforce matcher _ => enforceable e matcher
  | KEnforceMap matcher params => enforceable e matcher /\ Forall (fun kv => plain_name (fst kv)) params
  | KLoadPolicy => loadable ar e
  | KLoadFilteredPolicy _ => exists a, e_adapter e = Some a /\ adapter_filtered a = false
  | KSavePolicy => saveable e
  | KSetModel m => fresh_model ar m
  | KSetAdapter _ | KSetRoleManager _ => True
  | KClearPolicy | KBuildRoleLinks | KEnableEnforce _ | KEnableAutoNotify _ | KEnableAutoSave _
  | KEnableAutoBuild _ | KSetWatcher | KSetEvaluator | KAddMatchingFunc _ => True
  end.

(** Every call of a history is well-formed when its turn comes. *)
Fixpoint all_proper (ar : arity) (o : oracle) (e : enforcer) (cs : list call) : Prop :=
  match cs with
  | [] => True
  | c :: cs' => proper ar e c /\ all_proper ar o (fst (run o c e)) cs'
  end.

(** The outcomes of the calls of a history: an exception does not end it. *)
Fixpoint outcomes (o : oracle) (e : enforcer) (cs : list call) : list (res unit) :=
  match cs with
  | [] => []
  | c :: cs' => snd (run o c e) :: outcomes o (fst (run o c e)) cs'
  end.
