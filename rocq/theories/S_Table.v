(** Specification for property C113: the policy as a table of rules. *)
From Verif Require Import Base M_Util M_RoleManager M_Model M_Persist M_Eval M_Evaluator M_Enforcer
  S_Policy S_History S_Roles S_Sync S_Safe.

(** A table has a list of rules for every type of policy rules and of grouping rules. *)
Inductive part := Rules | Groupings.
Definition section_name (s : part) : string := match s with Rules => "p" | Groupings => "g" end.
Definition table := part -> string -> list rule.
(** The table of an enforcer. *)
Definition table_of (e : enforcer) : table := fun s pt => stored e (section_name s) pt.

(** What one does with a table. *)
Inductive op :=
| Put (s : part) (pt : string) (r : rule)
| PutAll (s : part) (pt : string) (rs : list rule)
| Drop (s : part) (pt : string) (r : rule)
| DropMatching (s : part) (pt : string) (i : nat) (vals : list string)
| Swap (pt : string) (old new : rule)
| Ask (s : part) (pt : string) (r : rule)
| Show (s : part) (pt : string)
| ShowMatching (s : part) (pt : string) (i : nat) (vals : list string).
Inductive answer := Said (b : bool) | Listed (l : list rule).

Definition untouched (T T' : table) : Prop := forall s pt, T' s pt = T s pt.
(** One list becomes [l], the others stay. *)
Definition becomes (T : table) (s : part) (pt : string) (l : list rule) (T' : table) : Prop :=
  T' s pt = l /\ forall s' pt', (s', pt') <> (s, pt) -> T' s' pt' = T s' pt'.

Inductive table_step : op -> table -> answer -> table -> Prop :=
| put_new : forall s pt r T T', ~ In r (T s pt) -> becomes T s pt (T s pt ++ [r]) T' ->
    table_step (Put s pt r) T (Said true) T'
| put_again : forall s pt r T T', In r (T s pt) -> untouched T T' -> table_step (Put s pt r) T (Said false) T'
(* all or nothing *)
| put_all_new : forall s pt rs T T', (forall r, In r rs -> ~ In r (T s pt)) -> becomes T s pt (T s pt ++ rs) T' ->
    table_step (PutAll s pt rs) T (Said true) T'
| put_all_again : forall s pt rs r T T', In r rs -> In r (T s pt) -> untouched T T' -> table_step (PutAll s pt rs) T (Said false) T'
| drop_there : forall s pt r T T' pre post, T s pt = pre ++ r :: post -> ~ In r pre ->
    becomes T s pt (pre ++ post) T' -> table_step (Drop s pt r) T (Said true) T'
| drop_missing : forall s pt r T T', ~ In r (T s pt) -> untouched T T' -> table_step (Drop s pt r) T (Said false) T'
| drop_matching : forall s pt i vals T T' b l, selects (fun r => ~ qualifies i vals r) (T s pt) l ->
    (b = true <-> exists r, In r (T s pt) /\ qualifies i vals r) ->
    becomes T s pt l T' -> table_step (DropMatching s pt i vals) T (Said b) T'
| swap_there : forall pt old new T T' pre post, T Rules pt = pre ++ old :: post -> ~ In old pre -> ~ In new (pre ++ post) ->
    becomes T Rules pt (pre ++ post ++ [new]) T' -> table_step (Swap pt old new) T (Said true) T'
(* the new rule is there already: the answer is no, and the old rule is gone (see C19) *)
| swap_onto : forall pt old new T T' pre post, T Rules pt = pre ++ old :: post -> ~ In old pre -> In new (pre ++ post) ->
    becomes T Rules pt (pre ++ post) T' -> table_step (Swap pt old new) T (Said false) T'
| swap_missing : forall pt old new T T', ~ In old (T Rules pt) -> untouched T T' -> table_step (Swap pt old new) T (Said false) T'
| ask : forall s pt r T T' b, (b = true <-> In r (T s pt)) -> untouched T T' -> table_step (Ask s pt r) T (Said b) T'
| show : forall s pt T T', untouched T T' -> table_step (Show s pt) T (Listed (T s pt)) T'
| show_matching : forall s pt i vals T T' l, selects (qualifies i vals) (T s pt) l -> untouched T T' ->
    table_step (ShowMatching s pt i vals) T (Listed l) T'.
Inductive table_run : list op -> table -> list answer -> table -> Prop :=
| run_nil : forall T T', untouched T T' -> table_run [] T [] T'
| run_cons : forall q qs T T1 T2 a l, table_step q T a T1 -> table_run qs T1 l T2 -> table_run (q :: qs) T (a :: l) T2.

(** The calls. *)
Definition said (x : M bool) : M answer := b <- x ;; ret (Said b).
Definition listed (x : M (list rule)) : M answer := l <- x ;; ret (Listed l).
Definition perform (q : op) : M answer :=
  match q with
  | Put Rules pt r => said (AddNamedPolicy pt r)
  | Put Groupings pt r => said (AddNamedGroupingPolicy pt r)
  | PutAll Rules pt rs => said (AddNamedPolicies pt rs)
  | PutAll Groupings pt rs => said (AddNamedGroupingPolicies pt rs)
  | Drop Rules pt r => said (RemoveNamedPolicy pt r)
  | Drop Groupings pt r => said (RemoveNamedGroupingPolicy pt r)
  | DropMatching Rules pt i vals => said (RemoveFilteredNamedPolicy pt i vals)
  | DropMatching Groupings pt i vals => said (RemoveFilteredNamedGroupingPolicy pt i vals)
  | Swap pt old new => said (UpdateNamedPolicy pt old new)
  | Ask Rules pt r => said (HasNamedPolicy pt r)
  | Ask Groupings pt r => said (HasNamedGroupingPolicy pt r)
  | Show Rules pt => listed (GetNamedPolicy pt)
  | Show Groupings pt => listed (GetNamedGroupingPolicy pt)
  | ShowMatching Rules pt i vals => listed (GetFilteredNamedPolicy pt i vals)
  | ShowMatching Groupings pt i vals => listed (GetFilteredNamedGroupingPolicy pt i vals)
  end.
(** All of them one after the other: what each of them returned or threw, and the enforcer after. *)
Fixpoint perform_all (qs : list op) (e : enforcer) : enforcer * list (res answer) :=
  match qs with
  | [] => (e, [])
  | q :: qs => let (e1, out) := perform q e in let (e2, outs) := perform_all qs e1 in (e2, out :: outs)
  end.

(** The rules in use: those of the section p have [k] fields, and no rule is another one with its
    values in another order ([tidy] says so of grouping rules).  Rules are put together only where
    there is no adapter, one that takes them together, or no automatic saving, and each of them once. *)
Definition distinct_rules (k : nat) (prules : rule -> Prop) : Prop :=
  (forall r, prules r -> List.length r = k) /\ (forall r r', prules r -> prules r' -> Permutation.Permutation r r' -> r = r').
Definition op_in (k n : nat) (prules rules : rule -> Prop) (e : enforcer) (q : op) : Prop :=
  match q with
  | Put s pt r | Drop s pt r | Ask s pt r =>
      declared e (section_name s) pt /\ match s with Rules => prules r | Groupings => rules r end
  | PutAll s pt rs =>
      declared e (section_name s) pt /\ Forall (match s with Rules => prules | Groupings => rules end) rs /\ NoDup rs /\ batch_saveable e
  | Swap pt old new => declared e "p" pt /\ prules old /\ prules new
  | Show s pt => declared e (section_name s) pt
  | DropMatching s pt i vals | ShowMatching s pt i vals =>
      declared e (section_name s) pt /\ i + List.length vals <= match s with Rules => k | Groupings => n end
  end.
Record in_order (o : oracle) (names : node -> Prop) (k n : nat) (prules rules : rule -> Prop) (e : enforcer) : Prop := mkInOrder {
  io_managed : managed o names n rules e;
  io_rules : forall pt r, In r (stored e "p" pt) -> prules r;
  io_once : forall s pt, NoDup (stored e (section_name s) pt) }.
