(** Specification vocabulary for the policy store. *)
From Coq Require Import Permutation.
From Verif Require Import Base M_Util M_RoleManager M_Model M_Persist M_Evaluator M_Enforcer.

(** The rules of a policy type, in order, as GetNamedPolicy / GetNamedGroupingPolicy
    list them; [declared] that the model has this type. *)
Definition rules_in (m : model) (sec pt : string) : list rule :=
  match get_ast m sec pt with Ok a => rules_of (a_policy a) | _ => [] end.
Definition stored (e : enforcer) (sec pt : string) : list rule := rules_in (e_model e) sec pt.
Definition declared (e : enforcer) (sec pt : string) : Prop := exists a, get_ast (e_model e) sec pt = Ok a.

(** The rules of all other policy types are untouched. *)
Definition others_kept (sec pt : string) (e e' : enforcer) : Prop :=
  forall sec' pt', (sec', pt') <> (sec, pt) -> stored e' sec' pt' = stored e sec' pt'.

(** Nothing but possibly the position of a value distinguishes a stored rule from [r]
    only if it is [r]. *)
Definition no_anagram (r : rule) (l : list rule) : Prop :=
  forall x, In x l -> Permutation r x -> x = r.

(** What the adapter says to a change: it is not asked, or does not object (an adapter
    that does not support the operation is ignored). *)
Definition save_fine (e : enforcer) (c : acall) : Prop :=
  match e_adapter e with
  | None => True
  | Some a => e_auto_save e = false \/ snd (adapter_call a c) = Ok tt \/
              snd (adapter_call a c) = Throw UnsupportedOperation
  end.

(** A rule qualifies for a filter: every non-empty value is the value of its field. *)
Definition qualifies (i : nat) (vals : list string) (r : rule) : Prop :=
  forall j v, nth_error vals j = Some v -> v <> "" -> nth_error r (i + j) = Some v.

(** Every filter value has a field in the rule. *)
Definition filter_in_range (i : nat) (vals : list string) (l : list rule) : Prop :=
  forall r, In r l -> i + List.length vals <= List.length r.

(** One list is obtained from the other by keeping the elements with a property. *)
Inductive selects (P : rule -> Prop) : list rule -> list rule -> Prop :=
| sel_nil : selects P [] []
| sel_keep : forall r l l', P r -> selects P l l' -> selects P (r :: l) (r :: l')
| sel_drop : forall r l l', ~ P r -> selects P l l' -> selects P (r :: l) l'.
