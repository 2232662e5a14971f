(** Model of casbin/effect/default_effector.cpp and include/casbin/effect/effect.h. *)
From Verif Require Import Base.

(** include/casbin/effect/effect.h:22-29 (the order of the constructors is
    irrelevant: the code only tests for equality). *)
Inductive effect := Allow | Indeterminate | Deny.

Definition effect_eqb (a b : effect) : bool :=
  match a, b with
  | Allow, Allow | Indeterminate, Indeterminate | Deny, Deny => true
  | _, _ => false
  end.

(** The four texts compared with in MergeEffects (default_effector.cpp:34,45,58,87). *)
Definition eft_allow_override := "some(where (p.eft == allow))".
Definition eft_deny_override := "!some(where (p.eft == deny))".
Definition eft_allow_and_deny := "some(where (p.eft == allow)) && !some(where (p.eft == deny))".
Definition eft_priority := "priority(p.eft) || deny".

(** vector::operator[]: reading past the end is UB. *)
Definition vget {A} (l : list A) (i : nat) : res A :=
  match nth_error l i with Some x => Ok x | None => UB OutOfBounds end.

(** default_effector.cpp:74-85, the loop "merge all effects at last": the first
    index [>= i] that matched with effect Allow. *)
Fixpoint scan_allow (effects : list effect) (matches : list bool) (i : nat)
  : res (effect * option nat) :=
  match effects with
  | [] => Ok (Indeterminate, None)
  | e :: es =>
      match matches with
      | [] => UB OutOfBounds
      | mt :: ms =>
          if negb mt then scan_allow es ms (S i)
          else if effect_eqb e Allow then Ok (Allow, Some i)
          else scan_allow es ms (S i)
      end
  end.

(** default_effector.cpp:89-103, the reverse loop of the priority effect: [n] is
    the number of indices still to be visited, the next one is [n - 1]. *)
Fixpoint scan_priority (effects : list effect) (matches : list bool) (n : nat)
  : res (effect * option nat) :=
  match n with
  | 0 => Ok (Indeterminate, None)
  | S i =>
      let! mt := vget matches i in
      if negb mt then scan_priority effects matches i
      else
        let! e := vget effects i in
        match e with
        | Indeterminate => scan_priority effects matches i
        | Allow => Ok (Allow, Some i)
        | Deny => Ok (Deny, Some i)
        end
  end.

(** default_effector.cpp:30-110 [MergeEffects].  The explain index -1 is [None].
    [matches] holds floats that are only ever compared with 0; [true] stands for
    a non-zero entry. *)
Definition MergeEffects (expr : string) (effects : list effect) (matches : list bool)
           (policyIndex policyLength : nat) : res (effect * option nat) :=
  if String.eqb expr eft_allow_override then
    let! mt := vget matches policyIndex in
    if negb mt then Ok (Indeterminate, None)
    else
      let! e := vget effects policyIndex in
      if effect_eqb e Allow then Ok (Allow, Some policyIndex) else Ok (Indeterminate, None)
  else if String.eqb expr eft_deny_override then
    let! mt := vget matches policyIndex in
    let! e := vget effects policyIndex in
    if mt && effect_eqb e Deny then Ok (Deny, Some policyIndex)
    else if Nat.eqb policyIndex (policyLength - 1) then Ok (Allow, None)
    else Ok (Indeterminate, None)
  else if String.eqb expr eft_allow_and_deny then
    let! mt := vget matches policyIndex in
    let! e := vget effects policyIndex in
    if mt && effect_eqb e Deny then Ok (Deny, Some policyIndex)
    else if Nat.ltb policyIndex (policyLength - 1) then Ok (Indeterminate, None)
    else scan_allow effects matches 0
  else if String.eqb expr eft_priority then
    scan_priority effects matches (List.length effects)
  else Throw UnsupportedOperation.
