(** Specification of the four policy effects, independent of the code: which
    decision follows from the results of the rules, and which rule explains it. *)
From Verif Require Import Base M_Effector.

(** What a rule contributes: does its matcher hold for the request, and its effect. *)
Notation outcome := (bool * effect)%type.

Inductive policy_effect := AllowOverride | DenyOverride | AllowAndDeny | Priority.

(** The texts of the effect definition in a model file. *)
Definition effect_text (pe : policy_effect) : string :=
  match pe with
  | AllowOverride => "some(where (p.eft == allow))"
  | DenyOverride => "!some(where (p.eft == deny))"
  | AllowAndDeny => "some(where (p.eft == allow)) && !some(where (p.eft == deny))"
  | Priority => "priority(p.eft) || deny"
  end.

(** A rule that matches and says allow or deny. *)
Definition decisive (o : outcome) : Prop := fst o = true /\ snd o <> Indeterminate.

(** When the request is permitted, given the results of all rules in policy order. *)
Definition permits (pe : policy_effect) (os : list outcome) : Prop :=
  match pe with
  | AllowOverride => In (true, Allow) os
  | DenyOverride => ~ In (true, Deny) os
  | AllowAndDeny => In (true, Allow) os /\ ~ In (true, Deny) os
  | Priority => exists pre post, os = pre ++ (true, Allow) :: post /\ Forall (fun o => ~ decisive o) pre
  end.

(** The rules that can be given as the reason. *)
Definition reason (pe : policy_effect) (os : list outcome) (o : outcome) : Prop :=
  match pe with
  | AllowOverride => o = (true, Allow)
  | DenyOverride => o = (true, Deny)
  | AllowAndDeny => o = (true, Deny) \/ (o = (true, Allow) /\ ~ In (true, Deny) os)
  | Priority => decisive o
  end.

(** The explanation: the first rule that is a reason, nothing if there is none. *)
Definition explains (pe : policy_effect) (os : list outcome) (x : option nat) : Prop :=
  match x with
  | Some i => exists pre o post, os = pre ++ o :: post /\ List.length pre = i /\
                reason pe os o /\ Forall (fun o' => ~ reason pe os o') pre
  | None => Forall (fun o => ~ reason pe os o) os
  end.
