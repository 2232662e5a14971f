(** Specification of enforcement with an effector of the caller. *)
From Coq Require Import ZArith.
From Verif Require Import Base M_Util M_RoleManager M_Effector M_Model M_Persist M_Eval M_Evaluator M_Enforcer M_OwnEffector S_Effect S_Enforce.

(** What the effector is shown when rule [k] has been evaluated, [os] being the results of
    all rules: those up to [k], and nothing of the later ones. *)
Definition shown_effects (os : list outcome) (k : nat) : list effect :=
  map snd (firstn (S k) os) ++ repeat Indeterminate (List.length os - S k).
Definition shown_matches (os : list outcome) (k : nat) : list bool :=
  map fst (firstn (S k) os) ++ repeat false (List.length os - S k).

(** [asked_up_to eff expr os st0 k st r x]: the effector, in state [st0] at first, was asked
    once for each of the rules 0 ... k in turn; it answered Indeterminate to all questions but
    the last and [r] to the last; it then is in state [st], the explain index is [x]. *)
Inductive asked_up_to {St} (eff : effector St) (expr : string) (os : list outcome) (st0 : St)
  : nat -> St -> effect -> option Z -> Prop :=
| asked_first : forall st r x, 0 < List.length os ->
    eff st0 expr (shown_effects os 0) (shown_matches os 0) 0 (List.length os) None = (st, Ok (r, x)) ->
    asked_up_to eff expr os st0 0 st r x
| asked_next : forall k st x st' r x', asked_up_to eff expr os st0 k st Indeterminate x -> S k < List.length os ->
    eff st expr (shown_effects os (S k)) (shown_matches os (S k)) (S k) (List.length os) x = (st', Ok (r, x')) ->
    asked_up_to eff expr os st0 (S k) st' r x'.
(** ... and that was the end: it gave a decision, or there are no more rules. *)
Definition final {St} (eff : effector St) expr os st0 k (st : St) r x : Prop :=
  asked_up_to eff expr os st0 k st r x /\ (r <> Indeterminate \/ S k = List.length os).

(** The rule with index [x]. *)
Definition rule_at (rules : list rule) (x : Z) : list string :=
  if (x <? 0)%Z then [] else nth (Z.to_nat x) rules [].

(** [os] are the results of the rules consulted for a request: does the matcher hold for the
    rule, and its effect. *)
Definition results (o : oracle) (e : enforcer) (rf pf : list string) (mat matcher : string) (req : list string) (os : list outcome) : Prop :=
  Forall2 (fun r oc => verdict o (e_model e) (e_heap e) rf pf (chosen matcher mat) req r = Ok (fst oc) /\ snd oc = effect_of pf r)
    (candidates (e_model e) req) os.
