(** Vocabulary of property C106: requests some of whose values are JSON documents. *)
From Verif Require Import Base M_Util M_RoleManager M_Model M_Eval M_Evaluator M_Enforcer S_Enforce.

(** [req] is the request [ds] with each JSON document replaced by the value the same
    field has in [before]. *)
Inductive filled : list string -> list data -> list string -> Prop :=
| fi_none : filled [] [] []
| fi_text : forall b before v ds req, filled before ds req -> filled (b :: before) (DStr v :: ds) (v :: req)
| fi_json : forall b before ds req, filled before ds req -> filled (b :: before) (DJson :: ds) (b :: req).

(** The requests of a history, when [before] was asked ahead of it: [last] is what the
    last of them stands for. *)
Inductive carried : list string -> list (string * list data) -> list string -> Prop :=
| ca_none : forall before, carried before [] before
| ca_some : forall before m ds req qs last, filled before ds req -> carried req qs last ->
    carried before ((m, ds) :: qs) last.

(** Asking, one request after the other, each with its matcher. *)
Fixpoint ask_json (o : oracle) (qs : list (string * list data)) (e : enforcer) : enforcer :=
  match qs with [] => e | (m, ds) :: qs' => ask_json o qs' (fst (EnforceExWithMatcher o m ds e)) end.

(** The matcher cannot be compiled unless the variable [x] exists. *)
Definition requires (o : oracle) (matcher x : string) : Prop :=
  forall vars arity, vars x = false -> o_compiles o matcher vars arity = false.

(** The value of the matcher does not depend on the variable [x]. *)
Definition ignores (o : oracle) (matcher x : string) : Prop :=
  forall v w g, (forall y, y <> x -> v y = w y) -> o_value o matcher v g = o_value o matcher w g.

(** [req] is [ds] with some string in place of each JSON document. *)
Definition agrees (ds : list data) (req : list string) : Prop :=
  Forall2 (fun d v => d = DStr v \/ d = DJson) ds req.
