(** Vocabulary of property C87: requests given as a map from field names to values. *)
From Verif Require Import Base M_Util M_RoleManager M_Model M_Eval M_Evaluator M_Enforcer.

(** The string a map gives for a field; a JSON value counts as none. *)
Definition given (ps : list (string * data)) (f : string) : option string :=
  match aget f ps with Some (DStr v) => Some v | _ => None end.

(** A map that names declared fields only, each at most once (it is a map). *)
Definition names_fields (rf : list string) (ps : list (string * data)) : Prop :=
  NoDup (map fst ps) /\ forall f, In f (map fst ps) -> In f rf.

(** [req] is the request [ps] states: every declared field has the value of [req]. *)
Definition states (rf : list string) (ps : list (string * data)) (req : list string) : Prop :=
  Forall2 (fun f v => given ps f = Some v) rf req.

(** [req'] is [ps] completed by the values of the earlier request [req]. *)
Definition completes (rf : list string) (req : list string) (ps : list (string * data)) (req' : list string) : Prop :=
  List.length req = List.length rf /\
  Forall2 (fun fv w => given ps (fst fv) = Some w \/ given ps (fst fv) = None /\ w = snd fv) (combine rf req) req'.

(** A request of a history: by position, or by name. *)
Inductive mreq := ByPosition (req : list string) | ByName (ps : list (string * data)).

(** The requests a history stands for, one for each element, when [req] came before. *)
Inductive stands (rf : list string) : list string -> list (string * mreq) -> list string -> Prop :=
| st_none : forall req, stands rf req [] req
| st_position : forall req m req1 qs last, List.length req1 = List.length rf -> stands rf req1 qs last ->
    stands rf req ((m, ByPosition req1) :: qs) last
| st_name : forall req m ps req1 qs last, names_fields rf ps -> completes rf req ps req1 -> stands rf req1 qs last ->
    stands rf req ((m, ByName ps) :: qs) last.

(** Asking: the answers are those of the enforcement calls with a matcher. *)
Definition ask_m (o : oracle) (matcher : string) (q : mreq) : M (bool * list string) :=
  match q with
  | ByPosition req => EnforceExWithMatcher o matcher (map DStr req)
  | ByName ps => EnforceExWithMatcherMap o matcher ps
  end.
Fixpoint ask_all_m (o : oracle) (qs : list (string * mreq)) (e : enforcer) : enforcer :=
  match qs with [] => e | (m, q) :: qs' => ask_all_m o qs' (fst (ask_m o m q e)) end.
