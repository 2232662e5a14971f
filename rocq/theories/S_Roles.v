(** Specification of a role manager: a set of direct links changed by AddLink,
    DeleteLink and Clear; inheritance is a chain of links. *)
From Verif Require Import Base M_RoleManager.

(** A domain is optional; the API takes it as a list of at most one string. *)
Definition dom_arg (d : option string) : list string := match d with Some x => [x] | None => [] end.
(** A name within a domain, and "a inherits b within d". *)
Definition node := (option string * string)%type.
Definition link := (option string * string * string)%type.

(** Calls on a role manager. *)
Inductive rcall :=
| RAdd (d : option string) (a b : string)
| RDel (d : option string) (a b : string)
| RClear
| RHasLink (d : option string) (a b : string)
| RGetRoles (d : option string) (a : string)
| RGetUsers (d : option string) (b : string).

(** The role manager after a call. *)
Definition rrun (r : role_manager) (c : rcall) : role_manager :=
  match c with
  | RAdd d a b => fst (AddLink r a b (dom_arg d))
  | RDel d a b => fst (DeleteLink r a b (dom_arg d))
  | RClear => Clear r
  | RHasLink d a b => fst (HasLink r a b (dom_arg d))
  | RGetRoles d a => fst (GetRoles r a (dom_arg d))
  | RGetUsers d b => r
  end.
(** The role manager after a history of calls on a new one. *)
Definition rm_after (level : nat) (cs : list rcall) : role_manager := fold_left rrun cs (new_rm level).

(** The links in force after a history. *)
Definition links_step (L : link -> Prop) (c : rcall) : link -> Prop :=
  match c with
  | RAdd d a b => fun l => l = (d, a, b) \/ L l
  | RDel d a b => fun l => L l /\ l <> (d, a, b)
  | RClear => fun _ => False
  | _ => L
  end.
Definition links (cs : list rcall) : link -> Prop := fold_left links_step cs (fun _ => False).

(** [b] is reached from [a] by at most [n] links of the domain. *)
Inductive within (L : link -> Prop) (d : option string) : nat -> string -> string -> Prop :=
| within_same : forall n a, within L d n a a
| within_next : forall n a b c, L (d, a, b) -> within L d n b c -> within L d (S n) a c.

(** The names a history mentions. *)
Definition mentions (c : rcall) (n : node) : Prop :=
  match c with
  | RAdd d a b | RDel d a b | RHasLink d a b => n = (d, a) \/ n = (d, b)
  | RGetRoles d a => n = (d, a)
  | RGetUsers d b => n = (d, b)
  | RClear => False
  end.

(** Names are stored as one string, the domain and "::" put in front.  Two names a
    history mentions must not be spelled alike. *)
Definition spell (n : node) : string :=
  match n with (Some d, s) => (d ++ "::" ++ s)%string | (None, s) => s end.
Definition apart (cs : list rcall) : Prop :=
  forall c1 c2 n1 n2, In c1 cs -> In c2 cs -> mentions c1 n1 -> mentions c2 n2 -> spell n1 = spell n2 -> n1 = n2.

(** Ways to avoid such names: no name holds a colon, or no domain is ever given. *)
Definition no_colons (cs : list rcall) : Prop :=
  forall c n, In c cs -> mentions c n -> smem ":" (snd n) = false.
Definition no_domains (cs : list rcall) : Prop :=
  forall c n, In c cs -> mentions c n -> fst n = None.

(** With a matching function [f], a chain may also step from a name to a name it matches. *)
Inductive within_matching (f : string -> string -> bool) (L : link -> Prop) : nat -> string -> string -> Prop :=
| matching_same : forall n a, within_matching f L n a a
| matching_link : forall n a b c, L (None, a, b) -> within_matching f L n b c -> within_matching f L (S n) a c
| matching_step : forall n a b c, f a b = true -> within_matching f L n b c -> within_matching f L (S n) a c.
(** The role manager after a history of calls on a new one that was given [f]. *)
Definition rm_after_matching (f : string -> string -> bool) (level : nat) (cs : list rcall) : role_manager :=
  fold_left rrun cs (AddMatchingFunc f (new_rm level)).

(** The calls of a history that concern a domain; Clear concerns every domain. *)
Definition same_domain (d d' : option string) : bool :=
  match d, d' with
  | Some x, Some y => String.eqb x y
  | None, None => true
  | _, _ => false
  end.
Definition concerns (d : option string) (c : rcall) : bool :=
  match c with
  | RAdd d' _ _ | RDel d' _ _ | RHasLink d' _ _ | RGetRoles d' _ | RGetUsers d' _ => same_domain d d'
  | RClear => true
  end.
