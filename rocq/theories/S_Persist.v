(** Specification of policy texts: what a text says, what an adapter offers. *)
From Verif Require Import Base M_Util M_RoleManager M_Model M_Persist M_Evaluator M_Enforcer S_Text S_Policy.

(** A line is empty, a comment, or a rule: the parts between commas without surrounding
    blanks, the first being the policy type. *)
Inductive line_means : string -> option (string * rule) -> Prop :=
| line_empty : line_means "" None
| line_comment : forall s, line_means (String "#" s) None
| line_rule : forall s parts key fields, s <> "" -> (forall t, s <> String "#" t) ->
    splits "," s parts -> Forall2 (trimmed blank) parts (key :: fields) -> line_means s (Some (key, fields)).

(** The rules that a list of lines says, in order; [clean] is what is done to a line first. *)
Inductive lines_mean (clean : string -> string -> Prop) : list string -> list (string * rule) -> Prop :=
| lines_nil : lines_mean clean [] []
| lines_skip : forall p l ps rs, clean p l -> line_means l None -> lines_mean clean ps rs -> lines_mean clean (p :: ps) rs
| lines_rule : forall p l r ps rs, clean p l -> line_means l (Some r) -> lines_mean clean ps rs -> lines_mean clean (p :: ps) (r :: rs).

(** The lines of a file are trimmed first, those of a text given as a string are not. *)
Definition newline : string := String "010" "".
Definition file_means (content : string) (rs : list (string * rule)) : Prop :=
  exists pieces, splits newline content pieces /\ lines_mean (trimmed blank) pieces rs.
Definition string_means (content : string) (rs : list (string * rule)) : Prop :=
  exists pieces, splits newline content pieces /\ lines_mean eq pieces rs.

(** The rules of one policy type, in order. *)
Definition rules_for (pt : string) (rs : list (string * rule)) : list rule :=
  map snd (List.filter (fun kr => String.eqb (fst kr) pt) rs).

(** What the adapter of an enforcer has in store.  A file that does not exist offers
    nothing. *)
Definition offers (e : enforcer) (rs : list (string * rule)) : Prop :=
  match e_adapter e with
  | None => False
  | Some (AFile _ path) | Some (AFiltered path _) =>
      path <> "" /\ match aget path (files (e_fs e)) with Some t => file_means t rs | None => rs = [] end
  | Some (AString t) => t <> "" /\ string_means t rs
  | Some (AUser u) => exists lines, ua_load u (ua_log u) = (lines, None) /\ lines_mean eq lines rs
  end.

(** The section of a policy type is named by its first letter. *)
Definition section_of (pt : string) : string := match pt with EmptyString => "" | String c _ => String c "" end.
Definition known (e : enforcer) (kr : string * rule) : Prop := declared e (section_of (fst kr)) (fst kr).

(** How rules are kept: a vector keeps them as they are, a set keeps each once. *)
Definition kept_as (s : store) (l l' : list rule) : Prop :=
  match s with
  | Vec _ => l' = l
  | Hash _ => NoDup l' /\ forall x, In x l' <-> In x l
  end.
Definition kind_of (e : enforcer) (sec pt : string) : store :=
  match get_ast (e_model e) sec pt with Ok a => a_policy a | _ => Vec [] end.

(** Values that a policy text can carry: no comma, no line break, no blank at the edges. *)
Definition plain_value (v : string) : Prop := lacks "," v /\ lacks "010" v /\ no_edge blank v.
Definition plain_rule (r : rule) : Prop := r <> [] /\ Forall plain_value r.
(** A policy type that a text can carry: it has the letter of its section. *)
Definition plain_type (sec pt : string) : Prop := plain_value pt /\ section_of pt = sec.

(** The policy of an enforcer can be written as a text: names of types and values of rules
    are plain, and every type has one definition. *)
Definition writable_policy (e : enforcer) : Prop :=
  forall sec, sec = "p" \/ sec = "g" ->
    NoDup (map fst (sec_of (e_model e) sec)) /\
    forall pt, declared e sec pt -> plain_type sec pt /\ Forall plain_rule (stored e sec pt).
(** Two enforcers have the same policy types. *)
Definition same_types (e e' : enforcer) : Prop :=
  forall sec pt, sec = "p" \/ sec = "g" -> (declared e sec pt <-> declared e' sec pt).

(** Lines that say nothing: blank ones and comments. *)
Definition says_nothing (line : string) : Prop :=
  lacks "010" line /\ exists t, trimmed blank line t /\ (t = "" \/ exists s, t = String "#" s).
Definition says_nothing_strictly (line : string) : Prop :=
  lacks "010" line /\ (line = "" \/ exists s, line = String "#" s).

(** A line of a file fits a filter: every value of the filter for its type that is not
    empty is the value of that field (blanks at the edges do not count). *)
Definition filter_for (f : filter) (key : string) : list string :=
  if String.eqb key "p" then f_P f else if String.eqb key "g" then f_G f else [].
Definition fits (f : filter) (line : string) : Prop :=
  exists parts key fields, splits "," line parts /\ Forall2 (trimmed blank) parts (key :: fields) /\
    List.length (filter_for f key) <= List.length fields /\
    forall j v, nth_error (filter_for f key) j = Some v -> v <> "" -> exists x, nth_error fields j = Some x /\ trimmed blank v x.

(** [with_line c t t']: the text t' is t with the line c added, as the first line, the
    last one or between two others. *)
Inductive with_line (c : string) : string -> string -> Prop :=
| line_first : forall t, with_line c t (c ++ newline ++ t)
| line_last : forall t, with_line c t (t ++ newline ++ c)
| line_between : forall a b, with_line c (a ++ newline ++ b) (a ++ newline ++ c ++ newline ++ b).

(** Two calls that end with the same policy, the same role links and the same outcome. *)
Definition same_policy (x y : enforcer * res unit) : Prop :=
  e_model (fst x) = e_model (fst y) /\ e_heap (fst x) = e_heap (fst y) /\ snd x = snd y.

(** The lines a program reads from a file, trimmed: the empty rest after the last
    newline is not a line. *)
Definition file_lines (content : string) (lines : list string) : Prop :=
  exists pieces rest, splits newline content (pieces ++ [rest]) /\
    ((rest = "" /\ Forall2 (trimmed blank) pieces lines) \/ (rest <> "" /\ Forall2 (trimmed blank) (pieces ++ [rest]) lines)).
