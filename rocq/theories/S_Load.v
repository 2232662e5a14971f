(** What a model text defines: the vocabulary for loading models. *)
From Coq Require Import Decimal DecimalString.
From Verif Require Import Base M_Model M_Config S_Text.

(** The headings under which the five kinds of definitions are written. *)
Inductive title : string -> string -> Prop :=
| title_r : title "r" "request_definition"
| title_p : title "p" "policy_definition"
| title_g : title "g" "role_definition"
| title_e : title "e" "policy_effect"
| title_m : title "m" "matchers".

(** The name of the [i]-th definition of a kind: p, p2, p3, ... *)
Definition numbered (sec : string) (i : nat) : string :=
  if Nat.eqb i 1 then sec else (sec ++ NilEmpty.string_of_uint (Nat.to_uint i))%string.

(** The configuration defines [key] of kind [sec] as [value]. *)
Definition written (d : config) (sec key value : string) : Prop :=
  exists t, title sec t /\ Get d (t ++ "::" ++ key)%string = value /\ value <> "".

(** The definitions of a kind are numbered without gaps. *)
Definition defines (d : config) (sec : string) (i : nat) (value : string) : Prop :=
  1 <= i /\ written d sec (numbered sec i) value /\
  forall j, 1 <= j <= i -> exists v, written d sec (numbered sec j) v.

(** Field names in a request or policy definition: "sub, obj" under p2 gives p2_sub and
    p2_obj. *)
Definition field_names (key value : string) (toks : list string) : Prop :=
  exists parts, splits "," value parts /\
    Forall2 (fun part tok => exists f, trimmed blank part f /\ tok = (key ++ "_" ++ f)%string) parts toks.

(** The other definitions end where a comment begins. *)
Definition uncommented (value v : string) : Prop :=
  (lacks "#" value /\ v = value) \/ (exists a b, first_occurrence "#" value a b /\ trimmed blank a v).

(** The definition as the model holds it, with no rules yet. *)
Definition holds_definition (sec key value : string) (a : assertion) : Prop :=
  a_key a = key /\ rules_of (a_policy a) = [] /\ a_rm a = None /\
  (sec = "r" \/ sec = "p" -> a_value a = value /\ field_names key value (a_tokens a)) /\
  (sec <> "r" -> sec <> "p" -> uncommented value (a_value a) /\ a_tokens a = []).

(** No request field name contains a character special in regular expressions. *)
Definition ordinary (c : ascii) : Prop := lacks c "^$\.*+?()[]{}|".
Definition ordinary_fields (d : config) : Prop :=
  forall v part parts f, written d "r" "r" v -> splits "," v parts -> In part parts -> trimmed blank part f -> every ordinary f.

(** The four kinds of definitions a model must have. *)
Definition complete (d : config) : Prop := forall sec, In sec ["r"; "p"; "e"; "m"] -> exists v, written d sec sec v.
