(** What a configuration text says: the vocabulary for the reader of model files. *)
From Verif Require Import Base S_Text.

(** The lines of a text; the empty rest behind the last newline is not a line. *)
Definition text_lines (content : string) (lines : list string) : Prop :=
  (exists rest, splits (String "010" "") content (lines ++ [rest]) /\ rest = "") \/
  (splits (String "010" "") content lines /\ last lines "" <> "").

(** What one line can be. *)
Inductive item :=
| Nothing                                  (* an empty line or a comment *)
| Heading (section : string)               (* [section] *)
| Setting (option value : string).         (* option = value *)

Definition begins (c : ascii) (s : string) : Prop := exists t, s = String c t.

(** [t] is a comment, a heading, or an assignment; in this order of precedence. *)
Definition is_comment (t : string) : Prop := begins "#" t \/ begins ";" t.
Definition is_heading (t s : string) : Prop := t = ("[" ++ s ++ "]")%string.
Definition is_setting (t o v : string) : Prop :=
  exists a b, t = (a ++ "=" ++ b)%string /\ lacks "=" a /\ trimmed blank a o /\ trimmed blank b v.

Inductive says (line : string) : item -> Prop :=
| says_empty : line = "" -> says line Nothing
| says_comment : forall t, line <> "" -> trimmed blank line t -> is_comment t -> says line Nothing
| says_heading : forall t s, trimmed blank line t -> is_heading t s -> says line (Heading s)
| says_setting : forall t o v, trimmed blank line t -> ~ is_comment t -> (forall s, ~ is_heading t s) ->
    is_setting t o v -> says line (Setting o v).

(** The section the next assignment belongs to: the one of the last heading. *)
Definition named (s : string) : string := if String.eqb s "" then "default" else s.
Definition no_heading (its : list item) : Prop := forall s, ~ In (Heading s) its.
Definition section_after (its : list item) (sec : string) : Prop :=
  (no_heading its /\ sec = "default") \/
  (exists a s b, its = a ++ Heading s :: b /\ no_heading b /\ sec = named s).

(** The assignment at the end of [a ++ [Setting o v]] is one to option [o] of [sec]. *)
Definition assigns (its : list item) (sec o v : string) : Prop :=
  exists a, its = a ++ [Setting o v] /\ section_after a sec.

(** The last assignment to the option gave it the value [v] ... *)
Definition last_value (its : list item) (sec o v : string) : Prop :=
  exists a b, its = a ++ b /\ assigns a sec o v /\
    forall b1 b2 v', b = b1 ++ b2 -> b1 <> [] -> ~ assigns (a ++ b1) sec o v'.
(** ... or there is no assignment to it. *)
Definition never_assigned (its : list item) (sec o : string) : Prop :=
  forall a b v, its = a ++ b -> ~ assigns a sec o v.

(** A text every line of which says something. *)
Definition well_formed (content : string) : Prop :=
  exists lines, text_lines content lines /\ Forall (fun l => exists it, says l it) lines.
