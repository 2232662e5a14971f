(** Specification of regular expressions: how they are written and which keys they
    describe, following the ECMAScript grammar that std::regex uses by default. *)
From Verif Require Import Base S_Text.

(** A set of keys. *)
Definition lang : Type := string -> Prop.
Definition nothing_else : lang := fun k => k = "".
Definition one_char (P : ascii -> Prop) : lang := fun k => exists c, k = String c "" /\ P c.
Definition followed (L M : lang) : lang := fun k => exists a b, k = (a ++ b)%string /\ L a /\ M b.
Definition either (L M : lang) : lang := fun k => L k \/ M k.
Inductive repeated (L : lang) : lang :=
| rep_none : repeated L ""
| rep_more : forall a b, L a -> repeated L b -> repeated L (a ++ b)%string.

(** [m] times, and between [m] and [n] times. *)
Fixpoint power (L : lang) (m : nat) : lang := match m with 0 => nothing_else | S k => followed L (power L k) end.
Definition between_times (L : lang) (m n : nat) : lang := fun k => exists i, m <= i <= n /\ power L i k.
(** Characters. *)
Definition range (c d x : ascii) : Prop := nat_of_ascii c <= nat_of_ascii x <= nat_of_ascii d.
Definition a_digit : ascii -> Prop := range "0" "9".
Definition a_word (c : ascii) : Prop := range "a" "z" c \/ range "A" "Z" c \/ range "0" "9" c \/ c = "_"%char.
Definition a_space (c : ascii) : Prop := range "009" "013" c \/ c = " "%char.
Definition a_line_end (c : ascii) : Prop := c = "010"%char \/ c = "013"%char.
(** Those with a meaning of their own, outside and inside of square brackets. *)
Definition has_meaning (c : ascii) : Prop := occurs (String c "") "^$\.*+?()[]{}|".
Definition has_class_meaning (c : ascii) : Prop := occurs (String c "") "]\-[^".

(** Numbers in decimal digits. *)
Inductive numeral : string -> nat -> Prop :=
| num_digit : forall c, a_digit c -> numeral (String c "") (nat_of_ascii c - nat_of_ascii "0")
| num_more : forall s m c, numeral s m -> a_digit c -> numeral (s ++ String c "")%string (10 * m + (nat_of_ascii c - nat_of_ascii "0")).

(** What a backslash and a character stand for: a set of characters or its complement, a
    control character, or a character that has a meaning without the backslash. *)
Inductive control : ascii -> ascii -> Prop :=
| ctl_tab : control "t" "009" | ctl_line : control "n" "010" | ctl_vertical : control "v" "011"
| ctl_form : control "f" "012" | ctl_return : control "r" "013".
Inductive escape : ascii -> (ascii -> Prop) -> Prop :=
| esc_digit : escape "d" a_digit
| esc_word : escape "w" a_word
| esc_space : escape "s" a_space
| esc_not_digit : escape "D" (fun x => ~ a_digit x)
| esc_not_word : escape "W" (fun x => ~ a_word x)
| esc_not_space : escape "S" (fun x => ~ a_space x)
| esc_control : forall c d, control c d -> escape c (fun x => x = d)
| esc_self : forall c, has_meaning c \/ c = "/"%char \/ c = "-"%char -> escape c (fun x => x = c).

(** The named classes, as the "C" locale has them. *)
Definition a_letter (c : ascii) : Prop := range "a" "z" c \/ range "A" "Z" c.
Definition is_visible : ascii -> Prop := range "!" "~".
Inductive named : string -> (ascii -> Prop) -> Prop :=
| nm_alpha : named "alpha" a_letter
| nm_digit : named "digit" a_digit
| nm_alnum : named "alnum" (fun c => a_letter c \/ a_digit c)
| nm_upper : named "upper" (range "A" "Z")
| nm_lower : named "lower" (range "a" "z")
| nm_space : named "space" a_space
| nm_blank : named "blank" (fun c => c = "009"%char \/ c = " "%char)
| nm_graph : named "graph" is_visible
| nm_print : named "print" (fun c => is_visible c \/ c = " "%char)
| nm_punct : named "punct" (fun c => is_visible c /\ ~ a_letter c /\ ~ a_digit c)
| nm_cntrl : named "cntrl" (fun c => nat_of_ascii c < 128 /\ ~ is_visible c /\ c <> " "%char)
| nm_xdigit : named "xdigit" (fun c => a_digit c \/ range "a" "f" c \/ range "A" "F" c).

(** What stands between square brackets: characters, ranges (of ASCII characters), escapes,
    named classes, and a hyphen at the end. *)
Inductive class_text : string -> (ascii -> Prop) -> Prop :=
| class_end : class_text "" (fun _ => False)
| class_char : forall c s P, ~ has_class_meaning c -> class_text s P -> class_text (String c s) (fun x => x = c \/ P x)
| class_range : forall c d s P, ~ has_class_meaning c -> ~ has_class_meaning d -> nat_of_ascii c <= nat_of_ascii d < 128 ->
    class_text s P -> class_text (String c (String "-" (String d s))) (fun x => range c d x \/ P x)
| class_escape : forall c Q s P, escape c Q -> class_text s P -> class_text (String "\" (String c s)) (fun x => Q x \/ P x)
| class_named : forall n Q s P, named n Q -> class_text s P -> class_text ("[:" ++ n ++ ":]" ++ s)%string (fun x => Q x \/ P x)
| class_dash : class_text "-" (fun x => x = "-"%char).

(** [alternatives text L]: the text describes the keys in [L]. *)
Inductive alternatives : string -> lang -> Prop :=
| alt_last : forall s L, sequence s L -> alternatives s L
| alt_more : forall s L t M, sequence s L -> alternatives t M -> alternatives (s ++ "|" ++ t)%string (either L M)
with sequence : string -> lang -> Prop :=
| seq_end : sequence "" nothing_else
| seq_more : forall s L t M, part s L -> sequence t M -> sequence (s ++ t)%string (followed L M)
with part : string -> lang -> Prop :=
| part_once : forall s L, single s L -> part s L
| part_star : forall s L mark, single s L -> mark = "" \/ mark = "?" -> part (s ++ "*" ++ mark)%string (repeated L)
| part_plus : forall s L mark, single s L -> mark = "" \/ mark = "?" -> part (s ++ "+" ++ mark)%string (followed L (repeated L))
| part_opt : forall s L mark, single s L -> mark = "" \/ mark = "?" -> part (s ++ "?" ++ mark)%string (either L nothing_else)
| part_times : forall s L d m mark, single s L -> numeral d m -> mark = "" \/ mark = "?" ->
    part (s ++ "{" ++ d ++ "}" ++ mark)%string (power L m)
| part_at_least : forall s L d m mark, single s L -> numeral d m -> mark = "" \/ mark = "?" ->
    part (s ++ "{" ++ d ++ ",}" ++ mark)%string (followed (power L m) (repeated L))
| part_between : forall s L d m d' n mark, single s L -> numeral d m -> numeral d' n -> m <= n -> mark = "" \/ mark = "?" ->
    part (s ++ "{" ++ d ++ "," ++ d' ++ "}" ++ mark)%string (between_times L m n)
with single : string -> lang -> Prop :=
| single_char : forall c, ~ has_meaning c -> single (String c "") (one_char (fun x => x = c))
| single_escaped : forall c P, escape c P -> single ("\" ++ String c "")%string (one_char P)
| single_dot : single "." (one_char (fun x => ~ a_line_end x))
| single_class : forall s P, s <> "" -> class_text s P -> single ("[" ++ s ++ "]")%string (one_char P)
| single_not_class : forall s P, s <> "" -> class_text s P -> single ("[^" ++ s ++ "]")%string (one_char (fun x => ~ P x))
| single_group : forall s L, alternatives s L -> single ("(" ++ s ++ ")") L
| single_silent_group : forall s L, alternatives s L -> single ("(?:" ++ s ++ ")") L.

(** [expression text L]: the text is a regular expression for the keys in [L].  The whole key
    has to be matched, so "^" before and "$" behind an alternative say nothing new. *)
Inductive anchored : string -> lang -> Prop :=
| anchor : forall front s L back, front = "" \/ front = "^" -> back = "" \/ back = "$" -> sequence s L -> anchored (front ++ s ++ back)%string L.
Inductive expression : string -> lang -> Prop :=
| exp_last : forall s L, anchored s L -> expression s L
| exp_more : forall s L t M, anchored s L -> expression t M -> expression (s ++ "|" ++ t)%string (either L M).
