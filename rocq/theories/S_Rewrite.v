(** Matchers as a user writes and reads them. *)
From Verif Require Import Base M_Evaluator M_Rewrite.

(** The pieces of a matcher: names such as r.sub, text in double (or single) quotes, && and ||,
    comparisons, brackets, commas and spaces. *)
Inductive piece :=
| PName (x : string) | PText (double : bool) (s : string) | PAnd | POr | PEq | PNe | POpen | PClose | PComma | PSpace.

Definition written1 (p : piece) : string :=
  match p with
  | PName x => x
  | PText true s => ("""" ++ s ++ """")%string
  | PText false s => ("'" ++ s ++ "'")%string
  | PAnd => "&&" | POr => "||" | PEq => "==" | PNe => "!=" | POpen => "(" | PClose => ")" | PComma => "," | PSpace => " "
  end.
Fixpoint written (ps : list piece) : string :=
  match ps with [] => EmptyString | p :: r => (written1 p ++ written r)%string end.

(** What the expression library is to be told: the names, the texts as written, and its own
    words for && and ||. *)
Definition meant1 (p : piece) : list xtoken :=
  match p with
  | PName x => [XSym x]
  | PText _ s => [XStr s]
  | PAnd => [XSym "and"] | POr => [XSym "or"]
  | PEq => [XOp "=="] | PNe => [XOp "!="] | POpen => [XOp "("] | PClose => [XOp ")"] | PComma => [XOp ","]
  | PSpace => []
  end.
Definition meant (ps : list piece) : list xtoken := flat_map meant1 ps.

(** Characters of names and texts. *)
Definition among (alphabet : string) (c : ascii) : bool := existsb (Ascii.eqb c) (list_ascii_of_string alphabet).
Definition letter : ascii -> bool := among "abcdefghijklmnopqrstuvwxyzABCDEFGHIJKLMNOPQRSTUVWXYZ".
Definition word_char (c : ascii) : bool := letter c || among "0123456789_" c.
Definition text_char (c : ascii) : bool :=
  letter c || among "0123456789 !""#$%&'()*+,-./:;<=>?@[\]^_`{|}~" c ||
  existsb (Ascii.eqb c) ["008"; "009"; "010"; "011"; "012"; "013"]%char.
(** A name: a letter, then letters, digits, underscores and dots, no dot at the end or before
    another dot. *)
Fixpoint name_rest (s : string) : Prop :=
  match s with
  | EmptyString => True
  | String c s' =>
      (word_char c = true \/ c = "."%char /\ exists d s'', s' = String d s'' /\ word_char d = true) /\ name_rest s'
  end.
Definition is_name (s : string) : Prop := exists c s', s = String c s' /\ letter c = true /\ name_rest s'.

(** Two equal characters [c] in a row. *)
Definition twice_in (c : ascii) (s : string) : Prop := exists a b, s = (a ++ String c (String c b))%string.
Definition occurs (c : ascii) (s : string) : Prop := exists a b, s = (a ++ String c b)%string.

(** A text that is safe between quotes: printable ASCII characters and white space, without
    quotes and backslashes, and without && and ||. *)
Definition plain_text (s : string) : Prop :=
  (forall c, occurs c s -> text_char c = true /\ c <> """"%char /\ c <> "'"%char /\ c <> "\"%char) /\
  ~ twice_in "&" s /\ ~ twice_in "|" s.

(** Words: what must not stand side by side. *)
Definition is_word_piece (p : piece) : bool := match p with PName _ | PAnd | POr => true | _ => false end.
Fixpoint spaced (ps : list piece) : Prop :=
  match ps with
  | p :: ((q :: _) as r) => ~ (is_word_piece p = true /\ is_word_piece q = true) /\ spaced r
  | _ => True
  end.
Definition piece_ok (p : piece) : Prop :=
  match p with PName x => is_name x | PText _ s => plain_text s | _ => True end.
Definition well_written (ps : list piece) : Prop := Forall piece_ok ps /\ spaced ps.

(** The library sees the tokens of a text only. *)
Definition tokenwise (lib : oracle) : Prop :=
  forall t1 t2, tokens t1 = tokens t2 ->
    (forall v f, o_compiles lib t1 v f = o_compiles lib t2 v f) /\ (forall v g, o_value lib t1 v g = o_value lib t2 v g).
