(** What ExprtkEvaluator::Eval does to the text of an expression before the expression library
    sees it, and how the library splits the result into tokens. *)
From Verif Require Import Base M_Util M_Eval M_Evaluator M_Matcher.

(** std::regex_replace of two equal characters by a word: from left to right, what was replaced is
    not looked at again. *)
Fixpoint put2 (c : ascii) (word s : string) : string :=
  match s with
  | EmptyString => EmptyString
  | String a t =>
      match t with
      | EmptyString => s
      | String b s' =>
          if Ascii.eqb a c && Ascii.eqb b c then (word ++ put2 c word s')%string else String a (put2 c word t)
      end
  end.
(** evaluator.cpp:35, double quotes become single ones. *)
Fixpoint single_quotes (s : string) : string :=
  match s with
  | EmptyString => EmptyString
  | String a s' => String (if Ascii.eqb a """" then "'" else a)%char (single_quotes s')
  end.
(** evaluator.cpp:30-35, the three replacements of [Eval] in their order. *)
Definition prepare (s : string) : string := single_quotes (put2 "|" "or" (put2 "&" "and" s)).

(** The evaluator over an expression library: the library is given the replaced text.  The
    theorems about enforcement hold for every [oracle], so for this one. *)
Definition rewriting (lib : oracle) : oracle :=
  mkOracle (fun t => o_compiles lib (prepare t)) (fun t => o_value lib (prepare t)).

(** ** The lexer of the library *)

(** exprtk.hpp:103-109, 126-141 *)
Definition x_space (c : ascii) : bool :=
  existsb (Ascii.eqb c) [" "; "010"; "013"; "009"; "008"; "011"; "012"]%char.
Definition between (lo hi : nat) (c : ascii) : bool := (Nat.leb lo (nat_of_ascii c)) && (Nat.leb (nat_of_ascii c) hi).
Definition x_letter (c : ascii) : bool := between 97 122 c || between 65 90 c.
Definition x_digit (c : ascii) : bool := between 48 57 c.
(** exprtk.hpp:2805, a character of a symbol *)
Definition x_word (c : ascii) : bool := x_letter c || x_digit c || Ascii.eqb c "_".
(** exprtk.hpp:111-124 *)
Definition x_op_char (c : ascii) : bool :=
  existsb (Ascii.eqb c) ["+"; "-"; "*"; "/"; "^"; "<"; ">"; "="; ","; "!"; "("; ")"; "["; "]"; "{"; "}"; "%"; ":"; "?"; "&"; "|"; ";"]%char.
(** exprtk.hpp:175-179 with isprint in the C locale *)
Definition x_string_char (c : ascii) : bool := between 32 126 c || x_space c.

(** Tokens.  [XRest s]: from here on the text holds a number, a string with escapes or a special
    function, and how it is split is not modelled; [XErr]: the lexer reports an error and stops. *)
Inductive xtoken := XSym (s : string) | XStr (s : string) | XOp (s : string) | XRest (s : string) | XErr.

(** exprtk.hpp:2801-2829 [scan_symbol], after the first letter: the symbol and the rest. *)
Fixpoint scan_symbol (s : string) : string * string :=
  match s with
  | EmptyString => (EmptyString, EmptyString)
  | String c s' =>
      let more := let (x, r) := scan_symbol s' in (String c x, r) in
      if x_word c then more
      else if Ascii.eqb c "." then
        match s' with
        | EmptyString => more
        | String d _ => if x_word d then more else (EmptyString, s)
        end
      else (EmptyString, s)
  end.
(** exprtk.hpp:2982-3065 [scan_string], after the opening quote.  A string with a backslash is not
    modelled. *)
Inductive xstring := SLit (s rest : string) | SBad | SEscape.
Fixpoint scan_string (s : string) : xstring :=
  match s with
  | EmptyString => SBad
  | String c s' =>
      if negb (x_string_char c) then SBad
      else if Ascii.eqb c "\" then SEscape
      else if Ascii.eqb c "'" then SLit EmptyString s'
      else match scan_string s' with SLit x r => SLit (String c x) r | other => other end
  end.
(** exprtk.hpp:2590-2665 [skip_comments]: the text after a line comment, and after a block comment
    (None: it is not closed). *)
Fixpoint after_line (s : string) : string :=
  match s with EmptyString => EmptyString | String c s' => if Ascii.eqb c "010" then s' else after_line s' end.
Fixpoint after_block (s : string) : option string :=
  match s with
  | String "*" (String "/" s') => Some s'
  | String _ s' => after_block s'
  | EmptyString => None
  end.
(** exprtk.hpp:2736-2799 [scan_operator]: the operators of two characters; of three there is <=>. *)
Definition pairs : list string := ["<="; ">="; "<>"; "!="; "=="; ":="; "<<"; ">>"; "+="; "-="; "*="; "/="; "%="].
Definition scan_operator (c : ascii) (s : string) : xtoken * string :=
  match s with
  | EmptyString => (XOp (String c ""), s)
  | String d s' =>
      let pair := String c (String d "") in
      if String.eqb pair "<=" && (match s' with String ">" _ => true | _ => false end) then (XOp "<=>", sdrop 1 s')
      else if existsb (String.eqb pair) pairs then (XOp pair, s')
      else (XOp (String c ""), s)
  end.
(** exprtk.hpp:2430-2447, 2673-2734 [process], [scan_token].  & and | are symbols. *)
Fixpoint scan (fuel : nat) (s : string) : list xtoken :=
  match fuel, s with
  | 0, _ | _, EmptyString => []
  | S n, String c s' =>
      if x_space c then scan n s'
      else if Ascii.eqb c "#" then scan n (after_line s')
      else if Ascii.eqb c "/" && (match s' with String "/" _ => true | _ => false end) then scan n (after_line (sdrop 1 s'))
      else if Ascii.eqb c "/" && (match s' with String "*" _ => true | _ => false end) then
        match after_block (sdrop 1 s') with Some r => scan n r | None => [XErr] end
      else if x_op_char c then
        match scan_operator c s' with
        | (XOp "&", r) => XSym "&" :: scan n r
        | (XOp "|", r) => XSym "|" :: scan n r
        | (t, r) => t :: scan n r
        end
      else if x_letter c then
        let (x, r) := scan_symbol s' in XSym (String c x) :: scan n r
      else if Ascii.eqb c "." && negb (match s' with String d _ => x_digit d | _ => false end) then XOp "." :: scan n s'
      else if x_digit c || Ascii.eqb c "." || Ascii.eqb c "$" then [XRest s]
      else if Ascii.eqb c "'" then
        match scan_string s' with
        | SLit x r => XStr x :: scan n r
        | SBad => [XErr]
        | SEscape => [XRest s]
        end
      else if Ascii.eqb c "~" then XSym "~" :: scan n s'
      else [XErr]
  end.
Definition tokens (s : string) : list xtoken := scan (String.length s) s.

(** ** A small library over these tokens, for examples: the language of M_Matcher.v *)
Definition to_token (t : xtoken) : token :=
  match t with
  | XSym "and" => TAnd | XSym "&" => TAnd | XSym "or" => TOr | XSym "|" => TOr
  | XSym x => TId x
  | XStr s => TStr s
  | XOp "==" => TEq | XOp "!=" => TNe | XOp "(" => TOpen | XOp ")" => TClose | XOp "," => TComma
  | _ => TBad
  end.
Definition x_parse (s : string) : option mexp :=
  let ts := map to_token (tokens s) in
  match parse (4 * List.length ts + 4) 0 ts with
  | Some (e, []) => Some e
  | _ => None
  end.
Definition xmini : oracle :=
  mkOracle
    (fun s vars funs => match x_parse s with Some e => mexp_ok vars funs e | None => false end)
    (fun s v g => match x_parse s with Some e => mexp_val v g e | None => Ok false end).
