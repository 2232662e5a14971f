(** Model of casbin/util/eval.cpp and casbin/util/escape_assertion.cpp.  The two
    fixed regular expressions are modelled by hand written matchers. *)
From Verif Require Import Base.

(** Character classes of the regular expressions (ECMAScript syntax, C locale). *)
Definition is_lower (c : ascii) : bool := (Nat.leb 97 (nat_of_ascii c)) && (Nat.leb (nat_of_ascii c) 122).
Definition is_upper (c : ascii) : bool := (Nat.leb 65 (nat_of_ascii c)) && (Nat.leb (nat_of_ascii c) 90).
Definition is_digit (c : ascii) : bool := (Nat.leb 48 (nat_of_ascii c)) && (Nat.leb (nat_of_ascii c) 57).
Definition is_alnum (c : ascii) : bool := is_lower c || is_upper c || is_digit c.
Definition is_word (c : ascii) : bool := is_alnum c || Ascii.eqb c "_".
Definition to_lower (c : ascii) : ascii := if is_upper c then ascii_of_nat (nat_of_ascii c + 32) else c.

(** [pat] is a prefix of [s] when case is ignored ([pat] in lower case). *)
Fixpoint iprefix (pat s : string) : bool :=
  match pat, s with
  | EmptyString, _ => true
  | String p ps, String c cs => Ascii.eqb p (to_lower c) && iprefix ps cs
  | _, EmptyString => false
  end.

(** Position of the first closing parenthesis. *)
Definition close_paren (s : string) : option nat := sfind ")" s.

(** A match of \beval\(([^)]* )\) (eval.cpp:28-29, icase): what precedes it, the
    captured parameter, the whole matched text and what follows. *)
Record eval_match := mkEvalMatch {
  em_prefix : string; em_key : string; em_text : string; em_suffix : string }.

(** Does a match start at the beginning of [s]? *)
Definition eval_here (s : string) : option eval_match :=
  if iprefix "eval(" s then
    let rest := sdrop 5 s in
    match close_paren rest with
    | Some k => Some (mkEvalMatch "" (stake k rest) (stake 5 s ++ stake (S k) rest)%string
                                  (sdrop (S k) rest))
    | None => None
    end
  else None.

(** std::regex_search: the leftmost match.  [prev_word] tells whether the character
    before [s] is a word character, in which case there is no word boundary. *)
Fixpoint eval_search (prev_word : bool) (s : string) : option eval_match :=
  match (if prev_word then None else eval_here s) with
  | Some m => Some m
  | None =>
      match s with
      | EmptyString => None
      | String c s' =>
          match eval_search (is_word c) s' with
          | Some m => Some (mkEvalMatch (String c (em_prefix m)) (em_key m) (em_text m) (em_suffix m))
          | None => None
          end
      end
  end.

(** eval.cpp:32-34 [HasEval]. *)
Definition HasEval (s : string) : bool :=
  match eval_search false s with Some _ => true | None => false end.

(** eval.cpp:42-58, the loop of [ReplaceEvalWithMap]; every iteration shortens the
    text by at least 6 characters, so [String.length src] iterations suffice. *)
Fixpoint replace_loop (fuel : nat) (src : string) (sets : list (string * string)) : string :=
  match fuel with
  | 0 => src
  | S n =>
      match eval_search false src with
      | None => src
      | Some m =>
          let repl := match aget (em_key m) sets with None => em_text m | Some v => v end in
          (em_prefix m ++ repl ++ replace_loop n (em_suffix m) sets)%string
      end
  end.

(** eval.cpp:37-61 [ReplaceEvalWithMap]. *)
Definition ReplaceEvalWithMap (src : string) (sets : list (string * string)) : string :=
  replace_loop (String.length src) src sets.

(** eval.cpp:69-77, the loop of [GetEvalValue]. *)
Fixpoint values_loop (fuel : nat) (s : string) : list string :=
  match fuel with
  | 0 => []
  | S n => match eval_search false s with
           | None => []
           | Some m => em_key m :: values_loop n (em_suffix m)
           end
  end.

(** eval.cpp:64-80 [GetEvalValue]. *)
Definition GetEvalValue (s : string) : list string := values_loop (String.length s) s.

(** The class [a-zA-Z0-9. ] of escape_assertion.cpp:35. *)
Definition esc_class (c : ascii) : bool := is_alnum c || Ascii.eqb c "." || Ascii.eqb c " ".

(** casbin/util/escape_assertion.cpp:34-51 [EscapeAssertion]: in every maximal run of
    characters of the class the first dot becomes an underscore.  [seen] tells
    whether the current run already had its dot replaced.  (The code replaces
    characters of [s] while a regex iterator over [s] is alive; the replacement has
    the same length and is behind the iterator, so it does not influence it.) *)
Fixpoint escape_aux (seen : bool) (s : string) : string :=
  match s with
  | EmptyString => EmptyString
  | String c s' =>
      if esc_class c then
        if Ascii.eqb c "." && negb seen then String "_" (escape_aux true s')
        else String c (escape_aux seen s')
      else String c (escape_aux false s')
  end.
Definition EscapeAssertion (s : string) : string := escape_aux false s.
