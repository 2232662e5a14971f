(** A model of std::regex_match(key, std::regex(text)) with the default (ECMAScript)
    grammar, for texts of characters, dots, escapes, classes, groups, alternatives, the
    quantifiers * + ? and {m} {m,} {m,n} (greedy or lazy), and alternatives that start with
    "^" or end in "$".  Used for built_in_functions.cpp:208-211
    [RegexMatch].  regex_match asks whether the whole key is matched, so neither the order of
    the alternatives nor laziness matters: the answer is membership in the language.

    Not modelled, hence [None]: other anchors, assertions, back references, escapes with
    digits (\0, \xHH, \uHHHH, \cX), and texts for which the constructor throws.  Also not
    modelled: the limits of the recursive matcher of the C++ library on very long keys, and the limit on the number of
    states (100000 in libstdc++), which nested counts can exceed. *)
From Verif Require Import Base M_Util M_Eval.

Inductive re :=
| RNone | REmpty
| RSet (neg : bool) (ranges : list (ascii * ascii))
| RCat (a b : re) | RAlt (a b : re) | RStar (a : re).

Definition between (c : ascii) (r : ascii * ascii) : bool :=
  Nat.leb (nat_of_ascii (fst r)) (nat_of_ascii c) && Nat.leb (nat_of_ascii c) (nat_of_ascii (snd r)).
Definition in_set (neg : bool) (ranges : list (ascii * ascii)) (c : ascii) : bool := xorb neg (existsb (between c) ranges).

(** Matching, character by character (Brzozowski derivatives). *)
Fixpoint nullable (r : re) : bool :=
  match r with
  | RNone | RSet _ _ => false
  | REmpty | RStar _ => true
  | RCat a b => nullable a && nullable b
  | RAlt a b => nullable a || nullable b
  end.
Fixpoint after (c : ascii) (r : re) : re :=
  match r with
  | RNone | REmpty => RNone
  | RSet neg l => if in_set neg l c then REmpty else RNone
  | RCat a b => if nullable a then RAlt (RCat (after c a) b) (after c b) else RCat (after c a) b
  | RAlt a b => RAlt (after c a) (after c b)
  | RStar a => RCat (after c a) (RStar a)
  end.
Fixpoint accepts (r : re) (s : string) : bool :=
  match s with
  | EmptyString => nullable r
  | String c s' => accepts (after c r) s'
  end.

(** Reading the text. *)
Definition one (c : ascii) : re := RSet false [(c, c)].
Definition line_end : list (ascii * ascii) := [("010"%char, "010"%char); ("013"%char, "013"%char)].
Definition digits : list (ascii * ascii) := [("0"%char, "9"%char)].
Definition word_chars : list (ascii * ascii) := [("a", "z"); ("A", "Z"); ("0", "9"); ("_", "_")]%char.
Definition spaces : list (ascii * ascii) := [("009", "013"); (" ", " ")]%char.
(** The characters with a meaning of their own, outside and inside of classes. *)
Definition special (c : ascii) : bool := smem c "^$\.*+?()[]{}|".
Definition class_special (c : ascii) : bool := smem c "]\-[^".

(** A backslash and this character: what they stand for, inside and outside of classes. *)
Definition not_digits : list (ascii * ascii) := [("000", "/"); (":", "255")]%char.
Definition not_word_chars : list (ascii * ascii) := [("000", "/"); (":", "@"); ("[", "^"); ("`", "`"); ("{", "255")]%char.
Definition not_spaces : list (ascii * ascii) := [("000", "008"); ("014", "031"); ("!", "255")]%char.
Definition escape_table : list (ascii * list (ascii * ascii)) :=
  [("d", digits); ("w", word_chars); ("s", spaces); ("D", not_digits); ("W", not_word_chars); ("S", not_spaces);
   ("t", [("009", "009")]); ("n", [("010", "010")]); ("v", [("011", "011")]); ("f", [("012", "012")]); ("r", [("013", "013")])]%char.
Fixpoint look_up (c : ascii) (t : list (ascii * list (ascii * ascii))) : option (list (ascii * ascii)) :=
  match t with [] => None | (d, l) :: t' => if Ascii.eqb c d then Some l else look_up c t' end.
Definition escape_set (c : ascii) : option (list (ascii * ascii)) :=
  match look_up c escape_table with
  | Some l => Some l
  | None => if special c || Ascii.eqb c "/" || Ascii.eqb c "-" then Some [(c, c)] else None
  end.
Definition escaped (c : ascii) : option re := option_map (RSet false) (escape_set c).

(** The named classes [:name:]. *)
Definition class_table : list (string * list (ascii * ascii)) :=
  [("alpha"%string, [("a", "z"); ("A", "Z")]); ("digit"%string, digits); ("alnum"%string, [("a", "z"); ("A", "Z"); ("0", "9")]);
   ("upper"%string, [("A", "Z")]); ("lower"%string, [("a", "z")]); ("space"%string, spaces); ("blank"%string, [("009", "009"); (" ", " ")]);
   ("graph"%string, [("!", "~")]); ("print"%string, [(" ", "~")]); ("punct"%string, [("!", "/"); (":", "@"); ("[", "`"); ("{", "~")]);
   ("cntrl"%string, [("000", "031"); ("127", "127")]); ("xdigit"%string, [("0", "9"); ("a", "f"); ("A", "F")])]%char.
Fixpoint without (p s : string) : option string :=
  match p, s with
  | EmptyString, _ => Some s
  | String c p', String d s' => if Ascii.eqb c d then without p' s' else None
  | _, EmptyString => None
  end.
Fixpoint read_name (t : list (string * list (ascii * ascii))) (s : string) : option (list (ascii * ascii) * string) :=
  match t with
  | [] => None
  | (n, l) :: t' => match without (":" ++ n ++ ":]")%string s with Some r => Some (l, r) | None => read_name t' s end
  end.

(** The rest of a class up to the closing bracket.  Ranges are modelled for ASCII characters
    only (chars above are negative where plain char is signed), empty classes not at all. *)
Fixpoint read_class (fuel : nat) (s : string) : option (list (ascii * ascii) * string) :=
  match fuel with
  | 0 => None
  | S n =>
      match s with
      | EmptyString => None
      | String c s' =>
          if Ascii.eqb c "]" then Some ([], s')
          else if Ascii.eqb c "-" then
            match s' with String d t => if Ascii.eqb d "]" then Some ([(c, c)], t) else None | EmptyString => None end
          else if Ascii.eqb c "\" then
            match s' with
            | String d s'' => match escape_set d, read_class n s'' with Some e, Some (l, t) => Some (e ++ l, t) | _, _ => None end
            | EmptyString => None
            end
          else if Ascii.eqb c "[" then
            match read_name class_table s' with
            | Some (e, s'') => match read_class n s'' with Some (l, t) => Some (e ++ l, t) | None => None end
            | None => None
            end
          else if class_special c then None
          else match s' with
               | String x (String d s'') =>
                   if Ascii.eqb x "-" && negb (Ascii.eqb d "]") then
                     if class_special d || Nat.ltb (nat_of_ascii d) (nat_of_ascii c) || Nat.leb 128 (nat_of_ascii d) then None
                     else match read_class n s'' with Some (l, t) => Some ((c, d) :: l, t) | None => None end
                   else match read_class n s' with Some (l, t) => Some ((c, c) :: l, t) | None => None end
               | _ => match read_class n s' with Some (l, t) => Some ((c, c) :: l, t) | None => None end
               end
      end
  end.
(** Counts: digits as long as there are any, then "}", ",}" or "," and digits and "}". *)
Definition is_digit (c : ascii) : bool := between c ("0"%char, "9"%char).
Fixpoint read_digits (acc : nat) (s : string) : nat * string :=
  match s with
  | String c s' => if is_digit c then read_digits (10 * acc + (nat_of_ascii c - nat_of_ascii "0")) s' else (acc, s)
  | EmptyString => (acc, s)
  end.
Definition read_number (s : string) : option (nat * string) :=
  match s with
  | String c _ => if is_digit c then Some (read_digits 0 s) else None
  | EmptyString => None
  end.
Definition read_count (s : string) : option (nat * option nat * string) :=
  match read_number s with
  | Some (m, String c t) =>
      if Ascii.eqb c "}" then Some (m, Some m, t)
      else if Ascii.eqb c "," then
        match t with
        | String d t' =>
            if Ascii.eqb d "}" then Some (m, None, t')
            else match read_number t with
                 | Some (n, String e t'') => if Ascii.eqb e "}" && Nat.leb m n then Some (m, Some n, t'') else None
                 | _ => None
                 end
        | EmptyString => None
        end
      else None
  | _ => None
  end.
Fixpoint times (r : re) (m : nat) : re := match m with 0 => REmpty | S k => RCat r (times r k) end.
Fixpoint up_to (r : re) (m : nat) : re := match m with 0 => REmpty | S k => RAlt (RCat r (up_to r k)) REmpty end.
Definition counted (r : re) (m : nat) (n : option nat) : re :=
  RCat (times r m) (match n with None => RStar r | Some n => up_to r (n - m) end).
(** A quantifier, if there is one, and a question mark behind it. *)
Definition lazy_mark (s : string) : string := match s with String "?" s' => s' | _ => s end.
Definition read_quant (r : re) (s : string) : re * string :=
  match s with
  | String c s' =>
      if Ascii.eqb c "*" then (RStar r, lazy_mark s')
      else if Ascii.eqb c "+" then (RCat r (RStar r), lazy_mark s')
      else if Ascii.eqb c "?" then (RAlt r REmpty, lazy_mark s')
      else if Ascii.eqb c "{" then
        match read_count s' with Some (m, n, t) => (counted r m n, lazy_mark t) | None => (r, s) end
      else (r, s)
  | EmptyString => (r, s)
  end.

(** [read_alts] reads alternatives up to the end or a closing parenthesis, [read_seq] one
    alternative (up to a dollar sign as well), [read_atom] what a quantifier applies to. *)
Fixpoint read_alts (fuel : nat) (s : string) : option (re * string) :=
  match fuel with
  | 0 => None
  | S n =>
      match read_seq n s with
      | Some (a, String "|" s') => match read_alts n s' with Some (b, t) => Some (RAlt a b, t) | None => None end
      | x => x
      end
  end
with read_seq (fuel : nat) (s : string) : option (re * string) :=
  match fuel with
  | 0 => None
  | S n =>
      match s with
      | EmptyString => Some (REmpty, s)
      | String c _ =>
          if Ascii.eqb c "|" || Ascii.eqb c ")" || Ascii.eqb c "$" then Some (REmpty, s)
          else match read_atom n s with
               | Some (a, s') =>
                   let '(q, s'') := read_quant a s' in
                   match read_seq n s'' with Some (b, t) => Some (RCat q b, t) | None => None end
               | None => None
               end
      end
  end
with read_atom (fuel : nat) (s : string) : option (re * string) :=
  match fuel with
  | 0 => None
  | S n =>
      match s with
      | EmptyString => None
      | String c s' =>
          if Ascii.eqb c "." then Some (RSet true line_end, s')
          else if Ascii.eqb c "\" then
            match s' with
            | String d s'' => match escaped d with Some r => Some (r, s'') | None => None end
            | EmptyString => None
            end
          else if Ascii.eqb c "[" then
            match s' with
            | String "^" s'' => match read_class n s'' with Some (x :: l, t) => Some (RSet true (x :: l), t) | _ => None end
            | _ => match read_class n s' with Some (x :: l, t) => Some (RSet false (x :: l), t) | _ => None end
            end
          else if Ascii.eqb c "(" then
            let body := match s' with String "?" (String ":" s'') => s'' | _ => s' end in
            match read_alts n body with
            | Some (r, String ")" t) => Some (r, t)
            | _ => None
            end
          else if special c then None
          else Some (one c, s')
      end
  end.
(** The whole text: alternatives with "^" before and "$" behind them. *)
Definition skip_mark (c : ascii) (s : string) : string :=
  match s with String d s' => if Ascii.eqb d c then s' else s | EmptyString => s end.
Fixpoint read_whole (fuel : nat) (s : string) : option re :=
  match fuel with
  | 0 => None
  | S n =>
      match read_seq n (skip_mark "^" s) with
      | Some (a, t) =>
          match skip_mark "$" t with
          | EmptyString => Some a
          | String c t' => if Ascii.eqb c "|" then option_map (RAlt a) (read_whole n t') else None
          end
      | None => None
      end
  end.
Definition read_regex (s : string) : option re := read_whole (3 * String.length s + 3) s.
(** std::regex_match, where modelled. *)
Definition regex_member (key text : string) : option bool := option_map (fun r => accepts r key) (read_regex text).
