(** Model of casbin/util/built_in_functions.cpp: the key matching functions.

    The functions from KeyMatch2 on build the text of a regular expression and hand it
    to std::regex.  The texts are modelled exactly.  Of std::regex the model has the
    concatenations of single characters, dots and [^/], each possibly in parentheses and
    with a quantifier; what std::regex does with any other text is a parameter. *)
From Verif Require Import Base M_Util.

(** ** Patterns with one star *)

(** built_in_functions.cpp:64-74 [KeyMatch]. *)
Definition KeyMatch (key1 key2 : string) : bool :=
  match sfind "*" key2 with
  | None => String.eqb key1 key2
  | Some pos =>
      if Nat.ltb pos (String.length key1) then String.eqb (stake pos key1) (stake pos key2)
      else String.eqb key1 (stake pos key2)
  end.

(** built_in_functions.cpp:79-90 [KeyGet]. *)
Definition KeyGet (key1 key2 : string) : string :=
  match sfind "*" key2 with
  | None => ""
  | Some pos =>
      if Nat.ltb pos (String.length key1)
      then if String.eqb (stake pos key1) (stake pos key2) then sdrop pos key1 else ""
      else ""
  end.

(** ** From patterns to regular expressions *)

(** built_in_functions.cpp:41-50 [ReplacePattern]: the occurrences from left to right,
    going on behind each replacement.  [skip] counts the characters of the occurrence
    still to be dropped.  [pat] is never empty. *)
Fixpoint replace_aux (pat rep : string) (skip : nat) (s : string) : string :=
  match s with
  | EmptyString => EmptyString
  | String c s' =>
      match skip with
      | S k => replace_aux pat rep k s'
      | 0 => if String.prefix pat s then (rep ++ replace_aux pat rep (pred (String.length pat)) s')%string
             else String c (replace_aux pat rep 0 s')
      end
  end.
Definition ReplacePattern (s pat rep : string) : string := replace_aux pat rep 0 s.

(** built_in_functions.cpp:52-54 [PrepareWildCardMatching]. *)
Definition PrepareWildCardMatching (s : string) : string := ReplacePattern s "/*" "/.*".

(** built_in_functions.cpp:56-59 [EscapeCurlyBraces]. *)
Definition EscapeCurlyBraces (s : string) : string := ReplacePattern (ReplacePattern s "{" "\{") "}" "\}".

Definition slash : ascii := "/".
Definition not_slash (c : ascii) : bool := negb (Ascii.eqb c slash).

(** The length of the longest beginning all of whose characters satisfy [f]. *)
Fixpoint run_length (f : ascii -> bool) (s : string) : nat :=
  match s with
  | EmptyString => 0
  | String c s' => if f c then S (run_length f s') else 0
  end.

(** One match of ":[^/]+" at the beginning: its length. *)
Definition colon_here (s : string) : option nat :=
  match s with
  | String c s' => if Ascii.eqb c ":" then match run_length not_slash s' with 0 => None | n => Some (S n) end else None
  | EmptyString => None
  end.

(** "\{[^/]+?\}" at the beginning: behind the brace at least one character that is not
    a slash, up to the first closing brace. *)
Fixpoint close_at (s : string) : option nat :=
  match s with
  | EmptyString => None
  | String c s' => if Ascii.eqb c "}" then Some 1
                   else if not_slash c then option_map S (close_at s') else None
  end.
Definition brace_here (s : string) : option nat :=
  match s with
  | String c (String d s') =>
      if Ascii.eqb c "{" && not_slash d then option_map (fun n => S (S n)) (close_at s') else None
  | _ => None
  end.

(** "\{([^/]+)\}" at the beginning, greedy: up to the last closing brace before a slash. *)
Fixpoint last_close (s : string) : option nat :=
  match s with
  | EmptyString => None
  | String c s' =>
      if not_slash c then
        match last_close s' with
        | Some n => Some (S n)
        | None => if Ascii.eqb c "}" then Some 1 else None
        end
      else None
  end.
Definition greedy_brace_here (s : string) : option nat :=
  match s with
  | String c (String d s') =>
      if Ascii.eqb c "{" && not_slash d then option_map (fun n => S (S n)) (last_close s') else None
  | _ => None
  end.

(** regex_replace with "(.*?)X(.*?)" and the format "$1rep$2", for X one of the above:
    the first group is the text before the leftmost match of X (or its part behind the
    last line end, the rest being copied as not matched), the second is empty. *)
Fixpoint replace_matches (here : string -> option nat) (rep : string) (skip : nat) (s : string) : string :=
  match s with
  | EmptyString => EmptyString
  | String c s' =>
      match skip with
      | S k => replace_matches here rep k s'
      | 0 => match here s with
             | Some n => (rep ++ replace_matches here rep (pred n) s')%string
             | None => String c (replace_matches here rep 0 s')
             end
      end
  end.

(** The texts of the matches of X, as std::sregex_iterator delivers them. *)
Fixpoint find_matches (here : string -> option nat) (skip : nat) (s : string) : list string :=
  match s with
  | EmptyString => []
  | String c s' =>
      match skip with
      | S k => find_matches here k s'
      | 0 => match here s with
             | Some n => stake n s :: find_matches here (pred n) s'
             | None => find_matches here 0 s'
             end
      end
  end.

(** ** Regular expressions *)
Inductive atom := AChr (c : ascii) | ADot | ANotSlash.
Inductive quantifier := One | Maybe | Star | Plus.
Record item := mkItem { i_atom : atom; i_quant : quantifier; i_lazy : bool; i_group : bool }.

Definition atom_matches (a : atom) (c : ascii) : bool :=
  match a with
  | AChr d => Ascii.eqb c d
  | ADot => negb (Ascii.eqb c nl || Ascii.eqb c cr)
  | ANotSlash => not_slash c
  end.

(** The characters with a meaning of their own. *)
Definition meta (c : ascii) : bool := smem c "^$\.*+?()[]{}|".

(** A character, a dot, an escaped brace or [^/] at the beginning. *)
Definition parse_atom (s : string) : option (atom * string) :=
  match s with
  | EmptyString => None
  | String c s' =>
      if Ascii.eqb c "." then Some (ADot, s')
      else if Ascii.eqb c "\" then
        match s' with
        | String d s'' => if Ascii.eqb d "{" || Ascii.eqb d "}" then Some (AChr d, s'') else None
        | EmptyString => None
        end
      else if Ascii.eqb c "[" then
        if String.prefix "[^/]" s then Some (ANotSlash, sdrop 4 s) else None
      else if meta c then None
      else Some (AChr c, s')
  end.
Definition parse_quant (s : string) : quantifier * bool * string :=
  match s with
  | EmptyString => (One, false, s)
  | String c s' =>
      let lazy_ q := match s' with
                     | String d s'' => if Ascii.eqb d "?" then (q, true, s'') else (q, false, s')
                     | EmptyString => (q, false, s')
                     end in
      if Ascii.eqb c "*" then lazy_ Star
      else if Ascii.eqb c "+" then lazy_ Plus
      else if Ascii.eqb c "?" then lazy_ Maybe
      else (One, false, s)
  end.
Definition parse_item (s : string) : option (item * string) :=
  match s with
  | String c s' =>
      if Ascii.eqb c "(" then
        match parse_atom s' with
        | Some (a, s1) =>
            match parse_quant s1 with
            | (q, l, String d s2) => if Ascii.eqb d ")" then Some (mkItem a q l true, s2) else None
            | _ => None
            end
        | None => None
        end
      else
        match parse_atom s with
        | Some (a, s1) => let '(q, l, s2) := parse_quant s1 in Some (mkItem a q l false, s2)
        | None => None
        end
  | EmptyString => None
  end.
(** [fuel] is the length of the text. *)
Fixpoint parse_items (fuel : nat) (s : string) : option (list item) :=
  match s with
  | EmptyString => Some []
  | String _ _ =>
      match fuel with
      | 0 => None
      | S n => match parse_item s with
               | Some (i, s') => option_map (cons i) (parse_items n s')
               | None => None
               end
      end
  end.
Definition parse_regex (s : string) : option (list item) := parse_items (String.length s) s.

(** The numbers of characters an item may take, in the order they are tried. *)
Definition lengths (i : item) (s : string) : list nat :=
  let n := run_length (atom_matches (i_atom i)) s in
  let up := match i_quant i with
            | One => if Nat.ltb 0 n then [1] else []
            | Maybe => if Nat.ltb 0 n then [0; 1] else [0]
            | Star => seq 0 (S n)
            | Plus => seq 1 n
            end in
  if i_lazy i then up else rev up.
Fixpoint first_some {A B} (f : A -> option B) (l : list A) : option B :=
  match l with
  | [] => None
  | x :: xs => match f x with Some y => Some y | None => first_some f xs end
  end.
(** std::regex_match: the whole text is matched, alternatives are tried in order; the
    groups of the first success. *)
Fixpoint match_items (is_ : list item) (s : string) : option (list string) :=
  match is_ with
  | [] => if String.eqb s "" then Some [] else None
  | i :: rest =>
      first_some (fun n => option_map (fun g => if i_group i then stake n s :: g else g) (match_items rest (sdrop n s)))
                 (lengths i s)
  end.

Section Regex.
  (** The groups of std::regex_match for a text not of the form above: key, text. *)
  Variable other_match : string -> string -> res (option (list string)).

  (** std::regex_match of [key] with the text "^" + k + "$". *)
  Definition regex_groups (key k : string) : res (option (list string)) :=
    match parse_regex k with
    | Some is_ => Ok (match_items is_ key)
    | None => other_match key ("^" ++ k ++ "$")%string
    end.
  (** built_in_functions.cpp:208-211 [RegexMatch] on such a text. *)
  Definition RegexMatch (key k : string) : res bool :=
    let! g := regex_groups key k in Ok (match g with Some _ => true | None => false end).

  (** "*" alone stands for everything: built_in_functions.cpp:99-100, 119-120, 157-158. *)
  Definition star_alone (k : string) : string := if String.eqb k "*" then "(.*)" else k.

  (** built_in_functions.cpp:94-103 [KeyMatch2]. *)
  Definition KeyMatch2 (key1 key2 : string) : res bool :=
    let k := PrepareWildCardMatching key2 in
    let k := replace_matches colon_here "[^/]+" 0 k in
    RegexMatch key1 (star_alone (EscapeCurlyBraces k)).

  (** built_in_functions.cpp:135-141 [KeyMatch3]. *)
  Definition KeyMatch3 (key1 key2 : string) : res bool :=
    let k := PrepareWildCardMatching key2 in
    let k := replace_matches brace_here "[^/]+" 0 k in
    RegexMatch key1 (EscapeCurlyBraces k).

  (** The last loop of KeyGet2 and KeyGet3 (built_in_functions.cpp:126-130, 164-168): the
      group with the number of the first name that is [var]; a group that does not exist
      reads as the empty text. *)
  Fixpoint value_of (var : string) (names values : list string) : string :=
    match names with
    | [] => ""
    | n :: ns => if String.eqb var n then hd "" values else value_of var ns (tl values)
    end.

  (** built_in_functions.cpp:108-131 [KeyGet2]. *)
  Definition KeyGet2 (key1 key2 var : string) : res string :=
    let k := PrepareWildCardMatching key2 in
    let names := map (sdrop 1) (find_matches colon_here 0 k) in
    let k := EscapeCurlyBraces (replace_matches colon_here "([^/]+)" 0 k) in
    let! g := regex_groups key1 (star_alone k) in
    Ok (value_of var names (match g with Some v => v | None => [] end)).

  (** built_in_functions.cpp:146-169 [KeyGet3]. *)
  Definition KeyGet3 (key1 key2 var : string) : res string :=
    let k := PrepareWildCardMatching key2 in
    let names := map (fun t => stake (String.length t - 2) (sdrop 1 t)) (find_matches brace_here 0 k) in
    let k := EscapeCurlyBraces (replace_matches brace_here "([^/]+?)" 0 k) in
    let! g := regex_groups key1 (star_alone k) in
    Ok (value_of var names (match g with Some v => v | None => [] end)).

  (** built_in_functions.cpp:194-204, the loop over tokens and values; [seen] is
      tokens_matches. *)
  Fixpoint same_values (seen : list (string * string)) (tokens values : list string) : bool :=
    match tokens, values with
    | t :: ts, v :: vs =>
        match aget t seen with
        | None => same_values ((t, v) :: seen) ts vs
        | Some w => if String.eqb w v then same_values seen ts vs else false
        end
    | _, _ => true
    end.

  (** built_in_functions.cpp:176-205 [KeyMatch4]; it throws a const char*. *)
  Definition KeyMatch4 (key1 key2 : string) : res bool :=
    let k := PrepareWildCardMatching key2 in
    let tokens := find_matches greedy_brace_here 0 k in
    let k := EscapeCurlyBraces (replace_matches brace_here "([^/]+)" 0 k) in
    let! g := regex_groups key1 k in
    match g with
    | None => Ok false
    | Some values =>
        if negb (Nat.eqb (List.length tokens) (List.length values)) then Throw ThrownString
        else Ok (same_values [] tokens values)
    end.
End Regex.
