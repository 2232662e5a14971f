(** Model of the loading part of casbin/model/model.cpp (lines 32-158). *)
From Coq Require Import Decimal DecimalString.
From Verif Require Import Base M_Util M_Model M_Persist M_Config.

(** std::to_string of an int that is not negative. *)
Definition to_string (n : nat) : string := NilEmpty.string_of_uint (Nat.to_uint n).

(** model.cpp:78-82 [GetKeySuffix]. *)
Definition GetKeySuffix (i : nat) : string := if Nat.eqb i 1 then "" else to_string i.

(** model.cpp:38-43 [section_name_map]; operator[] gives "" for other names. *)
Definition section_name (sec : string) : string :=
  if String.eqb sec "r" then "request_definition"
  else if String.eqb sec "p" then "policy_definition"
  else if String.eqb sec "g" then "role_definition"
  else if String.eqb sec "e" then "policy_effect"
  else if String.eqb sec "m" then "matchers"
  else "".

(** ** The test for the hash index: model.cpp:89-107 *)

(** The characters with a meaning in the regular expression syntax. *)
Definition special (c : ascii) : bool := smem c "^$\.*+?()[]{}|".
Definition plain_token (t : string) : bool := negb (existsb special (list_ascii_of_string t)).

(** A regular expression of literal characters and dots ([None]); a dot matches every
    character but the line terminators. *)
Definition dot_or (s : string) : list (option ascii) := map Some (list_ascii_of_string s).
Definition equality_pattern (tok : string) : list (option ascii) :=
  Some "r"%char :: None :: dot_or tok ++ dot_or " == p" ++ None :: dot_or tok.
Fixpoint pattern_here (pat : list (option ascii)) (s : string) : bool :=
  match pat, s with
  | [], _ => true
  | _ :: _, EmptyString => false
  | Some c :: ps, String d s' => Ascii.eqb c d && pattern_here ps s'
  | None :: ps, String d s' => negb (Ascii.eqb d nl || Ascii.eqb d cr) && pattern_here ps s'
  end.

(** regex_replace(s, pattern, ""): removes the matches from left to right.  [skip]
    counts the characters of the current match still to be dropped. *)
Fixpoint remove_matches (pat : list (option ascii)) (skip : nat) (s : string) : string :=
  match s with
  | EmptyString => EmptyString
  | String c s' =>
      match skip with
      | S k => remove_matches pat k s'
      | 0 => if pattern_here pat s then remove_matches pat (pred (List.length pat)) s'
             else String c (remove_matches pat 0 s')
      end
  end.

Section Load.
  (** What model.cpp:100 does when the token contains characters special to
      std::regex (another expression than intended, or std::regex_error). *)
  Variable odd_replace : string -> string -> res string.

  (** model.cpp:98-101, the loop over the request tokens; substr(2, ...) throws when
      the token is shorter. *)
  Fixpoint remove_equalities (toks : list string) (matcher : string) : res string :=
    match toks with
    | [] => Ok matcher
    | t :: ts =>
        if Nat.ltb (String.length t) 2 then Throw StdOutOfRange
        else
          let tok := sdrop 2 t in
          let! m' := (if plain_token tok then Ok (remove_matches (equality_pattern tok) 0 matcher)
                      else odd_replace tok matcher) in
          remove_equalities ts m'
    end.

  (** model.cpp:102-104: one separator less than there are tokens.  (A model read from
      text has at least one token; for none the C++ loop bound would wrap around.) *)
  Definition expected_matcher (n : nat) : string := String.concat "" (repeat " && " (n - 1)).

  (** model.cpp:89-107 [IsHashsetUsagePossible]; map::at throws when there is no entry. *)
  Definition IsHashsetUsagePossible (m : model) : res bool :=
    match aget "r" m with
    | None => Ok false
    | Some ram =>
        match aget "r" ram with
        | None => Ok false
        | Some r =>
            match aget "m" m with
            | None => Throw StdOutOfRange
            | Some mam =>
                match aget "m" mam with
                | None => Throw StdOutOfRange
                | Some ma =>
                    let! rest := remove_equalities (a_tokens r) (a_value ma) in
                    Ok (String.eqb (expected_matcher (List.length (a_tokens r))) rest && negb (ahas "g" m))
                end
            end
        end
    end.

  (** The last lines of [AddDef], model.cpp:126, 132, 135. *)
  Definition store_def (m : model) (sec key : string) (a : assertion) : model * res bool :=
    match IsHashsetUsagePossible m with
    | Ok b => (put_ast m sec key (with_policy a (if b then Hash [] else Vec [])), Ok true)
    | Throw e => (m, Throw e)
    | UB u => (m, UB u)
    end.

  (** model.cpp:110-138 [AddDef]. *)
  Definition AddDef (m : model) (sec key value : string) : model * res bool :=
    if String.eqb value "" then (m, Ok false)
    else
      let a := if String.eqb sec "r" || String.eqb sec "p"
               then mkAst key value (map (fun t => (key ++ "_" ++ Trim t)%string) (Split value "," None)) (Vec []) None
               else mkAst key (RemoveComments value) [] (Vec []) None in
      let m1 := touch m sec in
      if negb (String.eqb sec "p") then store_def m1 sec key a
      else if negb (ahas "m" m1) || negb (ahas "r" m1) then (m1, Ok false)
      else store_def m1 sec key a.

  (** model.cpp:84-87 [LoadAssertion]. *)
  Definition LoadAssertion (m : model) (d : config) (sec key : string) : model * res bool :=
    AddDef m sec key (Get d (section_name sec ++ "::" ++ key)%string).

  (** model.cpp:68-76 [LoadSection] from the [i]-th key on; [fuel] bounds the number of
      iterations (proved sufficient), running out of it is [Unmodelled]. *)
  Fixpoint load_section (fuel : nat) (m : model) (d : config) (sec : string) (i : nat) : model * res unit :=
    match fuel with
    | 0 => (m, UB Unmodelled)
    | S n =>
        match LoadAssertion m d sec (sec ++ GetKeySuffix i)%string with
        | (m', Ok true) => load_section n m' d sec (S i)
        | (m', Ok false) => (m', Ok tt)
        | (m', Throw e) => (m', Throw e)
        | (m', UB u) => (m', UB u)
        end
    end.

  (** The number of options of a section of the configuration. *)
  Definition options_in (d : config) (section : string) : nat :=
    match aget section d with Some l => List.length l | None => 0 end.

  Definition LoadSection (m : model) (d : config) (sec : string) : model * res unit :=
    load_section (S (options_in d (section_name sec))) m d sec 1.

  (** model.cpp:50-51: the sections in reading order; stops at an exception. *)
  Fixpoint load_sections (secs : list string) (m : model) (d : config) : model * res unit :=
    match secs with
    | [] => (m, Ok tt)
    | s :: ss => match LoadSection m d s with
                 | (m', Ok _) => load_sections ss m' d
                 | (m', e) => (m', e)
                 end
    end.

  (** model.cpp:49-62 [LoadModelFromConfig]. *)
  Definition LoadModelFromConfig (m : model) (d : config) : model * res unit :=
    match load_sections ["m"; "r"; "p"; "g"; "e"] m d with
    | (m', Ok _) =>
        if forallb (fun s => ahas s m') ["r"; "p"; "e"; "m"] then (m', Ok tt)
        else (m', Throw MissingRequiredSections)
    | (m', e) => (m', e)
    end.

  (** model.cpp:146-150 [LoadModelFromText] on an empty model: [NewModelFromString]. *)
  Definition NewModelFromString (text : string) : res model :=
    let! d := NewConfigFromText text in
    let (m, out) := LoadModelFromConfig [] d in
    let! _ := out in Ok m.
End Load.
