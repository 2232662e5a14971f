(** Model of casbin/util/*.cpp (the functions that do not use std::regex). *)
From Verif Require Import Base.

(** casbin/util/split.cpp:30-48 [Split].  [limit = 0] (or negative) means no
    limit, modelled as [None]; [Some n] allows at most [n] cuts, i.e. C++
    [limit = n + 1].  Structural recursion on the text: [skip] counts the
    characters of the delimiter still to be dropped and [cur] is the token being
    read.  Simplification: [del] must be non-empty (every call site passes a
    non-empty literal; with an empty one the C++ loop runs 2^31 times). *)
Fixpoint split_aux (del : string) (budget : option nat) (skip : nat) (cur : string) (s : string)
  : list string :=
  match s with
  | EmptyString => [cur]
  | String c s' =>
      match skip with
      | S k => split_aux del budget k cur s'
      | 0 =>
          match budget with
          | Some 0 => [cur ++ s]%string
          | _ =>
            if String.prefix del s
            then cur :: split_aux del (option_map pred budget) (pred (String.length del)) "" s'
            else split_aux del budget 0 (cur ++ String c "")%string s'
          end
      end
  end.
Definition Split (s del : string) (budget : option nat) : list string :=
  split_aux del budget 0 "" s.

(** include/casbin/util/util.h:67-71, the default argument of Trim. *)
Definition blanks : string :=
  String tab (String nl (String vt (String ff (String cr (String " " ""))))).

(** casbin/util/trim.cpp:26-29 [LTrim] (erases the leading characters in [chars]). *)
Fixpoint LTrim (chars s : string) : string :=
  match s with
  | EmptyString => EmptyString
  | String c s' => if smem c chars then LTrim chars s' else s
  end.

(** casbin/util/trim.cpp:31-34 [RTrim] (erases after find_last_not_of). *)
Fixpoint RTrim (chars s : string) : string :=
  match s with
  | EmptyString => EmptyString
  | String c s' =>
      match RTrim chars s' with
      | EmptyString => if smem c chars then EmptyString else String c EmptyString
      | t => String c t
      end
  end.

(** casbin/util/trim.cpp:36-38 [Trim] with the default set of blanks.  The C++
    function also trims its argument in place; every caller uses the result only. *)
Definition Trim (s : string) : string := LTrim blanks (RTrim blanks s).

(** casbin/util/join.cpp:26-31 [Join]; vos[0] on an empty vector is UB. *)
Definition Join (vos : list string) (sep : string) : res string :=
  match vos with
  | [] => UB OutOfBounds
  | v :: vs => Ok (fold_left (fun fs x => (fs ++ (sep ++ x))%string) vs v)
  end.

(** casbin/util/join_slice.cpp:26-33 [JoinSlice]. *)
Definition JoinSlice (a : string) (slice : list string) : list string := a :: slice.

(** Lexicographic order of std::string (unsigned bytes). *)
Definition sleb (a b : string) : bool :=
  match String.compare a b with Gt => false | _ => true end.

(** std::sort on strings, as insertion sort (std::sort's result is determined by
    the order because equal strings are indistinguishable). *)
Fixpoint sinsert (x : string) (l : list string) : list string :=
  match l with
  | [] => [x]
  | y :: l' => if sleb x y then x :: l else y :: sinsert x l'
  end.
Fixpoint ssort (l : list string) : list string :=
  match l with [] => [] | x :: l' => sinsert x (ssort l') end.

(** casbin/util/array_equals.cpp:29-37 [ArrayEquals]. *)
Definition ArrayEquals (a b : list string) : bool :=
  if Nat.eqb (List.length a) (List.length b) then rule_eqb (ssort a) (ssort b) else false.

(** Membership of a string in a list of strings, as the [found]/[mb] maps of the
    next two functions record it. *)
Definition inb (x : string) (l : list string) : bool := existsb (String.eqb x) l.

(** casbin/util/array_remove_duplicates.cpp:29-40 [ArrayRemoveDuplicates]; [found]
    is the list of keys mapped to true. *)
Fixpoint dedup_aux (found : list string) (s : list string) : list string :=
  match s with
  | [] => []
  | it :: s' => if inb it found then dedup_aux found s' else it :: dedup_aux (it :: found) s'
  end.
Definition ArrayRemoveDuplicates (s : list string) : list string := dedup_aux [] s.

(** casbin/util/array_to_string.cpp:26-31 [ArrayToString]; substr(2) of the empty
    string throws std::out_of_range. *)
Definition ArrayToString (arr : list string) : res string :=
  let r := fold_left (fun acc it => (acc ++ (", " ++ it))%string) arr "" in
  if Nat.ltb (String.length r) 2 then Throw StdOutOfRange else Ok (sdrop 2 r).

(** casbin/util/ends_with.cpp:26-30 [EndsWith]; when the suffix is longer the
    unsigned subtraction wraps and substr throws std::out_of_range. *)
Definition EndsWith (base suffix : string) : res bool :=
  let bl := String.length base in
  let sl := String.length suffix in
  if Nat.ltb bl sl then Throw StdOutOfRange
  else Ok (String.eqb (stake sl (sdrop (bl - sl) base)) suffix).

(** casbin/util/remove_comments.cpp:27-35 [RemoveComments]. *)
Definition RemoveComments (s : string) : string :=
  match sfind "#" s with
  | None => s
  | Some pos => Trim (stake pos s)
  end.

(** casbin/util/set_subtract.cpp:29-44 [SetSubtract]. *)
Definition SetSubtract (a b : list string) : list string :=
  filter (fun it => negb (inb it b)) a.

(** casbin/util/find_all_occurences.cpp:26-41 [FindAllOccurences]: the positions of
    the non-overlapping occurrences from left to right.  [skip] counts characters
    of the last occurrence still to be passed.  Simplification: [pat] non-empty
    (with an empty one the C++ loop never ends). *)
Fixpoint occ_aux (pat : string) (pos skip : nat) (s : string) : list nat :=
  match s with
  | EmptyString => []
  | String _ s' =>
      match skip with
      | S k => occ_aux pat (S pos) k s'
      | 0 => if String.prefix pat s
             then pos :: occ_aux pat (S pos) (pred (String.length pat)) s'
             else occ_aux pat (S pos) 0 s'
      end
  end.
Definition FindAllOccurences (data pat : string) : list nat := occ_aux pat 0 0 data.
