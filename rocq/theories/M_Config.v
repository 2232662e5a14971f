(** Model of casbin/config/config.cpp: the reader of model files. *)
From Coq Require Import ZArith.
From Verif Require Import Base M_Util M_Model M_Persist.

(** include/casbin/config/config.h:34 [Config::data]: section, option, value. *)
Definition config := list (string * list (string * string)).

(** config.cpp:37-43 [AddConfig] (the result is used by no caller). *)
Definition AddConfig (d : config) (section option value : string) : config :=
  let s := if String.eqb section "" then "default" else section in
  aset s (aset option value (match aget s d with Some l => l | None => [] end)) d.

(** config.cpp:59-88, the loop of [ParseBuffer] over the lines getline delivers; an
    exception leaves what was read before. *)
Fixpoint parse_lines (section : string) (lines : list string) (d : config) : config * res unit :=
  match lines with
  | [] => (d, Ok tt)
  | l :: ls =>
      if String.eqb l "" then parse_lines section ls d
      else
        let line := Trim l in
        if String.prefix "#" line then parse_lines section ls d
        else if String.prefix ";" line then parse_lines section ls d
        else
          match (if String.prefix "[" line then EndsWith line "]" else Ok false) with
          | Ok true => parse_lines (stake (String.length line - 2) (sdrop 1 line)) ls d
          | Ok false =>
              match Split line "=" (Some 1) with
              | [option; value] => parse_lines section ls (AddConfig d section (Trim option) (Trim value))
              | _ => (d, Throw IllegalArgument)
              end
          | Throw e => (d, Throw e)
          | UB u => (d, UB u)
          end
  end.

(** config.cpp:59-88 [ParseBuffer]. *)
Definition ParseBuffer (content : string) (d : config) : config * res unit :=
  parse_lines "" (getlines content) d.

(** The object a constructing function delivers, or its exception. *)
Definition built (p : config * res unit) : res config := let! _ := snd p in Ok (fst p).

(** config.cpp:108-113 [NewConfigFromText]. *)
Definition NewConfigFromText (text : string) : res config := built (ParseBuffer text []).

(** The content of a file as ifstream delivers it: a file that cannot be opened has no
    lines, and open does not throw (config.cpp:47-53). *)
Definition content_of (f : fs) (path : string) : string :=
  match aget path (files f) with Some c => c | None => "" end.

(** config.cpp:168-184 [Get], through which [GetString] (134-136) reads. *)
Definition Get (d : config) (key : string) : string :=
  let (section, option) := match Split key "::" None with
                           | s :: o :: _ => (s, o)
                           | [o] => ("default", o)
                           | [] => ("default", "")
                           end in
  match aget section d with
  | Some l => match aget option l with Some v => v | None => "" end
  | None => ""
  end.

(** config.cpp:122-124 [GetBool]. *)
Definition GetBool (d : config) (key : string) : bool := String.eqb (Get d key) "true".

(** config.cpp:138-145 [GetStrings]. *)
Definition GetStrings (d : config) (key : string) : list string :=
  let v := Get d key in if String.eqb v "" then [] else Split v "," None.

(** The C string at c_str(): the characters before the first NUL. *)
Fixpoint c_str (s : string) : string :=
  match s with
  | EmptyString => EmptyString
  | String c s' => if Ascii.eqb c "000" then EmptyString else String c (c_str s')
  end.

(** std::atoi: blanks are skipped, then comes a sign, then digits; anything after them is
    ignored, no digits give 0, a number that is not an int is undefined.  int has 32 bits. *)
Definition digit_val (c : ascii) : option Z :=
  if Nat.leb 48 (nat_of_ascii c) && Nat.leb (nat_of_ascii c) 57 then Some (Z.of_nat (nat_of_ascii c - 48)) else None.
Fixpoint leading_number (acc : Z) (s : string) : Z :=
  match s with
  | EmptyString => acc
  | String c s' => match digit_val c with Some d => leading_number (10 * acc + d)%Z s' | None => acc end
  end.
Definition atoi (s : string) : res Z :=
  let t := LTrim blanks s in
  let n := if String.prefix "-" t then (- leading_number 0 (sdrop 1 t))%Z
           else if String.prefix "+" t then leading_number 0 (sdrop 1 t)
           else leading_number 0 t in
  if (Z.leb (- 2147483648) n && Z.leb n 2147483647)%bool then Ok n else UB OutOfRange.

(** config.cpp:126-128 [GetInt]. *)
Definition GetInt (d : config) (key : string) : res Z := atoi (c_str (Get d key)).

(** config.cpp:147-166 [Set], without the lock. *)
Definition Set_ (d : config) (key value : string) : config * res unit :=
  if Nat.eqb (String.length key) 0 then (d, Throw IllegalArgument)
  else
    match Split key "::" None with
    | s :: o :: _ => (AddConfig d s o value, Ok tt)
    | [o] => (AddConfig d "" o value, Ok tt)
    | [] => (d, UB OutOfBounds)
    end.

(** ** The lock shared by all objects: config.cpp:32 [Config::mtx_lock]

    [w_locked] tells whether the static mutex is locked.  Locking it again never
    returns (another thread) or is undefined (the thread that holds it). *)
Record world := mkW { w_locked : bool; w_fs : fs; w_objects : list config }.

Inductive cop :=
| NewConfigFile (path : string)                (* config.cpp:96-100, 118-120 *)
| NewConfigText (text : string)                (* config.cpp:108-113 *)
| SetOption (i : nat) (key value : string)     (* on the i-th object *)
| GetOption (i : nat) (key : string).

Fixpoint uplist {A} (i : nat) (x : A) (l : list A) : list A :=
  match l, i with
  | [], _ => []
  | _ :: t, 0 => x :: t
  | y :: t, S j => y :: uplist j x t
  end.

(** One call, with the text read by GetString as result. *)
Definition cstep (w : world) (op : cop) : world * res string :=
  match op with
  | NewConfigFile path =>
      (* config.cpp:45-57 [Parse]: lock, parse, unlock; ParseBuffer may throw in between *)
      if w_locked w then (w, UB LockedTwice)
      else match ParseBuffer (content_of (w_fs w) path) [] with
           | (d, Ok _) => (mkW false (w_fs w) (w_objects w ++ [d]), Ok "")
           | (d, Throw e) => (mkW true (w_fs w) (w_objects w), Throw e)
           | (d, UB u) => (mkW true (w_fs w) (w_objects w), UB u)
           end
  | NewConfigText text =>
      match ParseBuffer text [] with
      | (d, Ok _) => (mkW (w_locked w) (w_fs w) (w_objects w ++ [d]), Ok "")
      | (d, Throw e) => (w, Throw e)
      | (d, UB u) => (w, UB u)
      end
  | SetOption i key value =>
      (* config.cpp:147-166: both paths unlock *)
      if w_locked w then (w, UB LockedTwice)
      else match nth_error (w_objects w) i with
           | None => (w, UB NullDeref)
           | Some d => let (d', out) := Set_ d key value in
                       (mkW false (w_fs w) (uplist i d' (w_objects w)), let! _ := out in Ok "")
           end
  | GetOption i key =>
      match nth_error (w_objects w) i with
      | None => (w, UB NullDeref)
      | Some d => (w, Ok (Get d key))
      end
  end.
