(** Model of casbin/persist: the policy text format, the string adapter and the
    file adapters.  The file system is a map from paths to contents. *)
From Verif Require Import Base M_Util M_Model.

(** casbin/persist/adapter.cpp:28-44 [LoadPolicyLine].  An unknown policy type is a
    null pointer dereference. *)
Definition LoadPolicyLine (line : string) (m : model) : model * res unit :=
  if String.eqb line "" || String.prefix "#" line then (m, Ok tt)
  else
    match map Trim (Split line "," None) with
    | [] => (m, UB OutOfBounds)
    | key :: new_tokens =>
        let sec := stake 1 key in
        let m1 := touch m sec in
        match get_ast m1 sec key with
        | Ok a => (put_policy m1 sec key a (emplace (a_policy a) new_tokens), Ok tt)
        | Throw e => (m1, Throw e)
        | UB u => (m1, UB u)
        end
    end.

(** A loop calling [LoadPolicyLine] on each line; an exception ends it with the
    earlier lines loaded. *)
Fixpoint load_lines (lines : list string) (m : model) : model * res unit :=
  match lines with
  | [] => (m, Ok tt)
  | l :: ls => match LoadPolicyLine l m with
               | (m', Ok _) => load_lines ls m'
               | (m', e) => (m', e)
               end
  end.

(** The lines getline(in, line, '\n') delivers for a file with this content: the
    pieces between newlines, without a last empty piece. *)
Fixpoint drop_last_empty (l : list string) : list string :=
  match l with
  | [] => []
  | [x] => if String.eqb x "" then [] else [x]
  | x :: xs => x :: drop_last_empty xs
  end.
Definition getlines (content : string) : list string :=
  drop_last_empty (Split content (String nl "") None).

(** casbin/persist/file_adapter/file_adapter.cpp:43-47, 51-55 (and the same code in
    casbin/persist/string_adapter.cpp:46-50, 54-58): the text of one policy type. *)
Definition rule_text (pt : string) (r : rule) : res string :=
  let! s := ArrayToString r in Ok (pt ++ ", " ++ s ++ String nl "")%string.

Definition sec_text (am : assertion_map) : res string :=
  let! parts := mapr (fun kv =>
                        let! ls := mapr (rule_text (fst kv)) (rules_of (a_policy (snd kv))) in
                        Ok (String.concat "" ls)) am in
  Ok (String.concat "" parts).

(** file_adapter.cpp:40-58, string_adapter.cpp:42-61: the whole text, with trailing
    newlines removed. *)
Definition policy_text (m : model) : res string :=
  let! tp := sec_text (sec_of m "p") in
  let! tg := sec_text (sec_of m "g") in
  Ok (RTrim (String nl "") (tp ++ tg)).

(** ** Files *)
Record fs := mkFs {
  files : list (string * string);      (* path, content *)
  writable : string -> bool }.         (* paths that can be opened for writing *)

Definition write_file (f : fs) (path content : string) : fs :=
  mkFs (aset path content (files f)) (writable f).

(** file_adapter.cpp:61-76 [LoadPolicyFile].  ifstream::open does not throw, a file
    that cannot be opened delivers no lines. *)
Definition LoadPolicyFile (f : fs) (path : string) (m : model) : model * res unit :=
  match aget path (files f) with
  | None => (m, Ok tt)
  | Some content => load_lines (map Trim (getlines content)) m
  end.

(** file_adapter.cpp:27-32 [FileAdapter::LoadPolicy]. *)
Definition FileAdapter_LoadPolicy (f : fs) (path : string) (m : model) : model * res unit :=
  if String.eqb path "" then (m, Throw CasbinAdapter) else LoadPolicyFile f path m.

(** file_adapter.cpp:78-94 [SavePolicyFile]: open (truncating), write, close. *)
Definition SavePolicyFile (f : fs) (path text : string) : fs * res unit :=
  if writable f path then (write_file f path text, Ok tt) else (f, Throw IOException).

(** The contents the file may have if the process stops during file_adapter.cpp:78-94:
    before open the old one, after open (which truncates) any prefix of the text. *)
Inductive crash_content (old : option string) (text : string) : option string -> Prop :=
| crash_before_open : crash_content old text old
| crash_writing : forall n, n <= String.length text ->
    crash_content old text (Some (stake n text)).

(** file_adapter.cpp:35-59 [FileAdapter::SavePolicy]; model->m["p"], m["g"] create the
    sections when missing. *)
Definition FileAdapter_SavePolicy (f : fs) (path : string) (m : model) : model * fs * res unit :=
  if String.eqb path "" then (m, f, Throw CasbinAdapter)
  else
    let m1 := touch (touch m "p") "g" in
    match policy_text m1 with
    | Ok t => let (f', out) := SavePolicyFile f path t in (m1, f', out)
    | Throw e => (m1, f, Throw e)
    | UB u => (m1, f, UB u)
    end.

(** ** String adapter: casbin/persist/string_adapter.cpp *)

(** string_adapter.cpp:27-34 [LoadPolicy]. *)
Definition StringAdapter_LoadPolicy (line : string) (m : model) : model * res unit :=
  if String.eqb line "" then (m, Throw CasbinAdapter)
  else load_lines (Split line (String nl "") None) m.

(** string_adapter.cpp:37-62 [SavePolicy]; returns the new buffer. *)
Definition StringAdapter_SavePolicy (line : string) (m : model) : model * string * res unit :=
  if String.eqb line "" then (m, line, Throw CasbinAdapter)
  else
    let m1 := touch (touch m "p") "g" in
    match policy_text m1 with
    | Ok t => (m1, t, Ok tt)
    | Throw e => (m1, line, Throw e)
    | UB u => (m1, line, UB u)
    end.

(** ** Filtered file adapter: casbin/persist/file_adapter/filtered_file_adapter.cpp *)

(** include/casbin/persist/filtered_adapter.h:26-30 [Filter]. *)
Record filter := mkFilter { f_P : list string; f_G : list string }.

(** filtered_file_adapter.cpp:38-43, the loop of filterWords over the filter and the
    fields of the line after the first: true when a difference was found. *)
Fixpoint words_differ (flt fields : list string) : res bool :=
  match flt with
  | [] => Ok false
  | w :: ws =>
      match fields with
      | [] => if Nat.ltb 0 (String.length w) then UB OutOfBounds else words_differ ws []
      | x :: xs =>
          if Nat.ltb 0 (String.length w) && negb (String.eqb (Trim w) (Trim x)) then Ok true
          else words_differ ws xs
      end
  end.

(** filtered_file_adapter.cpp:33-46 [filterWords]: without a difference the result is
    the uninitialised variable skip_line. *)
Definition filterWords (line flt : list string) : res bool :=
  if Nat.ltb (List.length line) (List.length flt + 1) then Ok true
  else
    let! d := words_differ flt (tl line) in
    if d then Ok true else UB Uninitialised.

(** filtered_file_adapter.cpp:15-31 [filterLine]. *)
Definition filterLine (line : string) (flt : option filter) : res bool :=
  match flt with
  | None => Ok false
  | Some f =>
      let p := Split line "," None in
      match p with
      | [] => Ok true
      | p0 :: _ =>
          let str := Trim p0 in
          let slice := if String.eqb str "p" then f_P f
                       else if String.eqb str "g" then f_G f else [] in
          filterWords p slice
      end
  end.

(** filtered_file_adapter.cpp:57-64, the loop of [loadFilteredPolicyFile]. *)
Fixpoint load_filtered (lines : list string) (flt : option filter) (m : model) : model * res unit :=
  match lines with
  | [] => (m, Ok tt)
  | l :: ls =>
      match filterLine l flt with
      | Ok true => load_filtered ls flt m
      | Ok false => match LoadPolicyLine l m with
                    | (m', Ok _) => load_filtered ls flt m'
                    | (m', e) => (m', e)
                    end
      | Throw e => (m, Throw e)
      | UB u => (m, UB u)
      end
  end.

(** filtered_file_adapter.cpp:76-79 [FilteredFileAdapter::LoadPolicy]: (filtered', model). *)
Definition Filtered_LoadPolicy (f : fs) (path : string) (m : model) : bool * model * res unit :=
  let (m', out) := FileAdapter_LoadPolicy f path m in (false, m', out).

(** filtered_file_adapter.cpp:82-93 [LoadFilteredPolicy]: with a null filter the whole
    file is loaded and, because there is no return, loaded a second time. *)
Definition LoadFilteredPolicy (f : fs) (path : string) (filtered : bool) (flt : option filter)
           (m : model) : bool * model * res unit :=
  let '(fd1, m1, out1) :=
    match flt with
    | None => Filtered_LoadPolicy f path m
    | Some _ => (filtered, m, Ok tt)
    end in
  match out1 with
  | Ok _ =>
      if String.eqb path "" then (fd1, m1, Throw CasbinAdapter)
      else
        let lines := match aget path (files f) with
                     | None => []
                     | Some content => map Trim (getlines content)
                     end in
        match load_filtered lines flt m1 with
        | (m2, Ok _) => (true, m2, Ok tt)
        | (m2, e) => (fd1, m2, e)
        end
  | e => (fd1, m1, e)
  end.

(** filtered_file_adapter.cpp:101-106 [SavePolicy]: calls itself when not filtered. *)
Definition Filtered_SavePolicy (filtered : bool) : res unit :=
  if filtered then Throw CasbinAdapter else UB InfiniteRecursion.
