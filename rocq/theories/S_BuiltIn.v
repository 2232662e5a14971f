(** Specification vocabulary for key patterns. *)
From Verif Require Import Base S_Text.

(** A path pattern: fixed text, named placeholders, and "/*" for any rest. *)
Inductive piece := Text (s : string) | Name (n : string) | Rest.

(** How patterns are written: ":name" for keyMatch2, "{name}" for keyMatch3 and 4. *)
Fixpoint spelled (name : string -> string) (ps : list piece) : string :=
  match ps with
  | [] => ""
  | Text s :: q => (s ++ spelled name q)%string
  | Name n :: q => (name n ++ spelled name q)%string
  | Rest :: q => ("/*" ++ spelled name q)%string
  end.
Definition with_colons : list piece -> string := spelled (fun n => (":" ++ n)%string).
Definition with_braces : list piece -> string := spelled (fun n => ("{" ++ n ++ "}")%string).

(** Characters that std::regex gives no meaning of their own; braces are escaped by the
    code, so they count as ordinary where they do not mark placeholders. *)
Definition ordinary (c : ascii) : Prop := smem c "^$\.*+?()[]|" = false.

(** Patterns for keyMatch2: a placeholder goes on to the next slash. *)
Inductive colon_pattern : list piece -> Prop :=
| colon_nil : colon_pattern []
| colon_text : forall s q, every ordinary s -> lacks ":" s -> colon_pattern q -> colon_pattern (Text s :: q)
| colon_name : forall n q, n <> "" -> lacks "/" n ->
    q = [] \/ (exists r, q = Rest :: r) \/ (exists t r, q = Text (String "/" t) :: r) ->
    colon_pattern q -> colon_pattern (Name n :: q)
| colon_rest : forall q, colon_pattern q -> colon_pattern (Rest :: q).
(** Patterns for keyMatch3: placeholders may stand anywhere. *)
Inductive brace_pattern : list piece -> Prop :=
| brace_nil : brace_pattern []
| brace_text : forall s q, every ordinary s -> lacks "{" s -> lacks "}" s -> brace_pattern q -> brace_pattern (Text s :: q)
| brace_name : forall n q, n <> "" -> lacks "/" n -> lacks "}" n -> brace_pattern q -> brace_pattern (Name n :: q)
| brace_rest : forall q, brace_pattern q -> brace_pattern (Rest :: q).

(** What a pattern means: the whole key is made of the fixed texts, one non-empty
    slash-free value for each placeholder and one line of any text behind the slash of
    each "/*".  The last argument lists the placeholders with their values. *)
Definition one_line (s : string) : Prop := lacks "010" s /\ lacks "013" s.
Inductive fits : list piece -> string -> list (string * string) -> Prop :=
| fits_nil : fits [] "" []
| fits_text : forall s q k e, fits q k e -> fits (Text s :: q) (s ++ k)%string e
| fits_name : forall n v q k e, v <> "" -> lacks "/" v -> fits q k e ->
    fits (Name n :: q) (v ++ k)%string ((n, v) :: e)
| fits_rest : forall v q k e, one_line v -> fits q k e -> fits (Rest :: q) ("/" ++ v ++ k)%string e.

(** There is a slash between any two placeholders, and "/*" comes last. *)
Fixpoint slash_comes (ps : list piece) : Prop :=
  match ps with
  | [] => True
  | Text s :: q => occurs "/" s \/ slash_comes q
  | Name _ :: _ => False
  | Rest :: _ => True
  end.
Fixpoint separated (ps : list piece) : Prop :=
  match ps with
  | [] => True
  | Text _ :: q => separated q
  | Name _ :: q => slash_comes q /\ separated q
  | Rest :: q => q = []
  end.

(** The value of the first placeholder called [n]; none, the empty text. *)
Definition bound (e : list (string * string)) (n v : string) : Prop :=
  (exists a b, e = a ++ (n, v) :: b /\ ~ In n (map fst a)) \/ (~ In n (map fst e) /\ v = "").
(** Placeholders of the same name have the same value. *)
Definition consistent (e : list (string * string)) : Prop :=
  forall n v w, In (n, v) e -> In (n, w) e -> v = w.
