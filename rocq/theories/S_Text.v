(** Specification vocabulary for texts. *)
From Verif Require Import Base.

(** [pat] occurs in [s] after [a]. *)
Definition occurs (pat s : string) : Prop := exists a b, s = (a ++ pat ++ b)%string.
(** [a] is what stands before the first occurrence, [b] what stands behind it. *)
Definition first_occurrence (pat s a b : string) : Prop :=
  s = (a ++ pat ++ b)%string /\ forall a' b', s = (a' ++ pat ++ b')%string -> String.length a <= String.length a'.

(** Cutting a text at the leftmost occurrences of a separator, one after the other. *)
Inductive splits (del : string) : string -> list string -> Prop :=
| splits_last : forall s, ~ occurs del s -> splits del s [s]
| splits_more : forall s a b l, first_occurrence del s a b -> splits del b l -> splits del s (a :: l).

(** Putting parts together with a separator in between. *)
Fixpoint glue (sep : string) (l : list string) : string :=
  match l with
  | [] => ""
  | [x] => x
  | x :: xs => (x ++ sep ++ glue sep xs)%string
  end.

(** White space: tab, line feed, vertical tab, form feed, carriage return, space. *)
Definition blank (c : ascii) : Prop :=
  c = "009"%char \/ c = "010"%char \/ c = "011"%char \/ c = "012"%char \/ c = "013"%char \/ c = " "%char.
(** Every character of [s] is in [P]. *)
Fixpoint every (P : ascii -> Prop) (s : string) : Prop :=
  match s with EmptyString => True | String c s' => P c /\ every P s' end.
(** [t] neither starts nor ends with a character in [P]. *)
Definition no_edge (P : ascii -> Prop) (t : string) : Prop :=
  (forall c r, t = String c r -> ~ P c) /\ (forall c r, t = (r ++ String c "")%string -> ~ P c).
(** [t] is [s] without its surrounding characters in [P]. *)
Definition trimmed (P : ascii -> Prop) (s t : string) : Prop :=
  (exists pre post, s = (pre ++ t ++ post)%string /\ every P pre /\ every P post) /\ no_edge P t.

(** The character [c] does not occur in [s]. *)
Definition lacks (c : ascii) (s : string) : Prop := ~ occurs (String c "") s.
(** In [x] followed by the separator no separator begins before the end of [x]. *)
Definition apart_from (del x : string) : Prop := forall a b, (x ++ del)%string = (a ++ del ++ b)%string -> b = "".
