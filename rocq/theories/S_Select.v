(** Specification of the choice of the rule index. *)
From Verif Require Import Base S_Text.

(** The text "r.f == p.f" of a comparison of field [f]; in place of the dots any character
    but a line feed and a carriage return may stand. *)
Definition comparison (f x : string) : Prop :=
  exists a b, a <> nl /\ a <> cr /\ b <> nl /\ b <> cr /\ x = String "r" (String a (f ++ " == p" ++ String b f))%string.

(** [s'] is what remains of [s] when the comparisons of [f] are cut out, from left to right. *)
Inductive cut (f : string) : string -> string -> Prop :=
| cut_end : cut f "" ""
| cut_out : forall x s s', comparison f x -> cut f s s' -> cut f (x ++ s)%string s'
| cut_keep : forall c s s', (forall x t, comparison f x -> String c s <> (x ++ t)%string) -> cut f s s' -> cut f (String c s) (String c s').
(** ... the comparisons of the first field, then those of the second, and so on. *)
Inductive cut_all : list string -> string -> string -> Prop :=
| cut_none : forall s, cut_all [] s s
| cut_more : forall f fs s s' s'', cut f s s' -> cut_all fs s' s'' -> cut_all (f :: fs) s s''.

(** " && ", [n] times. *)
Fixpoint ands (n : nat) : string := match n with 0 => "" | S k => (" && " ++ ands k)%string end.

(** The matcher that compares the fields [gs] of the request with those of the rule. *)
Definition compared (g : string) : string := ("r." ++ g ++ " == p." ++ g)%string.
Fixpoint conjunction (gs : list string) : string :=
  match gs with
  | [] => ""
  | [g] => compared g
  | g :: gs' => (compared g ++ " && " ++ conjunction gs')%string
  end.

(** A name without blanks, '=', '&' and '.'. *)
Definition simple_name (f : string) : Prop := f <> "" /\ every (fun c => lacks c " =&.") f.
(** No name is the beginning of another one. *)
Definition prefix_free (fs : list string) : Prop := forall f t, In f fs -> In (f ++ t)%string fs -> t = "".
