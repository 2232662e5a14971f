(** Specification of eval(...) in matchers and of the escaping of dots. *)
From Verif Require Import Base M_Eval S_Text.

(** The word eval and an opening parenthesis, in any case. *)
Definition opens (t : string) : Prop :=
  exists c1 c2 c3 c4, t = String c1 (String c2 (String c3 (String c4 "("))) /\
  (c1 = "e"%char \/ c1 = "E"%char) /\ (c2 = "v"%char \/ c2 = "V"%char) /\
  (c3 = "a"%char \/ c3 = "A"%char) /\ (c4 = "l"%char \/ c4 = "L"%char).
(** [s] starts with a call eval(key), followed by [rest]. *)
Definition starts_call (s ev key rest : string) : Prop :=
  s = (ev ++ key ++ ")" ++ rest)%string /\ opens ev /\ lacks ")" key.
Definition call_here (s : string) : Prop := exists ev key rest, starts_call s ev key rest.

(** [replaced val false s out]: [out] is [s] with every call eval(key) replaced by
    the value of its key, a call whose key has no value being left alone.  A call does
    not start in the middle of a word: the first argument says that the character before
    belongs to a word ([is_word]: letters, digits and the underscore). *)
Inductive replaced (val : string -> option string) : bool -> string -> string -> Prop :=
| rep_end : forall w, replaced val w "" ""
| rep_call : forall s ev key rest out, starts_call s ev key rest -> replaced val false rest out ->
    replaced val false s ((match val key with Some v => v | None => ev ++ key ++ ")" end) ++ out)%string
| rep_char : forall w c s out, (w = true \/ ~ call_here (String c s)) -> replaced val (is_word c) s out ->
    replaced val w (String c s) (String c out).

(** The keys of the calls, in order. *)
Inductive eval_keys : bool -> string -> list string -> Prop :=
| keys_end : forall w, eval_keys w "" []
| keys_call : forall s ev key rest l, starts_call s ev key rest -> eval_keys false rest l -> eval_keys false s (key :: l)
| keys_char : forall w c s l, (w = true \/ ~ call_here (String c s)) -> eval_keys (is_word c) s l -> eval_keys w (String c s) l.

(** Escaping: [a] ends in a run of letters, digits and blanks (no dot among them) that
    reaches back to the start of the text or to another kind of character. *)
Definition run_char (c : ascii) : Prop := is_alnum c = true \/ c = " "%char.
Definition in_fresh_run (a : string) : Prop :=
  exists a1 a2, a = (a1 ++ a2)%string /\ every run_char a2 /\
    (a1 = "" \/ exists b c, a1 = (b ++ String c "")%string /\ ~ run_char c /\ c <> "."%char).
