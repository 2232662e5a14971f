(** Options of configurations: what keys name, and what values read as. *)
From Coq Require Import ZArith.
From Verif Require Import Base S_Text.

(** A key is the name of a section and of an option with two colons in between, or the
    name of an option of the section "default". *)
Definition names (key sec opt : string) : Prop :=
  (key = opt /\ sec = "default" /\ opt <> "" /\ lacks ":" opt) \/
  (key = (sec ++ "::" ++ opt)%string /\ sec <> "" /\ lacks ":" sec /\ lacks ":" opt).

(** A history of settings: the last one of the option gave it the value [v]. *)
Definition last_setting (h : list (string * string)) (sec opt v : string) : Prop :=
  exists before key after, h = before ++ (key, v) :: after /\ names key sec opt /\
    forall key' v', In (key', v') after -> ~ names key' sec opt.
Definition never_set (h : list (string * string)) (sec opt : string) : Prop :=
  forall key v, In (key, v) h -> ~ names key sec opt.

(** Decimal numbers. *)
Definition digit_is (c : ascii) (d : Z) : Prop :=
  In (c, d) [("0"%char, 0%Z); ("1"%char, 1%Z); ("2"%char, 2%Z); ("3"%char, 3%Z); ("4"%char, 4%Z);
             ("5"%char, 5%Z); ("6"%char, 6%Z); ("7"%char, 7%Z); ("8"%char, 8%Z); ("9"%char, 9%Z)].
Inductive numeral : string -> Z -> Prop :=
| numeral_one : forall c d, digit_is c d -> numeral (String c "") d
| numeral_more : forall s n c d, numeral s n -> digit_is c d -> numeral (s ++ String c "") (10 * n + d).

(** A text that begins, after blanks, with an integer; what follows it is no digit. *)
Definition begins_with_int (t : string) (n : Z) : Prop :=
  exists ws sign digits rest v, t = (ws ++ sign ++ digits ++ rest)%string /\ every blank ws /\
    numeral digits v /\ (forall c r d, rest = String c r -> ~ digit_is c d) /\
    ((sign = "" \/ sign = "+") /\ n = v \/ sign = "-" /\ n = (- v)%Z).
Definition int_range (n : Z) : Prop := (- 2147483648 <= n <= 2147483647)%Z.
