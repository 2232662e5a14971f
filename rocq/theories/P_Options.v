(** Lemmas about keys and integers in configurations. *)
From Coq Require Import ZArith.
From Verif Require Import Base M_Util M_Config S_Text S_Config S_Options P_Base P_Text P_Config.

(** ** Keys *)
Lemma names_split : forall key s o, names key s o ->
  key <> "" /\ s <> "" /\ ((s = "default" /\ Split key "::" None = [o]) \/ Split key "::" None = [s; o]).
Proof.
  intros key s o [[-> [-> [N L]]]|[-> [N [L L']]]].
  - split; auto. split; [discriminate|]. left. split; auto. apply colon_none. auto.
  - split; [destruct s; discriminate|]. split; auto. right. apply colon_split; auto.
Qed.
Lemma names_fun : forall key s o s' o', names key s o -> names key s' o' -> s = s' /\ o = o'.
Proof.
  intros key s o s' o' A B. apply names_split in A. apply names_split in B.
  destruct A as [_ [_ [[-> A]|A]]]; destruct B as [_ [_ [[-> B]|B]]]; rewrite A in B; inversion B; auto.
Qed.
Lemma set_names : forall d key s o v, names key s o -> Set_ d key v = (AddConfig d s o v, Ok tt).
Proof.
  intros d key s o v N. apply names_split in N. destruct N as [K [_ N]]. unfold Set_.
  destruct key as [|c key]; [congruence|]. cbn [String.length Nat.eqb].
  destruct N as [[-> ->]| ->]; reflexivity.
Qed.
Lemma get_names : forall d key s o, names key s o -> Get d key = match lookup d s o with Some v => v | None => "" end.
Proof.
  intros d key s o N. apply names_split in N. destruct N as [_ [_ [[-> N]|N]]].
  - unfold Get, lookup. rewrite N. destruct (aget "default" d); auto.
  - apply Get_lookup. auto.
Qed.
Lemma lookup_set : forall d s o v s' o', s <> "" -> lookup (AddConfig d s o v) s' o' =
  if String.eqb s' s && String.eqb o' o then Some v else lookup d s' o'.
Proof. intros. rewrite lookup_add. unfold named. destruct (String.eqb_spec s ""); [congruence|auto]. Qed.

(** ** Integers *)
Lemma digit_test : forall c d, digit_val c = Some d <-> digit_is c d.
Proof.
  intros c d. unfold digit_val, digit_is. destruct c as [b0 b1 b2 b3 b4 b5 b6 b7].
  destruct b0, b1, b2, b3, b4, b5, b6, b7; cbn -[Z.of_nat]; (split; [intros X|intros X]);
   try discriminate; try (injection X as <-); try (repeat (destruct X as [X|X]; [inversion X; subst; reflexivity|]); destruct X; fail); tauto.
Qed.
Lemma leading_app : forall s n, numeral s n -> forall acc t, exists k, (forall a u, leading_number a (s ++ u)%string = leading_number (a * k + n)%Z u) /\ leading_number acc (s ++ t)%string = leading_number (acc * k + n)%Z t.
Proof.
  induction 1 as [c d D|s n c d N IH D]; intros acc t; apply digit_test in D.
  - exists 10%Z. split; intros; cbn [append leading_number]; rewrite D; f_equal; ring.
  - destruct (IH acc t) as [k [A _]]. exists (k * 10)%Z.
    assert (Q : forall a u, leading_number a ((s ++ String c "") ++ u)%string = leading_number (a * (k * 10) + (10 * n + d))%Z u).
    { intros a u. rewrite app_assoc_s, A. cbn [append leading_number]. rewrite D. f_equal. ring. }
    split; auto.
Qed.
Lemma leading_numeral : forall s n rest, numeral s n -> (forall c r d, rest = String c r -> ~ digit_is c d) ->
  leading_number 0 (s ++ rest)%string = n.
Proof.
  intros s n rest N R. destruct (leading_app s n N 0%Z rest) as [k [_ ->]]. rewrite Z.mul_0_l, Z.add_0_l.
  destruct rest as [|c r]; auto. cbn [leading_number]. destruct (digit_val c) eqn:D; auto.
  exfalso. apply digit_test in D. eapply R; eauto.
Qed.
(** The longest numeral at the beginning of a text. *)
Lemma numeral_at : forall s, (exists c r d, s = String c r /\ digit_is c d) ->
  exists ds rest n, s = (ds ++ rest)%string /\ numeral ds n /\ (forall c r d, rest = String c r -> ~ digit_is c d).
Proof.
  assert (X : forall s ds0 n0, numeral ds0 n0 -> exists ds rest n, (ds0 ++ s)%string = (ds ++ rest)%string /\ numeral ds n /\ (forall c r d, rest = String c r -> ~ digit_is c d)).
  { induction s as [|c s IH]; intros ds0 n0 N.
    - exists ds0, "", n0. split; auto. split; auto. discriminate.
    - destruct (digit_val c) as [d|] eqn:D.
      + apply digit_test in D. destruct (IH (ds0 ++ String c "")%string (10 * n0 + d)%Z) as [ds [rest [n [E Y]]]].
        { constructor; auto. }
        exists ds, rest, n. split; auto. rewrite <- E, app_assoc_s. auto.
      + exists ds0, (String c s), n0. split; auto. split; auto. intros c' r d E K. inversion E; subst. apply digit_test in K. congruence. }
  intros s [c [r [d [-> D]]]]. destruct (X r (String c "") d) as [ds [rest [n [E Y]]]]; [constructor; auto|]. exists ds, rest, n. auto.
Qed.
Lemma numeral_begins : forall s n, numeral s n -> exists c r d, s = String c r /\ digit_is c d.
Proof.
  induction 1 as [c d D|s n c d N [c' [r [d' [-> D']]]] D].
  - exists c, "", d. auto.
  - exists c', (r ++ String c "")%string, d'. auto.
Qed.
Lemma LTrim_blank : forall ws t, every blank ws -> LTrim blanks (ws ++ t)%string = LTrim blanks t.
Proof.
  induction ws as [|c ws IH]; intros t H; auto. destruct H as [B H]. cbn [append LTrim].
  replace (smem c blanks) with true; auto. symmetry. apply smem_blanks. auto.
Qed.
Lemma LTrim_ends : forall s, exists ws, s = (ws ++ LTrim blanks s)%string /\ every blank ws /\ forall c r, LTrim blanks s = String c r -> ~ blank c.
Proof.
  induction s as [|c s [ws [E [B N]]]].
  - exists "". split; auto. split; simpl; auto. discriminate.
  - cbn [LTrim]. destruct (smem c blanks) eqn:K.
    + exists (String c ws). split; [cbn [append]; congruence|]. split; auto. split; auto. apply smem_blanks. auto.
    + exists "". split; auto. split; simpl; auto. intros c' r X. inversion X; subst. intros Y. apply smem_blanks in Y. congruence.
Qed.
Lemma LTrim_none : forall c r, ~ blank c -> LTrim blanks (String c r) = String c r.
Proof. intros c r N. cbn [LTrim]. destruct (smem c blanks) eqn:K; auto. exfalso. apply N. apply smem_blanks. auto. Qed.
