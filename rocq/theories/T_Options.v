(** Property C79: options of configurations are read as they were last set. *)
From Coq Require Import ZArith.
From Verif Require Import Base P_Base M_Util M_Model M_Persist M_Config S_Text S_Config S_Options P_Text P_Config P_Options T_Config.

(** The configuration after a history of calls of Set; a call that throws changes nothing
    and does not end the history. *)
Fixpoint sets (d : config) (h : list (string * string)) : config :=
  match h with
  | [] => d
  | (key, v) :: h' => sets (fst (Set_ d key v)) h'
  end.

(** ** C79 *)

(** After any history of settings with proper keys an option has the value it was last
    given, and an option never set the value it had before; each key may be given with or
    without the section "default". *)
Theorem C79_last_set : forall d h key s o,
  (forall k v, In (k, v) h -> exists s' o', names k s' o') -> names key s o ->
  (forall v, last_setting h s o v -> Get (sets d h) key = v) /\
  (never_set h s o -> Get (sets d h) key = Get d key) /\
  ((exists v, last_setting h s o v) \/ never_set h s o).
Proof.
  intros d h key s o P N.
  assert (X : match lookup (sets d h) s o with
              | Some v => last_setting h s o v \/ (never_set h s o /\ lookup d s o = Some v)
              | None => never_set h s o /\ lookup d s o = None end).
  { clear N. revert d P. induction h as [|[k v] h IH]; intros d P; simpl.
    - assert (V : never_set [] s o) by (intros ? ? []). destruct (lookup d s o); auto.
    - destruct (P k v) as [s1 [o1 N1]]; [left; auto|]. rewrite (set_names d k s1 o1 v N1). cbn [fst].
      specialize (IH (AddConfig d s1 o1 v)). assert (P2 : forall k0 v0, In (k0, v0) h -> exists s' o', names k0 s' o') by (intros; apply (P k0 v0); right; auto). specialize (IH P2).
      assert (NE : s1 <> "") by (destruct (names_split _ _ _ N1) as [_ [Q _]]; auto).
      rewrite (lookup_set d s1 o1 v s o NE) in IH.
      assert (L : forall w, last_setting h s o w -> last_setting ((k, v) :: h) s o w).
      { intros w [a [k' [b [-> [A B]]]]]. exists ((k, v) :: a), k', b. auto. }
      destruct (String.eqb_spec s s1) as [ES|NS]; [try subst s1; destruct (String.eqb_spec o o1) as [EO|NO]; [try subst o1|]|]; cbn [andb] in IH.
      + assert (K : never_set h s o -> last_setting ((k, v) :: h) s o v).
        { intros Q. exists [], k, h. split; auto. }
        destruct (lookup (sets (AddConfig d s o v) h) s o) as [w|].
        * destruct IH as [IH|[IH E]]; auto. injection E as <-. auto.
        * destruct IH as [_ E]. discriminate.
      + assert (K : never_set h s o -> never_set ((k, v) :: h) s o).
        { intros Q k' v' [E|I]; [|eapply Q; eauto]. injection E as <- <-. intros C. destruct (names_fun _ _ _ _ _ N1 C). congruence. }
        destruct (lookup (sets (AddConfig d s o1 v) h) s o) as [w|]; [destruct IH as [IH|[IH E]]; auto|destruct IH; auto].
      + assert (K : never_set h s o -> never_set ((k, v) :: h) s o).
        { intros Q k' v' [E|I]; [|eapply Q; eauto]. injection E as <- <-. intros C. destruct (names_fun _ _ _ _ _ N1 C). congruence. }
        destruct (lookup (sets (AddConfig d s1 o1 v) h) s o) as [w|]; [destruct IH as [IH|[IH E]]; auto|destruct IH; auto]. }
  rewrite (get_names (sets d h) key s o N), (get_names d key s o N).
  assert (U : forall v v', last_setting h s o v -> last_setting h s o v' -> v = v').
  { intros v v' [a [k [b [E [A B]]]]] [a' [k' [b' [E' [A' B']]]]]. rewrite E in E'. apply app_eq_app in E'.
    destruct E' as [l [[-> Q]|[-> Q]]]; destruct l as [|x l]; inversion Q; subst; auto.
    - exfalso. eapply B'; [|exact A]. apply in_or_app. right. left. reflexivity.
    - exfalso. eapply B; [|exact A']. apply in_or_app. right. left. reflexivity. }
  assert (V : forall v, last_setting h s o v -> ~ never_set h s o).
  { intros v [a [k [b [-> [A _]]]]] Q. eapply Q; [|exact A]. apply in_or_app. right. left. reflexivity. }
  split; [|split].
  - intros v L. destruct (lookup (sets d h) s o) as [w|]; [destruct X as [X|[X _]]|destruct X as [X _]]; try (exfalso; eapply V; eauto; fail). eauto.
  - intros Q. destruct (lookup (sets d h) s o) as [w|]; [destruct X as [X|[_ ->]]|destruct X as [_ ->]]; auto. exfalso. eapply V; eauto.
  - destruct (lookup (sets d h) s o) as [w|]; [destruct X as [X|[X _]]|destruct X as [X _]]; eauto.
Qed.

(** A proper key is always accepted; the empty one is refused and changes nothing. *)
Theorem C79_accepts : forall d v,
  (forall key s o, names key s o -> snd (Set_ d key v) = Ok tt) /\ Set_ d "" v = (d, Throw IllegalArgument).
Proof. intros d v. split; [|reflexivity]. intros key s o N. rewrite (set_names d key s o v N). reflexivity. Qed.

(** Typed reads, by what GetString reads: a truth value is the text "true" and nothing else,
    a list are the parts between commas, blanks included, and an option without value is the
    empty list. *)
Theorem C79_typed : forall d key,
  (GetBool d key = true <-> Get d key = "true") /\
  (Get d key = "" -> GetStrings d key = []) /\
  (Get d key <> "" -> splits "," (Get d key) (GetStrings d key)).
Proof.
  intros d key. unfold GetBool, GetStrings. split; [apply String.eqb_eq|]. split.
  - intros ->. auto.
  - intros N. destruct (String.eqb_spec (Get d key) ""); [congruence|]. apply Split_spec. discriminate.
Qed.

(** An integer: the one the text begins with, after blanks; 0 if there is none.  A number
    that is not an int is undefined behaviour.  The text ends at the first NUL. *)
Theorem C79_int : forall d key t, Get d key = t \/ (exists u, Get d key = (t ++ String "000" u)%string) -> lacks "000" t ->
  (forall n, begins_with_int t n -> int_range n -> GetInt d key = Ok n) /\
  (forall n, begins_with_int t n -> ~ int_range n -> GetInt d key = UB OutOfRange) /\
  ((forall n, ~ begins_with_int t n) -> GetInt d key = Ok 0%Z).
Proof.
  intros d key t G L. unfold GetInt.
  assert (C : c_str (Get d key) = t).
  { assert (X : forall a, lacks "000" a -> c_str a = a /\ forall u, c_str (a ++ String "000" u) = a).
    { induction a as [|c a IH]; intros LA; simpl; [split; auto|].
      apply smem_lacks in LA. cbn [smem] in LA. apply orb_false_iff in LA. destruct LA as [E LA]. apply smem_lacks in LA.
      replace (Ascii.eqb c "000") with false by (rewrite Ascii.eqb_sym; auto). destruct (IH LA) as [I1 I2]. split; [congruence|]. intros u. rewrite I2. auto. }
    destruct (X t L) as [X1 X2]. destruct G as [->|[u ->]]; auto. }
  rewrite C. clear C G.
  assert (P : forall c d0 r, digit_is c d0 -> ~ blank c /\ String.prefix "-" (String c r) = false /\ String.prefix "+" (String c r) = false).
  { intros c d0 r D. unfold digit_is in D. simpl in D.
    repeat (destruct D as [D|D]; [inversion D; subst; split; [intros B; unfold blank in B; repeat (destruct B as [B|B]; [discriminate|]); discriminate|split; destruct r; reflexivity]|]). destruct D. }
  assert (E : forall n, begins_with_int t n -> atoi t = if (Z.leb (- 2147483648) n && Z.leb n 2147483647)%bool then Ok n else UB OutOfRange).
  { intros n [ws [sign [ds [rest [v [-> [W [N [R S]]]]]]]]]. unfold atoi. rewrite (LTrim_blank ws _ W).
    destruct (numeral_begins _ _ N) as [c [r [d0 [Q D]]]]. pose proof (leading_numeral ds v rest N R) as LN.
    destruct (P c d0 (r ++ rest)%string D) as [NB [P1 P2]].
    destruct S as [[[->| ->] ->]|[-> ->]].
    - cbn [append]. rewrite Q in *. cbn [append] in *. rewrite (LTrim_none _ _ NB). cbv zeta. rewrite P1, P2, LN. reflexivity.
    - replace (LTrim blanks ("+" ++ ds ++ rest)%string) with (String "+" (ds ++ rest)) by reflexivity. cbv zeta.
      replace (String.prefix "-" (String "+" (ds ++ rest))) with false by reflexivity.
      replace (String.prefix "+" (String "+" (ds ++ rest))) with true by (destruct (ds ++ rest)%string; reflexivity).
      replace (sdrop 1 (String "+" (ds ++ rest))) with (ds ++ rest)%string by (destruct (ds ++ rest)%string; reflexivity). rewrite LN. reflexivity.
    - replace (LTrim blanks ("-" ++ ds ++ rest)%string) with (String "-" (ds ++ rest)) by reflexivity. cbv zeta.
      replace (String.prefix "-" (String "-" (ds ++ rest))) with true by (destruct (ds ++ rest)%string; reflexivity).
      replace (sdrop 1 (String "-" (ds ++ rest))) with (ds ++ rest)%string by (destruct (ds ++ rest)%string; reflexivity). rewrite LN. reflexivity. }
  split; [|split].
  - intros n B [R1 R2]. rewrite (E n B). rewrite (proj2 (Z.leb_le _ _) R1), (proj2 (Z.leb_le _ _) R2). reflexivity.
  - intros n B R. rewrite (E n B). destruct (Z.leb_spec (- 2147483648) n); destruct (Z.leb_spec n 2147483647); cbn [andb]; auto. exfalso. apply R. split; auto.
  - intros N. unfold atoi. destruct (LTrim_ends t) as [ws [T [W NB]]]. set (u := LTrim blanks t) in *.
    assert (Z : forall sign x, (sign = "" \/ sign = "+" \/ sign = "-") -> u = (sign ++ x)%string -> leading_number 0 x = 0%Z).
    { intros sign x S U. destruct x as [|c r]; auto. cbn [leading_number]. destruct (digit_val c) as [d0|] eqn:D; auto. exfalso.
      apply digit_test in D. destruct (numeral_at (String c r)) as [ds [rest [n [Q [NU R]]]]]; [eauto 6|].
      assert (B : forall n', ((sign = "" \/ sign = "+") /\ n' = n \/ sign = "-" /\ n' = (- n)%Z) -> False).
      { intros n' H. apply (N n'). exists ws, sign, ds, rest, n. split; [rewrite T, U, Q; auto|]. auto. }
      destruct S as [->|[->| ->]]; eapply B; eauto. }
    cbv zeta. destruct (String.prefix "-" u) eqn:M; [|destruct (String.prefix "+" u) eqn:PL].
    + apply begins_prefix in M. destruct M as [x X]. rewrite X. cbn [sdrop]. rewrite (Z "-" x); auto.
    + apply begins_prefix in PL. destruct PL as [x X]. rewrite X. cbn [sdrop]. rewrite (Z "+" x); auto.
    + rewrite (Z "" u); auto.
Qed.

(** False for other keys: with an empty section what was set is not read back, and of a key
    with more than two parts the third one is ignored, so that it changes another option. *)
Theorem C79_empty_section_refuted : forall d o v, lacks ":" o -> o <> "" -> aget "" d = None ->
  exists d', Set_ d ("::" ++ o)%string v = (d', Ok tt) /\ Get d' ("::" ++ o)%string = "" /\ Get d' o = v.
Proof.
  intros d o v L N A. exists (AddConfig d "" o v). pose proof (colon_split "" o) as S. cbn [append] in S.
  assert (E : lacks ":" "") by (apply smem_lacks; reflexivity). specialize (S E L). cbn [append].
  split; [unfold Set_; cbn [String.length Nat.eqb]; rewrite S; reflexivity|].
  rewrite (Get_lookup _ _ "" o S), (Get_lookup_default _ o (colon_none o L)), !lookup_add. cbn [named]. unfold named. cbn [String.eqb andb].
  split.
  - unfold lookup. rewrite A. reflexivity.
  - rewrite !eqb_refl_s. replace (String.eqb "default" "default") with true by reflexivity. reflexivity.
Qed.
Theorem C79_third_part_refuted : forall d s o x v, s <> "" -> lacks ":" s -> lacks ":" o ->
  exists d', Set_ d (s ++ "::" ++ o ++ "::" ++ x)%string v = (d', Ok tt) /\ Get d' (s ++ "::" ++ o)%string = v.
Proof.
  intros d s o x v NE LS LO. assert (N : names (s ++ "::" ++ o)%string s o) by (right; auto). exists (AddConfig d s o v). split.
  - unfold Set_. replace (Nat.eqb (String.length (s ++ "::" ++ o ++ "::" ++ x)) 0) with false.
    2: { symmetry. apply Nat.eqb_neq. rewrite slen_app. simpl. lia. }
    assert (S : exists l, Split (s ++ "::" ++ o ++ "::" ++ x)%string "::" None = s :: o :: l).
    { exists (Split x "::" None). apply Split_unique; [discriminate|].
      assert (F : forall p q, lacks ":" p -> first_occurrence "::" (p ++ "::" ++ q)%string p q).
      { intros p q L. split; auto. intros a b E. destruct (Nat.le_gt_cases (String.length p) (String.length a)); auto. exfalso.
        destruct (app_cmp a ("::" ++ b) p ("::" ++ q)) as [r [R1 R2]]; auto; [lia|].
        destruct r as [|c r]; [rewrite app_nil_r_s in R1; subst; lia|]. simpl in R2. injection R2 as <- _. apply L. exists a, r. subst. auto. }
      apply splits_more with (o ++ "::" ++ x)%string; auto. apply splits_more with x; auto. apply Split_spec. discriminate. }
    destruct S as [l S]. rewrite S. reflexivity.
  - rewrite (get_names _ _ s o N), (lookup_set _ _ _ _ _ _ NE), !eqb_refl_s. reflexivity.
Qed.

(** ** The hypotheses are met *)
Example C79_keys : names "debug" "default" "debug" /\ names "default::debug" "default" "debug" /\ names "server::port" "server" "port".
Proof.
  split; [left; split; auto; split; auto; split; [discriminate|apply smem_lacks; reflexivity]|].
  split; right; (split; [reflexivity|]); (split; [discriminate|]); split; apply smem_lacks; reflexivity.
Qed.
Example C79_applies : exists d, sets [] [("server::port", "80"); ("debug", "true"); ("", "x"); ("server::port", " -8080x")] = d /\
  Get d "server::port" = " -8080x" /\ GetInt d "server::port" = Ok (-8080)%Z /\ begins_with_int " -8080x" (-8080) /\
  GetBool d "default::debug" = true /\ GetInt d "debug" = Ok 0%Z /\ GetStrings d "none" = [].
Proof.
  eexists. split; [reflexivity|]. split; [reflexivity|]. split; [reflexivity|]. split; [|repeat split; reflexivity].
  exists " ", "-", "8080", "x", 8080%Z. split; [reflexivity|]. split; [simpl; split; auto; unfold blank; tauto|].
  assert (D8 : digit_is "8" 8) by (unfold digit_is; simpl; tauto). assert (D0 : digit_is "0" 0) by (unfold digit_is; simpl; tauto).
  split.
  - change "8080" with ((("8" ++ "0") ++ "8") ++ "0")%string.
    change 8080%Z with (10 * (10 * (10 * 8 + 0) + 8) + 0)%Z. repeat (first [apply numeral_more|apply numeral_one]; auto).
  - split; [|right; auto]. intros c r d0 E D. inversion E; subst. apply digit_test in D. discriminate.
Qed.
Example C79_out_of_range : GetInt (sets [] [("n", "2147483648")]) "n" = UB OutOfRange /\ GetInt (sets [] [("n", "2147483647")]) "n" = Ok 2147483647%Z.
Proof. split; reflexivity. Qed.

(** ** Several configurations at a time *)
(** The settings made on the [i]-th object. *)
Definition settings_of (i : nat) (h : list (cop * res string)) : list (string * string) :=
  List.concat (map (fun x => match fst x with SetOption j k v => if Nat.eqb j i then [(k, v)] else [] | _ => [] end) h).
Lemma nth_uplist : forall A (l : list A) i x j, nth_error (uplist i x l) j = if Nat.eqb j i then match nth_error l j with Some _ => Some x | None => None end else nth_error l j.
Proof.
  induction l as [|y l IH]; intros i x j.
  - destruct i, j; cbn; auto. destruct (Nat.eqb j i); auto.
  - destruct i as [|i]; destruct j as [|j]; cbn [uplist nth_error Nat.eqb]; auto.
Qed.
(** Through every history in which nothing undefined happens, objects made and set in any order,
    an object has the options it had and what was set on it. *)
Theorem C79_objects : forall w h w' i d, conf_runs w h w' -> (forall op u, ~ In (op, UB u) h) ->
  nth_error (w_objects w) i = Some d ->
  nth_error (w_objects w') i = Some (sets d (settings_of i h)) /\
  (forall key, cstep w' (GetOption i key) = (w', Ok (Get (sets d (settings_of i h)) key))).
Proof.
  assert (STEP : forall w op w' out i d, cstep w op = (w', out) -> (forall u, out <> UB u) -> nth_error (w_objects w) i = Some d ->
    nth_error (w_objects w') i = Some (sets d (settings_of i [(op, out)]))).
  { intros w op w' out i d C NU N. unfold settings_of. destruct op as [path|text|j key v|j key]; cbn [map List.concat fst sets app]; cbn [cstep] in C.
    - destruct (w_locked w); [inversion C; subst; destruct (NU _ eq_refl)|].
      destruct (ParseBuffer (content_of (w_fs w) path) []) as [d' [?|?|?]]; inversion C; subst; cbn [w_objects]; auto.
      rewrite nth_error_app1; auto. apply nth_error_Some. congruence.
    - destruct (ParseBuffer text []) as [d' [?|?|?]]; inversion C; subst; cbn [w_objects]; auto.
      rewrite nth_error_app1; auto. apply nth_error_Some. congruence.
    - destruct (w_locked w); [inversion C; subst; destruct (NU _ eq_refl)|].
      destruct (nth_error (w_objects w) j) as [dj|] eqn:J; [|inversion C; subst; destruct (NU _ eq_refl)].
      destruct (Set_ dj key v) as [d' o] eqn:S. inversion C; subst. cbn [w_objects]. rewrite nth_uplist, Nat.eqb_sym.
      destruct (Nat.eqb_spec j i) as [->|NE]; [|exact N]. rewrite J in N. inversion N; subst. rewrite J. cbn [app sets]. rewrite S. reflexivity.
    - destruct (nth_error (w_objects w) j); inversion C; subst; auto. }
  intros w h w' i d R. revert d. assert (X : (forall op u, ~ In (op, UB u) h) -> forall d, nth_error (w_objects w) i = Some d -> nth_error (w_objects w') i = Some (sets d (settings_of i h))).
  { induction R as [w|w w1 w2 op out h C R IH]; intros NU d N; [exact N|].
    assert (N1 := STEP w op w1 out i d C (fun u E => NU op u (or_introl (f_equal (pair op) E))) N).
    assert (NU' : forall op u, ~ In (op, UB u) h) by (intros op0 u I; apply (NU op0 u); right; auto).
    rewrite (IH NU' _ N1). unfold settings_of. cbn [map List.concat fst]. rewrite app_nil_r.
    assert (SA : forall a b d, sets (sets d a) b = sets d (a ++ b)) by (induction a as [|[k v] a IHa]; intros; cbn [sets app]; auto).
    rewrite SA. reflexivity. }
  intros d NU N. split; auto. intros key. cbn [cstep]. rewrite (X NU d N). reflexivity.
Qed.
Example C79_objects_case : exists w h w' d0 d1, conf_runs w h w' /\ (forall op u, ~ In (op, UB u) h) /\
  nth_error (w_objects w) 0 = Some d0 /\ nth_error (w_objects w) 1 = Some d1 /\ settings_of 1 h = [("a", "2"); ("a", "3")] /\ settings_of 0 h = [("a", "1")] /\
  snd (cstep w' (GetOption 1 "a")) = Ok "3" /\ snd (cstep w' (GetOption 0 "a")) = Ok "1".
Proof.
  exists (mkW false (mkFs [] (fun _ => true)) [[]; []]).
  exists [(SetOption 1 "a" "2", Ok ""); (NewConfigText "b = 7", Ok ""); (SetOption 0 "a" "1", Ok ""); (SetOption 1 "a" "3", Ok "")].
  eexists. exists [], []. split; [repeat (eapply conf_more; [vm_compute; reflexivity|]); apply conf_none|].
  split; [intros op u I; cbn in I; repeat (destruct I as [I|I]; [discriminate I|]); destruct I|]. repeat split; vm_compute; reflexivity.
Qed.
Print Assumptions C79_objects.
Print Assumptions C79_last_set.
Print Assumptions C79_accepts.
Print Assumptions C79_typed.
Print Assumptions C79_int.
Print Assumptions C79_empty_section_refuted.
Print Assumptions C79_third_part_refuted.
