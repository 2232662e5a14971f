(** Properties C60, C61 and C63: texts, eval(...) and escaping. *)
From Coq Require Import Permutation.
From Verif Require Import Base P_Base M_Util M_RoleManager M_Effector M_Model M_Persist M_Eval M_Evaluator M_Enforcer M_Matcher
  S_Effect S_Enforce S_Text S_Eval P_Store P_Enforce P_Decide P_Text P_Eval E_Examples.

(** * C60 *)
(** Split cuts at the leftmost separators, Join undoes it. *)
Theorem C60_split : forall del s, del <> "" -> splits del s (Split s del None).
Proof. exact Split_spec. Qed.
Theorem C60_join_split : forall del s, del <> "" -> Join (Split s del None) del = Ok s.
Proof.
  intros del s N. destruct (splits_glue _ _ _ (Split_spec del s N)) as [G NE]. rewrite Join_ok; auto. congruence.
Qed.
(** Parts in which no separator begins are recovered; for a one-character separator these
    are the parts that lack it. *)
Theorem C60_split_join : forall del parts, del <> "" -> parts <> [] -> (forall x, In x parts -> apart_from del x) ->
  exists s, Join parts del = Ok s /\ Split s del None = parts.
Proof.
  intros del parts N NE A. exists (glue del parts). split; [apply Join_ok; auto|]. apply Split_unique; auto. apply splits_glued; auto.
Qed.
Theorem C60_split_join_char : forall c parts, parts <> [] -> (forall x, In x parts -> lacks c x) ->
  exists s, Join parts (String c "") = Ok s /\ Split s (String c "") None = parts.
Proof. intros c parts NE L. apply C60_split_join; auto; [discriminate|]. intros x I. apply lacks_apart. auto. Qed.
(** For longer separators it is not enough that the parts do not contain it. *)
Theorem C60_split_join_refuted : exists del parts s, del <> "" /\ (forall x, In x parts -> ~ occurs del x) /\
  Join parts del = Ok s /\ Split s del None <> parts.
Proof.
  exists "&&", ["a&"; "b"], "a&&&b". split; [discriminate|]. split; [|split; [reflexivity|vm_compute; discriminate]].
  intros x [<-|[<-|[]]]; (apply sfind_none; [discriminate|reflexivity]).
Qed.
(** Join of no parts reads out of bounds. *)
Theorem C60_join_nothing_refuted : Join [] "," = UB OutOfBounds.
Proof. reflexivity. Qed.

Theorem C60_trim : forall s, trimmed blank s (Trim s).
Proof. exact Trim_spec. Qed.
Theorem C60_trim_determined : forall s t, trimmed blank s t -> t = Trim s.
Proof. intros. symmetry. apply Trim_unique. auto. Qed.
Theorem C60_trim_idempotent : forall s, Trim (Trim s) = Trim s.
Proof. exact Trim_idem. Qed.

Theorem C60_remove_comments : forall s,
  (lacks "#" s -> RemoveComments s = s) /\
  (forall a b, s = (a ++ "#" ++ b)%string -> lacks "#" a -> trimmed blank a (RemoveComments s)).
Proof.
  intros s. unfold RemoveComments. split.
  - intros L. apply (sfind_none "#") in L; [|discriminate]. rewrite L. auto.
  - intros a b -> L. destruct (sfind "#" (a ++ "#" ++ b)) as [k|] eqn:F.
    + apply sfind_some in F. destruct F as [_ F].
      assert (FO : first_occurrence "#" (a ++ "#" ++ b) a b).
      { split; auto. intros a' b' H. destruct (le_lt_dec (String.length a) (String.length a')); auto. exfalso. symmetry in H.
        assert (H2 : ((a' ++ "#") ++ b')%string = (a ++ "#" ++ b)%string) by (rewrite app_assoc_s; exact H).
        apply app_cmp in H2; [|rewrite length_app_s; simpl; lia]. destruct H2 as [m [-> _]]. apply L. exists a', m. rewrite app_assoc_s. auto. }
      destruct (first_occurrence_unique "#" _ _ _ _ _ ltac:(discriminate) F FO) as [-> _]. apply Trim_spec.
    + apply sfind_none in F; [|discriminate]. exfalso. apply F. exists a, b. auto.
Qed.
Theorem C60_set_subtract : forall a b x, In x (SetSubtract a b) <-> In x a /\ ~ In x b.
Proof. exact SetSubtract_in. Qed.
Theorem C60_remove_duplicates : forall l, NoDup (ArrayRemoveDuplicates l) /\ forall x, In x (ArrayRemoveDuplicates l) <-> In x l.
Proof. intros l. split; [apply dedup_nodup|]. intros x. unfold ArrayRemoveDuplicates. rewrite dedup_in. simpl. tauto. Qed.
Theorem C60_array_to_string : forall l, l <> [] -> ArrayToString l = Ok (glue ", " l).
Proof. exact ArrayToString_spec. Qed.
(** The suffix test raises an exception when the suffix is the longer one. *)
Theorem C60_ends_with_partial : forall base suffix, String.length suffix <= String.length base ->
  exists b, EndsWith base suffix = Ok b /\ (b = true <-> exists p, base = (p ++ suffix)%string).
Proof.
  intros base suffix L. unfold EndsWith. destruct (Nat.ltb_spec (String.length base) (String.length suffix)); [lia|].
  eexists. split; [reflexivity|]. rewrite String.eqb_eq.
  assert (LD : forall n s, n <= String.length s -> String.length (sdrop n s) = String.length s - n).
  { induction n; destruct s; simpl; intros; auto; try lia. apply IHn. lia. }
  assert (ST : forall s, stake (String.length s) s = s) by (induction s; simpl; congruence).
  assert (Q : stake (String.length suffix) (sdrop (String.length base - String.length suffix) base) = sdrop (String.length base - String.length suffix) base).
  { replace (String.length suffix) with (String.length (sdrop (String.length base - String.length suffix) base)) at 1; [apply ST|]. rewrite LD; lia. }
  rewrite Q. split.
  - intros EQ. exists (stake (String.length base - String.length suffix) base). symmetry.
    rewrite <- (stake_sdrop (String.length base - String.length suffix) base) at 3. rewrite EQ. auto.
  - intros [p ->]. rewrite length_app_s. replace (String.length p + String.length suffix - String.length suffix) with (String.length p) by lia. apply sdrop_app.
Qed.
Theorem C60_ends_with_refuted : EndsWith "a" "ba" = Throw StdOutOfRange.
Proof. reflexivity. Qed.
Example C60_case : Split "p, alice, data1" "," None = ["p"; " alice"; " data1"] /\ Join ["a"; "b"] "::" = Ok "a::b" /\
  Trim (String tab "  x y  ") = "x y" /\ RemoveComments "a = b # c" = "a = b" /\ SetSubtract ["a"; "b"; "c"] ["b"] = ["a"; "c"] /\
  apart_from "::" "alice" /\ lacks "," "alice".
Proof.
  repeat (split; [reflexivity|]). split.
  - intros a b H. assert (L := f_equal String.length H). rewrite !length_app_s in L. cbn [String.length] in L.
    destruct a as [|c1 [|c2 [|c3 [|c4 [|c5 [|c6 a]]]]]]; cbn in H; try discriminate; [inversion H; auto|]. cbn [String.length] in L. destruct a; [discriminate|cbn [String.length] in L; lia].
  - apply smem_lacks. reflexivity.
Qed.
Print Assumptions C60_split.
Print Assumptions C60_join_split.
Print Assumptions C60_split_join.
Print Assumptions C60_trim.
Print Assumptions C60_remove_comments.
Print Assumptions C60_ends_with_partial.

(** * C61 *)
(** Replacing eval(key): exactly the calls are replaced, by the values as they are. *)
Theorem C61_replace : forall src sets, replaced (fun k => aget k sets) false src (ReplaceEvalWithMap src sets).
Proof. intros. apply replace_loop_spec. auto. Qed.
Theorem C61_replace_determined : forall src sets out, replaced (fun k => aget k sets) false src out -> out = ReplaceEvalWithMap src sets.
Proof. intros. eapply replaced_unique; eauto. apply C61_replace. Qed.
Theorem C61_keys : forall s, eval_keys false s (GetEvalValue s) /\ (HasEval s = true <-> GetEvalValue s <> []).
Proof.
  intros s. assert (K : eval_keys false s (GetEvalValue s)) by (apply values_loop_spec; auto). split; auto.
  rewrite HasEval_keys. split.
  - intros [k [l H]]. rewrite (keys_unique _ _ _ K _ H). discriminate.
  - intros N. destruct (GetEvalValue s) as [|k l]; [congruence|]. eauto.
Qed.

(** The value of p.f in a rule. *)
Definition rule_value (pf vals : list string) (key : string) : option string :=
  match key with
  | String "p" (String "." f) => aget f (combine pf vals)
  | _ => None
  end.
(** Every key is p.f for a policy field f (without a dot). *)
Definition keys_declared (expr : string) (pf : list string) : Prop :=
  forall l, eval_keys false expr l -> forall k, In k l -> exists f, In f pf /\ k = ("p." ++ f)%string /\ lacks "." f.

Lemma combine_some : forall pf (vals : list string) f, List.length vals = List.length pf -> In f pf -> exists v, aget f (combine pf vals) = Some v.
Proof.
  induction pf as [|g pf IH]; intros [|v vals] f L I; simpl in *; try tauto; try discriminate.
  destruct (String.eqb f g) eqn:E; eauto. destruct I as [->|I]; [rewrite eqb_refl_s in E; discriminate|]. eauto.
Qed.
(** The text evaluated for a rule is the matcher with every eval(p.f) replaced by the
    field f of the rule; nothing else changes. *)
Theorem C61_rule_text_partial : forall expr pf vals, NoDup pf -> List.length vals = List.length pf -> keys_declared expr pf ->
  exists text, matcher_text expr pf vals = Ok text /\ replaced (rule_value pf vals) false expr text.
Proof.
  intros expr pf vals ND L KD. unfold matcher_text, rule_expression. destruct (C61_keys expr) as [K HE].
  destruct (HasEval expr) eqn:H.
  - assert (R : forall ks, (forall k, In k ks -> exists f, In f pf /\ k = ("p." ++ f)%string /\ lacks "." f) ->
      exists repl, eval_replacements (map (fun f => ("p_" ++ f)%string) pf) vals ks = Ok repl /\
        forall k, In k ks -> aget k repl = rule_value pf vals k).
    { induction ks as [|k ks IH]; intros A. { exists []. split; auto. simpl. tauto. }
      destruct (A k (or_introl eq_refl)) as [f [I [-> LF]]]. destruct IH as [repl [E G]]. { intros. apply A. right. auto. }
      cbn [eval_replacements]. assert (ES : EscapeAssertion ("p." ++ f) = ("p_" ++ f)%string).
      { unfold EscapeAssertion. cbn. rewrite escape_lacks; auto. }
      rewrite ES. unfold token_index. pose proof (token_index_nodup pf 0 f ND vals L) as T.
      destruct (combine_some pf vals f L I) as [v V].
      destruct (token_index_from 0 ("p_" ++ f) (map (fun f => ("p_" ++ f)%string) pf) None) as [j|]; [|congruence].
      destruct T as [k [-> [N LT]]]. cbn [plus]. rewrite V in N. unfold vget. rewrite N. cbn [bind]. rewrite E. cbn [bind].
      eexists. split; [reflexivity|]. intros k' [<-|I'].
      - cbn [aget]. rewrite eqb_refl_s. simpl. auto.
      - cbn [aget]. destruct (String.eqb_spec k' ("p." ++ f)) as [->|]; [simpl; auto|]. apply G. auto. }
    destruct (R (GetEvalValue expr)) as [repl [E G]]. { intros. eapply KD; eauto. }
    rewrite E. cbn [bind]. eexists. split; [reflexivity|]. eapply replaced_ext; [apply C61_replace|exact K|exact G].
  - exists expr. split; auto. assert (GetEvalValue expr = []) as Z. { destruct (GetEvalValue expr); auto. exfalso. assert (false = true); [apply HE; discriminate|discriminate]. }
    rewrite Z in K. clear -K. remember ([] : list string) as l. remember false as w. clear Heqw.
    induction K; [apply rep_end|discriminate|apply rep_char; auto].
Qed.
(** A key that is not a policy field raises an exception. *)
Theorem C61_unknown_field : forall expr pf vals l k, List.length vals = List.length pf ->
  eval_keys false expr l -> In k l -> (forall f, In f pf -> EscapeAssertion k <> ("p_" ++ f)%string) ->
  matcher_text expr pf vals = Throw CasbinEnforcer.
Proof.
  intros expr pf vals l k L K I NF. unfold matcher_text, rule_expression. destruct (C61_keys expr) as [K' HE].
  rewrite <- (keys_unique _ _ _ K' _ K) in I. assert (HasEval expr = true) as -> by (apply HE; intros Z; rewrite Z in I; auto).
  enough (eval_replacements (map (fun f => ("p_" ++ f)%string) pf) vals (GetEvalValue expr) = Throw CasbinEnforcer) as -> by auto.
  assert (TB : forall toks i t acc, match acc with Some j => j < i | None => True end ->
    match token_index_from i t toks acc with Some j => j < i + List.length toks | None => True end).
  { induction toks as [|x toks IH]; intros i t acc A; cbn [token_index_from List.length].
    - destruct acc; auto. lia.
    - replace (i + S (List.length toks)) with (S i + List.length toks) by lia. apply IH. destruct (String.eqb x t); [lia|]. destruct acc; auto. }
  assert (TN : forall toks i t acc, ~ In t toks -> token_index_from i t toks acc = acc).
  { induction toks as [|x toks IH]; intros i t acc A; cbn [token_index_from]; auto. simpl in A.
    destruct (String.eqb_spec x t); [tauto|]. apply IH. tauto. }
  clear K K' HE. induction (GetEvalValue expr) as [|k' ks IH]; [destruct I|]. cbn [eval_replacements]. unfold token_index.
  destruct I as [->|I].
  - rewrite TN; auto. rewrite in_map_iff. intros [f [E J]]. apply (NF f); auto.
  - specialize (TB (map (fun f => ("p_" ++ f)%string) pf) 0 (EscapeAssertion k') None Logic.I).
    destruct (token_index_from 0 (EscapeAssertion k') (map (fun f => ("p_" ++ f)%string) pf) None) as [j|]; auto.
    rewrite map_length in TB. unfold vget. destruct (nth_error vals j) eqn:N; [|apply nth_error_None in N; lia]. cbn [bind]. rewrite IH; auto.
Qed.
(** The value is inserted without parentheses, so it can combine with its surroundings:
    the object is not compared although the matcher says so. *)
Definition eval_model (rules : list rule) : model :=
  [("r", [("r", ast "r" "sub, obj, act" r3 (Vec []))]);
   ("p", [("p", ast "p" "rule, obj, act" ["p_rule"; "p_obj"; "p_act"] (Vec rules))]);
   ("e", [("e", ast "e" (effect_text AllowOverride) [] (Vec []))]);
   ("m", [("m", ast "m" "eval(p.rule) && r.obj == p.obj && r.act == p.act" [] (Vec []))])].
Theorem C61_parenthesised_refuted : exists rule_text text,
  matcher_text "eval(p.rule) && r.obj == p.obj" ["rule"; "obj"] [rule_text; "data1"] = Ok text /\
  text = (rule_text ++ " && r.obj == p.obj")%string /\ text <> ("(" ++ rule_text ++ ") && r.obj == p.obj")%string.
Proof. exists "r.sub == 'alice' || r.sub == 'bob'". eexists. split; [reflexivity|]. split; [reflexivity|]. vm_compute. discriminate. Qed.
Theorem C61_escapes_refuted : exists e,
  e = boot (eval_model [["r.sub == 'alice' || r.sub == 'bob'"; "data1"; "read"]]) /\
  snd (Enforce mini (reqs ["alice"; "secret"; "write"]) e) = Ok true /\
  snd (Enforce mini (reqs ["bob"; "secret"; "write"]) e) = Ok false.
Proof. eexists. split; [reflexivity|]. split; vm_compute; reflexivity. Qed.
Example C61_case : keys_declared "eval(p.rule) && r.obj == p.obj" ["rule"; "obj"] /\
  matcher_text "eval(p.rule) && r.obj == p.obj" ["rule"; "obj"] ["r.age > 18"; "data1"] = Ok "r.age > 18 && r.obj == p.obj".
Proof.
  split; [|reflexivity]. intros l K k I. rewrite (keys_unique _ _ _ K _ (proj1 (C61_keys _))) in I. vm_compute in I. destruct I as [<-|[]].
  exists "rule". split; [simpl; auto|]. split; [reflexivity|]. apply smem_lacks. reflexivity.
Qed.
Print Assumptions C61_replace.
Example C61_unknown_case : eval_keys false "eval(p.rule)" ["p.rule"] /\ forall f, In f ["sub"; "obj"] -> EscapeAssertion "p.rule" <> ("p_" ++ f)%string.
Proof. split; [exact (proj1 (C61_keys "eval(p.rule)"))|]. intros f [<-|[<-|[]]]; discriminate. Qed.
Print Assumptions C61_rule_text_partial.
Print Assumptions C61_unknown_field.
Print Assumptions C61_parenthesised_refuted.
Print Assumptions C61_escapes_refuted.

(** * C63 *)
(** What EscapeAssertion does: the first dot of every run of letters, digits, dots and
    blanks becomes an underscore, every other character stays. *)
Theorem C63_escape_partial : forall s, String.length (EscapeAssertion s) = String.length s /\
  forall i c, sget i s = Some c ->
  (c = "."%char -> in_fresh_run (stake i s) -> sget i (EscapeAssertion s) = Some "_"%char) /\
  (~ (c = "."%char /\ in_fresh_run (stake i s)) -> sget i (EscapeAssertion s) = Some c).
Proof. intros s. split; [apply escape_len|]. apply escape_at. Qed.
(** A variable access by itself is escaped as wanted. *)
Theorem C63_variable_partial : forall x f, every run_char x -> lacks "." x -> lacks "." f ->
  EscapeAssertion (x ++ "." ++ f) = (x ++ "_" ++ f)%string.
Proof.
  intros x f R Lx Lf. unfold EscapeAssertion. rewrite escape_app, (escape_lacks x) by auto. f_equal.
  assert (S : seen_after false x = false). { apply seen_spec. exists "", x. simpl. auto. }
  rewrite S. cbn. rewrite escape_lacks; auto.
Qed.
(** Two accesses separated by blanks and letters only: the second keeps its dot; a number
    loses its point; so does a word in a string literal. *)
Theorem C63_escape_refuted :
  EscapeAssertion "r.sub in p.sub" = "r_sub in p.sub" /\
  EscapeAssertion "r.age > 18.5" = "r_age > 18_5" /\
  EscapeAssertion "r.sub.name" = "r_sub.name" /\
  EscapeAssertion "r.sub == 'x.y'" = "r_sub == 'x_y'".
Proof. repeat split; reflexivity. Qed.
Example C63_case : EscapeAssertion "g(r.sub, p.sub) && r.obj == p.obj" = "g(r_sub, p_sub) && r_obj == p_obj" /\
  in_fresh_run (stake 3 "g(r.sub, p.sub)") /\ EscapeAssertion "p.sub_rule" = "p_sub_rule".
Proof. split; [reflexivity|]. split; [|reflexivity]. exists "g(", "r". split; [reflexivity|]. split; [simpl; split; [left; reflexivity|auto]|]. right. exists "g", "("%char. split; [reflexivity|]. split; [intros [H|H]; discriminate|discriminate]. Qed.
Print Assumptions C63_escape_partial.
Print Assumptions C63_variable_partial.
Print Assumptions C63_escape_refuted.

(** The classes of characters these texts are made of, written out. *)
Definition small_letters := "abcdefghijklmnopqrstuvwxyz"%string.
Definition capital_letters := "ABCDEFGHIJKLMNOPQRSTUVWXYZ"%string.
Definition decimal_digits := "0123456789"%string.
Definition among (c : ascii) (s : string) : Prop := In c (list_ascii_of_string s).
Lemma classes : forall c,
  (is_alnum c = true <-> among c (small_letters ++ capital_letters ++ decimal_digits)) /\
  (is_word c = true <-> among c (small_letters ++ capital_letters ++ decimal_digits ++ "_")).
Proof.
  assert (D : forall (f : ascii -> bool) s, (forall c, f c = existsb (Ascii.eqb c) (list_ascii_of_string s)) ->
    forall c, f c = true <-> among c s).
  { intros f s E c. rewrite E, existsb_exists. unfold among. split.
    - intros [x [I Q]]. apply Ascii.eqb_eq in Q. subst x. exact I.
    - intros I. exists c. split; [exact I|]. apply Ascii.eqb_refl. }
  intros c. split; revert c; apply D; intros [[] [] [] [] [] [] [] []]; vm_compute; reflexivity.
Qed.
Theorem C61_word_characters : forall c, is_word c = true <-> among c (small_letters ++ capital_letters ++ decimal_digits ++ "_").
Proof. intros c. apply classes. Qed.
Theorem C63_run_characters : forall c, run_char c <-> among c (small_letters ++ capital_letters ++ decimal_digits ++ " ").
Proof.
  intros c. unfold run_char. rewrite (proj1 (classes c)). unfold among, small_letters, capital_letters, decimal_digits. simpl. split; intros H; intuition.
Qed.
Print Assumptions C61_word_characters.
Print Assumptions C63_run_characters.
