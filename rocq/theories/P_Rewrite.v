(** The replacements of Eval and the lexer on well written matchers. *)
From Verif Require Import Base P_Base M_Util M_Model M_Eval M_Evaluator M_Enforcer M_Rewrite S_Enforce S_Rewrite P_Enforce.

Lemma letter_same : forall c, letter c = x_letter c.
Proof. intros [[] [] [] [] [] [] [] []]; vm_compute; reflexivity. Qed.
Lemma word_same : forall c, word_char c = x_word c.
Proof. intros [[] [] [] [] [] [] [] []]; vm_compute; reflexivity. Qed.
Lemma text_same : forall c, text_char c = x_string_char c.
Proof. intros [[] [] [] [] [] [] [] []]; vm_compute; reflexivity. Qed.
Lemma app_cons : forall c a b, (String c a ++ b)%string = String c (a ++ b)%string.
Proof. reflexivity. Qed.
Lemma app_nil_s : forall a, (a ++ "")%string = a.
Proof. induction a; simpl; congruence. Qed.
Lemma app_assoc_s : forall a b c, ((a ++ b) ++ c)%string = (a ++ b ++ c)%string.
Proof. induction a; intros; simpl; congruence. Qed.
Lemma len_app : forall a b, String.length (a ++ b)%string = String.length a + String.length b.
Proof. induction a; intros; simpl; auto. Qed.

Lemma twice_cons : forall c a s, twice_in c s -> twice_in c (String a s).
Proof. intros c a s [x [y ->]]. exists (String a x), y. reflexivity. Qed.
Lemma occurs_cons : forall c a s, occurs c s -> occurs c (String a s).
Proof. intros c a s [x [y ->]]. exists (String a x), y. reflexivity. Qed.
Lemma occurs_here : forall c s, occurs c (String c s).
Proof. intros c s. exists ""%string, s. reflexivity. Qed.

(** A text without the pair, not ended by its character, is left alone. *)
Lemma put2_skip : forall c w a b, ~ twice_in c a -> (forall x, a <> (x ++ String c "")%string) ->
  put2 c w (a ++ b) = (a ++ put2 c w b)%string.
Proof.
  intros c w a. induction a as [|a0 a IH]; intros b N L; [reflexivity|].
  assert (IH' : put2 c w (a ++ b) = (a ++ put2 c w b)%string).
  { apply IH.
    - intros T. apply N, twice_cons, T.
    - intros x E. apply (L (String a0 x)). rewrite app_cons, E. reflexivity. }
  rewrite !app_cons, <- IH'. cbn [put2]. destruct a as [|a1 a].
  - cbn [append] in *. destruct b as [|b0 b]; [reflexivity|].
    destruct (Ascii.eqb_spec a0 c); [|reflexivity]. subst. exfalso. apply (L ""%string). reflexivity.
  - rewrite app_cons. destruct (Ascii.eqb_spec a0 c); [|reflexivity]. destruct (Ascii.eqb_spec a1 c); [|reflexivity].
    subst. exfalso. apply N. exists ""%string, a. reflexivity.
Qed.
Lemma put2_pair : forall c w b, put2 c w (String c (String c b)) = (w ++ put2 c w b)%string.
Proof. intros. cbn [put2]. rewrite Ascii.eqb_refl. reflexivity. Qed.
Lemma quotes_app : forall a b, single_quotes (a ++ b) = (single_quotes a ++ single_quotes b)%string.
Proof. induction a; intros; [reflexivity|]. rewrite !app_cons. cbn [single_quotes]. rewrite IHa. reflexivity. Qed.
Lemma quotes_plain : forall a, ~ occurs """" a -> single_quotes a = a.
Proof.
  induction a; intros N; [reflexivity|]. cbn [single_quotes]. destruct (Ascii.eqb_spec a """").
  - subst. exfalso. apply N, occurs_here.
  - rewrite IHa; auto. intros O. apply N, occurs_cons, O.
Qed.

Lemma name_char : forall x c, is_name x -> occurs c x -> word_char c = true \/ c = "."%char.
Proof.
  intros x c [l [r [-> [L R]]]] [a [b E]].
  assert (K : forall r a b, name_rest r -> r = (a ++ String c b)%string -> word_char c = true \/ c = "."%char).
  { clear. induction r; intros x y R E.
    - destruct x; discriminate.
    - destruct R as [H R]. destruct x as [|x0 x]; rewrite ?app_cons in E; cbn [append] in E; inversion E; subst.
      + destruct H as [H|[H _]]; auto.
      + eapply IHr; eauto. }
  destruct a as [|a0 a]; cbn [append] in E; inversion E; subst.
  - left. unfold word_char. rewrite L. reflexivity.
  - eapply K; eauto.
Qed.
Lemma twice_occurs : forall c s, twice_in c s -> occurs c s.
Proof. intros c s [a [b ->]]. exists a, (String c b). reflexivity. Qed.

(** A text around which quotes stand, seen as a whole. *)
Lemma quoted_safe : forall q c s, q <> c -> ~ twice_in c s ->
  ~ twice_in c (String q (s ++ String q ""))%string /\ forall x, (String q (s ++ String q ""))%string <> (x ++ String c "")%string.
Proof.
  intros q c s Q N. split.
  - intros [a [b E]]. destruct a as [|a0 a]; cbn [append] in E; inversion E; subst; [congruence|].
    clear E. match goal with H : (s ++ _)%string = _ |- _ => rename H into E end.
    revert s N E. induction a as [|a1 a IH]; intros s N E; destruct s as [|s0 s]; cbn [append] in E; inversion E; subst.
    + destruct s as [|s1 s]; cbn [append] in *; inversion H1; subst; [congruence|]. apply N. exists ""%string, s. reflexivity.
    + destruct a; discriminate.
    + apply (IH s); auto. intros T. apply N, twice_cons, T.
  - intros x E. assert (K : forall u v p q', (u ++ String p "")%string = (v ++ String q' "")%string -> p = q').
    { induction u; destruct v; intros p q' H; cbn [append] in H; inversion H; subst; auto.
      - destruct v; discriminate.
      - destruct u; discriminate.
      - eapply IHu; eauto. }
    apply (K (String q s) x q c) in E. congruence.
Qed.

(** ** The replaced text *)
Definition prepared1 (p : piece) : string :=
  match p with
  | PText _ s => ("'" ++ s ++ "'")%string
  | PAnd => "and" | POr => "or"
  | other => written1 other
  end.
Fixpoint prepared (ps : list piece) : string :=
  match ps with [] => EmptyString | p :: r => (prepared1 p ++ prepared r)%string end.
Definition half1 (p : piece) : string := match p with PAnd => "and" | other => written1 other end.
Fixpoint half (ps : list piece) : string :=
  match ps with [] => EmptyString | p :: r => (half1 p ++ half r)%string end.
Definition words1 (p : piece) : string := match p with PAnd => "and" | POr => "or" | other => written1 other end.
Fixpoint words (ps : list piece) : string :=
  match ps with [] => EmptyString | p :: r => (words1 p ++ words r)%string end.

Lemma short_safe : forall c s, ~ occurs c s -> ~ twice_in c s /\ forall x, s <> (x ++ String c "")%string.
Proof.
  intros c s N. split.
  - intros T. apply N, twice_occurs, T.
  - intros x ->. apply N. exists x, ""%string. reflexivity.
Qed.
Ltac no_occurs := let a := fresh in let b := fresh in let E := fresh in
  intros [a [b E]]; repeat (destruct a as [|? a]; cbn [append] in E; [inversion E|inversion E; clear E; match goal with H : _ = (_ ++ _)%string |- _ => rename H into E end]);
  try discriminate.
Lemma name_safe : forall c x, is_name x -> word_char c = false -> c <> "."%char -> ~ occurs c x.
Proof. intros c x N W D O. destruct (name_char x c N O) as [K|K]; congruence. Qed.
Lemma piece_safe : forall c p, (c = "&"%char \/ c = "|"%char) -> piece_ok p -> (c = "&"%char -> p <> PAnd) -> (c = "|"%char -> p <> POr) ->
  ~ twice_in c (written1 p) /\ forall x, written1 p <> (x ++ String c "")%string.
Proof.
  intros c p C OK NA NO. destruct p; cbn [written1].
  - apply short_safe. apply name_safe; auto; destruct C as [-> | ->]; try reflexivity; discriminate.
  - cbn [piece_ok] in OK. destruct OK as [_ [T1 T2]].
    destruct double; (apply (quoted_safe _ c s); [destruct C as [-> | ->]; discriminate|destruct C as [-> | ->]; auto]).
  - destruct C as [-> | ->]; [exfalso; apply NA; auto|]. apply short_safe. no_occurs.
  - destruct C as [-> | ->]; [|exfalso; apply NO; auto]. apply short_safe. no_occurs.
  - apply short_safe. destruct C as [-> | ->]; no_occurs.
  - apply short_safe. destruct C as [-> | ->]; no_occurs.
  - apply short_safe. destruct C as [-> | ->]; no_occurs.
  - apply short_safe. destruct C as [-> | ->]; no_occurs.
  - apply short_safe. destruct C as [-> | ->]; no_occurs.
  - apply short_safe. destruct C as [-> | ->]; no_occurs.
Qed.
Lemma ands : forall ps, Forall piece_ok ps -> put2 "&" "and" (written ps) = half ps.
Proof.
  induction ps as [|p ps IH]; intros F; [reflexivity|]. inversion F; subst. cbn [written half].
  assert (K : p = PAnd \/ p <> PAnd) by (destruct p; auto; right; discriminate). destruct K as [->|K].
  - cbn [written1 half1]. change ("&&" ++ written ps)%string with (String "&" (String "&" (written ps))).
    rewrite put2_pair, IH by auto. reflexivity.
  - destruct (piece_safe "&" p) as [A B]; auto; try discriminate.
    rewrite put2_skip, IH by auto. destruct p; try reflexivity. congruence.
Qed.
Lemma ors : forall ps, Forall piece_ok ps -> put2 "|" "or" (half ps) = words ps.
Proof.
  induction ps as [|p ps IH]; intros F; [reflexivity|]. inversion F; subst. cbn [words half].
  assert (K : p = POr \/ p = PAnd \/ p <> POr /\ p <> PAnd) by (destruct p; auto; right; right; split; discriminate). destruct K as [->|[->|[K K']]].
  - cbn [words1 half1 written1]. change ("||" ++ half ps)%string with (String "|" (String "|" (half ps))).
    rewrite put2_pair, IH by auto. reflexivity.
  - cbn [words1 half1]. rewrite put2_skip, IH; auto.
    + apply short_safe. no_occurs.
    + intros x E. assert (~ occurs "|" "and") as N by no_occurs. apply N. exists x, ""%string. exact E.
  - destruct (piece_safe "|" p) as [A B]; auto; try discriminate.
    replace (half1 p) with (written1 p) by (destruct p; try reflexivity; congruence).
    rewrite put2_skip, IH by auto. destruct p; try reflexivity; congruence.
Qed.
Lemma quote_words : forall ps, Forall piece_ok ps -> single_quotes (words ps) = prepared ps.
Proof.
  induction ps as [|p ps IH]; intros F; [reflexivity|]. inversion F; subst. cbn [words prepared]. rewrite quotes_app, IH by auto. f_equal.
  destruct p; try reflexivity.
  - cbn [words1 prepared1 written1]. apply quotes_plain. apply name_safe; auto. discriminate.
  - cbn [words1 prepared1 written1].
    assert (S : single_quotes s = s). { apply quotes_plain. intros O. destruct H1 as [C _]. destruct (C _ O) as [_ [N _]]. congruence. }
    destruct double; (match goal with |- single_quotes (?q ++ _)%string = _ => change q with (q ++ "")%string end; rewrite !quotes_app, S; reflexivity).
Qed.
Lemma prepare_written : forall ps, Forall piece_ok ps -> prepare (written ps) = prepared ps.
Proof. intros ps F. unfold prepare. rewrite ands, ors, quote_words; auto. Qed.

(** ** The lexer *)
Definition stops (r : string) : Prop := match r with EmptyString => True | String c _ => x_word c = false /\ c <> "."%char end.
Lemma scan_name : forall s r, name_rest s -> stops r -> scan_symbol (s ++ r) = (s, r).
Proof.
  induction s as [|c s IH]; intros r N S.
  - destruct r as [|c r]; [reflexivity|]. destruct S as [W D]. cbn [append scan_symbol]. rewrite W.
    destruct (Ascii.eqb_spec c "."); [congruence|reflexivity].
  - destruct N as [H N]. rewrite app_cons. cbn [scan_symbol]. rewrite (IH r N S). destruct H as [H|[-> [d [s' [-> W]]]]]; [rewrite word_same in H; rewrite H; reflexivity|]. rewrite word_same in W.
    cbn [x_word]. rewrite app_cons. replace (x_word ".") with false by reflexivity. rewrite Ascii.eqb_refl, W. reflexivity.
Qed.
Lemma scan_text : forall s r, (forall c, occurs c s -> text_char c = true /\ c <> """"%char /\ c <> "'"%char /\ c <> "\"%char) ->
  scan_string (s ++ String "'" r) = SLit s r.
Proof.
  induction s as [|c s IH]; intros r H; [reflexivity|].
  destruct (H c (occurs_here c s)) as [A [_ [B C]]]. rewrite text_same in A. rewrite app_cons. cbn [scan_string]. rewrite A. cbn [negb].
  apply Ascii.eqb_neq in B, C. rewrite C, B. rewrite IH; [reflexivity|]. intros c' O. apply H, occurs_cons, O.
Qed.
Lemma stops_next : forall p ps, spaced (p :: ps) -> Forall piece_ok ps -> is_word_piece p = true -> stops (prepared ps).
Proof.
  intros p ps S F W. destruct ps as [|q ps]; [exact I|]. destruct S as [N _]. inversion F; subst.
  destruct q; cbn [is_word_piece] in N; try (exfalso; apply N; auto; fail); cbn [prepared prepared1 written1 stops append];
    try (split; [reflexivity|discriminate]).
Qed.
Lemma letter_kind : forall c, x_letter c = true -> x_space c = false /\ Ascii.eqb c "#" = false /\ Ascii.eqb c "/" = false /\ x_op_char c = false.
Proof. intros c. destruct c as [[] [] [] [] [] [] [] []]; vm_compute; intros H; try discriminate H; auto. Qed.
Lemma scan_symbol_piece : forall n x r, is_name x -> stops r -> scan (S n) (x ++ r) = XSym x :: scan n r.
Proof.
  intros n x r [c [s [-> [L N]]]] S. rewrite letter_same in L. rewrite app_cons. cbn [scan]. destruct (letter_kind c L) as [A [B [C D]]].
  rewrite A, B, C, D, L. cbn [andb]. rewrite (scan_name s r N S). reflexivity.
Qed.
Lemma scan_single : forall n c s, c = "("%char \/ c = ")"%char \/ c = ","%char -> scan (S n) (String c s) = XOp (String c "") :: scan n s.
Proof. intros n c s [->|[->| ->]]; destruct s; reflexivity. Qed.
Lemma scan_pieces : forall ps n, Forall piece_ok ps -> spaced ps -> String.length (prepared ps) <= n -> scan n (prepared ps) = meant ps.
Proof.
  induction ps as [|p ps IH]; intros n F S L.
  - destruct n; reflexivity.
  - inversion F as [|? ? OK F']; subst.
    assert (S' : spaced ps). { destruct ps; [exact I|]. apply S. }
    cbn [prepared] in *. rewrite len_app in L. cbn [meant flat_map]. fold (meant ps).
    destruct n as [|n]; [exfalso; destruct p; cbn [prepared1 written1 append String.length] in L; try lia; destruct OK as [c [s' [-> _]]]; cbn in L; lia|].
    destruct p; cbn [meant1].
    + cbn [prepared1 written1] in *. cbn [piece_ok] in OK. rewrite scan_symbol_piece; auto.
      * cbn [app]. f_equal. apply IH; auto. destruct OK as [c [s' [-> _]]]. cbn [String.length] in L. lia.
      * eapply stops_next; eauto.
    + cbn [prepared1]. rewrite !app_assoc_s. cbn [append]. destruct OK as [C _].
      assert (E : scan (Datatypes.S n) (String "'" (s ++ String "'" (prepared ps))) =
        match scan_string (s ++ String "'" (prepared ps)) with SLit x r => XStr x :: scan n r | SBad => [XErr] | SEscape => [XRest (String "'" (s ++ String "'" (prepared ps)))] end) by reflexivity.
      rewrite E, scan_text by auto. cbn [app]. f_equal. apply IH; auto.
      cbn [prepared1] in L. rewrite !len_app in L. cbn [String.length] in L. lia.
    + cbn [prepared1] in *. rewrite scan_symbol_piece; [|exists "a"%char, "nd"%string; repeat split; auto|eapply stops_next; eauto].
      cbn [app]. f_equal. apply IH; auto. cbn [String.length] in L. lia.
    + cbn [prepared1] in *. rewrite scan_symbol_piece; [|exists "o"%char, "r"%string; repeat split; auto|eapply stops_next; eauto].
      cbn [app]. f_equal. apply IH; auto. cbn [String.length] in L. lia.
    + cbn [prepared1 written1 append String.length] in *. cbn [app]. rewrite <- (IH n) by (auto; lia). reflexivity.
    + cbn [prepared1 written1 append String.length] in *. cbn [app]. rewrite <- (IH n) by (auto; lia). reflexivity.
    + cbn [prepared1 written1 append String.length] in *. cbn [app]. rewrite <- (IH n) by (auto; lia). apply scan_single. auto.
    + cbn [prepared1 written1 append String.length] in *. cbn [app]. rewrite <- (IH n) by (auto; lia). apply scan_single. auto.
    + cbn [prepared1 written1 append String.length] in *. cbn [app]. rewrite <- (IH n) by (auto; lia). apply scan_single. auto.
    + cbn [prepared1 written1 append String.length] in *. cbn [app]. rewrite <- (IH n) by (auto; lia). reflexivity.
Qed.
Lemma tokens_written : forall ps, well_written ps -> tokens (prepare (written ps)) = meant ps.
Proof. intros ps [F S]. rewrite prepare_written by auto. apply scan_pieces; auto. Qed.

Lemma rewriting_ext : forall lib, oracle_ext lib -> oracle_ext (rewriting lib).
Proof. intros lib [A B]. split; intros; [apply A|apply B]; auto. Qed.

(** ** Two texts the library takes for the same *)
Section Alike.
  Variables (o : oracle) (t1 t2 : string).
  Hypothesis C : forall v f, o_compiles o t1 v f = o_compiles o t2 v f.
  Hypothesis V : forall v g, o_value o t1 v g = o_value o t2 v g.
  Hypothesis H1 : HasEval t1 = false.
  Hypothesis H2 : HasEval t2 = false.
  Lemma verdict_alike : forall m h rf pf req vals, verdict o m h rf pf t1 req vals = verdict o m h rf pf t2 req vals.
  Proof.
    intros. unfold verdict, matcher_text, rule_expression. rewrite H1, H2. cbn [bind]. rewrite C, V. reflexivity.
  Qed.
  Lemma enforce_alike : forall e rf pf eft mat req, oracle_ext o -> ready o e rf pf eft mat -> List.length req = List.length rf ->
    t1 <> "" -> t2 <> "" ->
    snd (EnforceExWithMatcher o t1 (map DStr req) e) = snd (EnforceExWithMatcher o t2 (map DStr req) e).
  Proof.
    intros e rf pf eft mat req X R L N1 N2.
    assert (T : forall t, t <> "" -> HasEval t = false -> texts_ok (chosen t mat) pf (candidates (e_model e) req)).
    { intros t N H. unfold chosen. apply String.eqb_neq in N. rewrite N. apply String.eqb_neq in N. split; auto.
      intros r I. unfold matcher_text, rule_expression. rewrite H. intros E. inversion E. congruence. }
    destruct (enforce_spec o e rf pf eft mat t1 req X R L (T t1 N1 H1)) as [ev1 [E1 _]].
    destruct (enforce_spec o e rf pf eft mat t2 req X R L (T t2 N2 H2)) as [ev2 [E2 _]].
    rewrite E1, E2. cbn [snd]. unfold enforce_outcome, chosen. apply String.eqb_neq in N1, N2. rewrite N1, N2.
    destruct (e_enabled e); [|reflexivity]. cbn [negb]. destruct (candidates (e_model e) req) as [|r rs] eqn:CA.
    - unfold empty_outcome. rewrite H1, H2, C, V. reflexivity.
    - unfold loop_outcome. f_equal. f_equal. apply map_ext. intros v. unfold rule_outcome. rewrite verdict_alike. reflexivity.
  Qed.
End Alike.
