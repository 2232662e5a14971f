(** Property C111: a matcher means what is written in it. *)
From Verif Require Import Base P_Base M_Util M_Model M_Effector M_Eval M_Evaluator M_Enforcer M_Matcher M_Rewrite
  S_Effect S_Enforce S_Policy S_Standard S_Rewrite P_Enforce P_Decide P_Rewrite E_Examples T_Enforce.

(** In a well written matcher (names and the operators && and || stand apart, and the texts in
    quotes hold printable ASCII characters without quotes, backslashes, && and ||) the
    expression library is given the names, texts and operators that were written. *)
Theorem C111_reads_partial : forall ps, well_written ps -> tokens (prepare (written ps)) = meant ps.
Proof. exact tokens_written. Qed.

(** So spaces and the kind of quotes do not matter to any decision. *)
Theorem C111_layout_partial : forall lib e rf pf eft mat req ps qs,
  oracle_ext lib -> tokenwise lib -> ready (rewriting lib) e rf pf eft mat -> List.length req = List.length rf ->
  well_written ps -> well_written qs -> meant ps = meant qs -> written ps <> "" -> written qs <> "" ->
  HasEval (written ps) = false -> HasEval (written qs) = false ->
  snd (EnforceExWithMatcher (rewriting lib) (written ps) (map DStr req) e) =
  snd (EnforceExWithMatcher (rewriting lib) (written qs) (map DStr req) e).
Proof.
  intros lib e rf pf eft mat req ps qs X T R L W1 W2 M N1 N2 H1 H2.
  destruct (T (prepare (written ps)) (prepare (written qs))) as [A B].
  { rewrite !tokens_written by auto. exact M. }
  apply (enforce_alike (rewriting lib) (written ps) (written qs) A B H1 H2 e rf pf eft mat); auto. apply rewriting_ext; auto.
Qed.
(** The decision theorems (C36, C69 to C72, C77, C82) suppose that the evaluator reads a matcher as documented.
    It does if the library reads the same expression in its own notation so. *)
Theorem C111_notation_partial : forall lib n ps t d,
  tokenwise lib -> well_written ps -> tokens t = meant ps -> reads lib n t d -> reads (rewriting lib) n (written ps) d.
Proof.
  intros lib n ps t d T W E [A B C].
  destruct (T (prepare (written ps)) t) as [K1 K2]. { rewrite tokens_written by auto. auto. }
  constructor; auto.
  - intros vars funs V F. unfold rewriting, o_compiles. change (o_compiles lib (prepare (written ps)) vars funs = true). rewrite K1. auto.
  - intros v g val V G O. destruct (B v g val V G O) as [b [Q R]]. exists b. split; auto.
    change (o_value lib (prepare (written ps)) v g = Ok b). rewrite K2. auto.
Qed.
Print Assumptions C111_notation_partial.
Print Assumptions C111_reads_partial.
Print Assumptions C111_layout_partial.

Lemma xmini_ext : oracle_ext xmini.
Proof.
  split; intros; cbn [xmini o_compiles o_value]; destruct (x_parse t) as [e|]; auto.
  - assert (T : forall a, term_ok v1 a = term_ok v2 a) by (intros []; simpl; auto).
    induction e; simpl; rewrite ?T, ?H0; try congruence.
    f_equal; auto. induction args; simpl; auto. rewrite T. congruence.
  - assert (T : forall a, term_val v1 a = term_val v2 a) by (intros []; simpl; rewrite ?H; auto).
    induction e; simpl; rewrite ?T; try congruence.
    + rewrite IHe1. destruct (mexp_val v2 g2 e1); simpl; auto. destruct a; auto.
    + rewrite IHe1. destruct (mexp_val v2 g2 e1); simpl; auto. destruct a; auto.
    + rewrite H0. replace (map (term_val v1) args) with (map (term_val v2) args); auto.
      apply map_ext. auto.
Qed.
Lemma xmini_tokenwise : tokenwise xmini.
Proof. intros t1 t2 E. cbn [xmini o_compiles o_value]. unfold x_parse. rewrite E. split; reflexivity. Qed.

(** A case: the matcher of rbac_model.conf without most of its spaces, and a text in either kind
    of quotes. *)
Definition rbac_pieces : list piece :=
  [PName "g"; POpen; PName "r.sub"; PComma; PSpace; PName "p.sub"; PClose; PSpace; PAnd; PSpace; PName "r.obj"; PSpace; PEq; PSpace; PName "p.obj";
   PSpace; PAnd; PSpace; PName "r.act"; PSpace; PEq; PSpace; PName "p.act"].
Definition root_pieces (double : bool) (wide : bool) : list piece :=
  [PName "r.sub"] ++ (if wide then [PSpace] else []) ++ [PEq] ++ (if wide then [PSpace; PSpace] else []) ++ [PText double "root & co"; PSpace; POr; PSpace; PName "r.sub"; PEq; PName "p.sub"].
Lemma rbac_well : well_written rbac_pieces.
Proof.
  split; [|cbn [rbac_pieces spaced is_word_piece]; intuition discriminate].
  repeat constructor; eexists; eexists; (split; [reflexivity|]; split; [reflexivity|]); cbn [name_rest];
    repeat match goal with |- _ /\ _ => split end; try exact Logic.I; try (left; reflexivity);
    right; (split; [reflexivity|]); eexists; eexists; split; reflexivity.
Qed.
Lemma plain_check : forall s, forallb (fun c => text_char c && negb (Ascii.eqb c """") && negb (Ascii.eqb c "'") && negb (Ascii.eqb c "\")) (list_ascii_of_string s) = true ->
  forall c, occurs c s -> text_char c = true /\ c <> """"%char /\ c <> "'"%char /\ c <> "\"%char.
Proof.
  intros s F c [a [b E]]. rewrite forallb_forall in F. specialize (F c).
  assert (I : In c (list_ascii_of_string s)). { subst s. clear. induction a; cbn; auto. }
  apply F in I. rewrite !Bool.andb_true_iff, !Bool.negb_true_iff, !Ascii.eqb_neq in I. tauto.
Qed.
Fixpoint pair_free (c : ascii) (s : string) : bool :=
  match s with
  | String a ((String b _) as t) => negb (Ascii.eqb a c && Ascii.eqb b c) && pair_free c t
  | _ => true
  end.
Lemma pair_check : forall c s, pair_free c s = true -> ~ twice_in c s.
Proof.
  intros c s H [a [b E]]. revert s H E. induction a as [|a0 a IH]; intros s H E; subst s; cbn [append] in H.
  - cbn [pair_free] in H. rewrite Ascii.eqb_refl in H. discriminate.
  - destruct a as [|a1 a]; cbn [append pair_free] in H; apply Bool.andb_true_iff in H; destruct H as [_ H]; eapply IH; eauto; exact H.
Qed.
Lemma root_well : forall d w, well_written (root_pieces d w).
Proof.
  intros d w. split; [|destruct d, w; cbn [root_pieces app spaced is_word_piece]; intuition discriminate].
  assert (N : piece_ok (PName "r.sub") /\ piece_ok (PName "p.sub")).
  { split; eexists; eexists; (split; [reflexivity|]; split; [reflexivity|]); cbn [name_rest];
    repeat match goal with |- _ /\ _ => split end; try exact Logic.I; try (left; reflexivity);
    right; (split; [reflexivity|]); eexists; eexists; split; reflexivity. }
  assert (T : piece_ok (PText d "root & co")).
  { split; [apply plain_check; vm_compute; reflexivity|]. split; apply pair_check; vm_compute; reflexivity. }
  destruct N as [N1 N2]. unfold root_pieces. destruct w; cbn [app]; repeat (apply Forall_cons; [try exact Logic.I; auto|]); apply Forall_nil.
Qed.
Example C111_case : written rbac_pieces = rbac_matcher /\ well_written rbac_pieces /\
  written (root_pieces true true) = "r.sub ==  ""root & co"" || r.sub==p.sub" /\ written (root_pieces false false) = "r.sub=='root & co' || r.sub==p.sub" /\
  (forall d w, well_written (root_pieces d w)) /\ meant (root_pieces true true) = meant (root_pieces false false) /\
  HasEval (written (root_pieces true true)) = false /\ HasEval (written (root_pieces false false)) = false /\
  oracle_ext xmini /\ tokenwise xmini /\ ready (rewriting xmini) (boot (basic_model [["alice"; "data1"; "read"]])) f3 f3 (effect_text AllowOverride) basic_matcher /\
  snd (EnforceWithMatcher (rewriting xmini) (written (root_pieces true true)) (reqs ["root & co"; "x"; "y"]) (boot (basic_model [["alice"; "data1"; "read"]]))) = Ok true /\
  snd (EnforceWithMatcher (rewriting xmini) (written (root_pieces false false)) (reqs ["root & co"; "x"; "y"]) (boot (basic_model [["alice"; "data1"; "read"]]))) = Ok true /\
  snd (EnforceWithMatcher (rewriting xmini) (written (root_pieces false false)) (reqs ["bob"; "x"; "y"]) (boot (basic_model [["alice"; "data1"; "read"]]))) = Ok false.
Proof.
  split; [vm_compute; reflexivity|]. split; [apply rbac_well|]. split; [vm_compute; reflexivity|]. split; [vm_compute; reflexivity|].
  split; [apply root_well|]. split; [reflexivity|]. split; [vm_compute; reflexivity|]. split; [vm_compute; reflexivity|].
  split; [apply xmini_ext|]. split; [apply xmini_tokenwise|]. split; [apply basic_ready|]. repeat split; vm_compute; reflexivity.
Qed.

Example C111_notation_case : tokens "g(r.sub, p.sub) and r.obj == p.obj and r.act == p.act" = meant rbac_pieces /\
  tokens "r.sub == 'root & co' or r.sub == p.sub" = meant (root_pieces true false).
Proof. split; vm_compute; reflexivity. Qed.

(** ** Where it does not hold *)
(** && in quotes: whatever the expression library does, a matcher about the department R&&D is
    one about RandD. *)
Definition rd_matcher : string := "r.sub == p.sub && r.obj == ""R&&D""".
Definition randd_matcher : string := "r.sub == p.sub && r.obj == ""RandD""".
Lemma rd_same : prepare rd_matcher = prepare randd_matcher.
Proof. vm_compute. reflexivity. Qed.
Theorem C111_quoted_operator_refuted :
  (forall lib e rf pf eft mat req, oracle_ext lib -> ready (rewriting lib) e rf pf eft mat -> List.length req = List.length rf ->
     snd (EnforceExWithMatcher (rewriting lib) rd_matcher (map DStr req) e) = snd (EnforceExWithMatcher (rewriting lib) randd_matcher (map DStr req) e)) /\
  exists e, ready (rewriting xmini) e f3 f3 (effect_text AllowOverride) basic_matcher /\
    snd (EnforceWithMatcher (rewriting xmini) rd_matcher (reqs ["alice"; "RandD"; "read"]) e) = Ok true /\
    snd (EnforceWithMatcher (rewriting xmini) rd_matcher (reqs ["alice"; "R&&D"; "read"]) e) = Ok false.
Proof.
  split.
  - intros lib e rf pf eft mat req X R L.
    assert (C : forall v f, o_compiles (rewriting lib) rd_matcher v f = o_compiles (rewriting lib) randd_matcher v f).
    { intros. unfold rewriting, o_compiles. rewrite rd_same. reflexivity. }
    assert (V : forall v g, o_value (rewriting lib) rd_matcher v g = o_value (rewriting lib) randd_matcher v g).
    { intros. unfold rewriting, o_value. rewrite rd_same. reflexivity. }
    assert (H1 : HasEval rd_matcher = false) by (vm_compute; reflexivity).
    assert (H2 : HasEval randd_matcher = false) by (vm_compute; reflexivity).
    apply (enforce_alike (rewriting lib) rd_matcher randd_matcher C V H1 H2 e rf pf eft mat); auto; try discriminate.
    apply rewriting_ext; auto.
  - exists (boot (basic_model [["alice"; "data1"; "read"]])). split; [apply basic_ready|]. split; vm_compute; reflexivity.
Qed.
(** && without spaces: the names beside it become one name, which is not known, and every
    request throws. *)
Definition tight_matcher : string := "r.sub == p.sub&&r.obj == p.obj&&r.act == p.act".
Theorem C111_tight_refuted :
  tokens (prepare tight_matcher) = [XSym "r.sub"; XOp "=="; XSym "p.subandr.obj"; XOp "=="; XSym "p.objandr.act"; XOp "=="; XSym "p.act"] /\
  exists e, ready (rewriting xmini) e f3 f3 (effect_text AllowOverride) basic_matcher /\
    snd (Enforce (rewriting xmini) (reqs ["alice"; "data1"; "read"]) e) = Ok true /\
    snd (EnforceWithMatcher (rewriting xmini) tight_matcher (reqs ["alice"; "data1"; "read"]) e) = Throw ThrownString.
Proof.
  split; [vm_compute; reflexivity|]. exists (boot (basic_model [["alice"; "data1"; "read"]])).
  split; [apply basic_ready|]. split; vm_compute; reflexivity.
Qed.
(** An apostrophe in double quotes, and a letter outside ASCII in quotes: the library cannot read
    the matcher. *)
Definition accent : string := String "195" (String "169" "").
Theorem C111_characters_refuted : forall text, In text ["o'brien"; ("caf" ++ accent)%string] ->
  In XErr (tokens (prepare ("r.sub == """ ++ text ++ """")%string)) /\
  exists e, ready (rewriting xmini) e f3 f3 (effect_text AllowOverride) basic_matcher /\
    snd (EnforceWithMatcher (rewriting xmini) ("r.sub == """ ++ text ++ """")%string (reqs [text; "data1"; "read"]) e) = Throw ThrownString.
Proof.
  intros text [<-|[<-|[]]]; (split; [vm_compute; tauto|]); exists (boot (basic_model [["alice"; "data1"; "read"]])); (split; [apply basic_ready|]); vm_compute; reflexivity.
Qed.
Print Assumptions C111_quoted_operator_refuted.
Print Assumptions C111_tight_refuted.
Print Assumptions C111_characters_refuted.
