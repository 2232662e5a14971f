(** Properties C46 and C52: reading configuration text, and the lock of the reader. *)
From Verif Require Import Base M_Util M_Model M_Persist M_Config S_Text S_Config P_Base P_Text P_Config.

(** * C46: configuration text is read as written *)

(** A text is accepted exactly when each of its lines is empty, a comment, a heading or
    an assignment; every other text is refused with IllegalArgument. *)
Theorem C46_accepts : forall text,
  (well_formed text <-> exists d, NewConfigFromText text = Ok d) /\
  (~ well_formed text -> NewConfigFromText text = Throw IllegalArgument).
Proof.
  assert (W : forall text, well_formed text <-> snd (read_lines (getlines text)) = true).
  { intros text. split.
    - intros [ls [T F]]. apply text_lines_unique in T. subst.
      assert (exists its, Forall2 says (getlines text) its) as [its I].
      { induction F as [|l ls [it S] F [its I]]; [exists []; auto|]. exists (it :: its). auto. }
      rewrite (read_lines_unique _ _ I). auto.
    - intros R. apply read_lines_says in R. exists (getlines text). split; [apply getlines_spec|].
      induction R; auto. constructor; eauto. }
  intros text. unfold NewConfigFromText, built, ParseBuffer. rewrite parse_read, W. simpl.
  destruct (snd (read_lines (getlines text))); simpl; split; try congruence.
  - split; eauto.
  - split; [discriminate|]. intros [d D]. discriminate.
Qed.

(** The value of an option is the last one assigned to it under a heading of its
    section, without the blanks around it; an option never assigned there reads as the
    empty text.  Options before the first heading (and those under an empty heading)
    belong to the section "default", which is also meant when no section is named.
    Section and option names with a colon are excluded: the key could not be told. *)
Theorem C46_reads : forall text d lines its, NewConfigFromText text = Ok d -> text_lines text lines -> Forall2 says lines its ->
  forall s o, lacks ":" s -> lacks ":" o ->
    (forall v, last_value its s o v -> Get d (s ++ "::" ++ o)%string = v) /\
    (never_assigned its s o -> Get d (s ++ "::" ++ o)%string = "") /\
    (forall v, last_value its "default" o v -> Get d o = v) /\
    (never_assigned its "default" o -> Get d o = "") /\
    ((exists v, last_value its s o v) \/ never_assigned its s o).
Proof.
  intros text d lines its E T F s o LS LO. apply text_lines_unique in T. subst lines.
  destruct (parse_tells _ _ E) as [its' [F' K]].
  assert (its' = its). { apply read_lines_unique in F. apply read_lines_unique in F'. congruence. } subst its'.
  rewrite (Get_lookup d _ s o (colon_split s o LS LO)), (Get_lookup_default d o (colon_none o LO)).
  pose proof (K s o) as K1. pose proof (K "default" o) as K2. revert K1 K2.
  destruct (lookup d s o) as [v1|]; destruct (lookup d "default" o) as [v2|]; intros K1 K2;
    (split; [intros v L; first [exact (last_value_fun _ _ _ _ _ K1 L) | exfalso; exact (never_last _ _ _ _ K1 L)]|]);
    (split; [intros N; first [reflexivity | exfalso; exact (never_last _ _ _ _ N K1)]|]);
    (split; [intros v L; first [exact (last_value_fun _ _ _ _ _ K2 L) | exfalso; exact (never_last _ _ _ _ K2 L)]|]);
    (split; [intros N; first [reflexivity | exfalso; exact (never_last _ _ _ _ N K2)]|]); eauto.
Qed.

(** Comment lines and empty lines change nothing, wherever they stand. *)
Theorem C46_comments : forall text text' a c b, text_lines text (a ++ b) -> text_lines text' (a ++ c :: b) -> says c Nothing ->
  NewConfigFromText text' = NewConfigFromText text.
Proof.
  intros text text' a c b T T' S. apply text_lines_unique in T. apply text_lines_unique in T'.
  unfold NewConfigFromText, built, ParseBuffer. rewrite <- T, <- T'. apply says_read in S.
  assert (X : forall a sec d, parse_lines sec (a ++ c :: b) d = parse_lines sec (a ++ b) d).
  { clear T T' a. induction a as [|l a IH]; intros.
    - cbn [app]. rewrite parse_step, S. auto.
    - cbn [app]. rewrite !parse_step. destruct (read_line l) as [[|h|o v]|]; auto. }
  rewrite X. auto.
Qed.

(** Set writes the option it names and no other. *)
Theorem C46_set : forall d s o v, lacks ":" s -> s <> "" -> lacks ":" o ->
  exists d', Set_ d (s ++ "::" ++ o)%string v = (d', Ok tt) /\ Get d' (s ++ "::" ++ o)%string = v /\
    forall s' o', lacks ":" s' -> lacks ":" o' -> (s', o') <> (s, o) ->
      Get d' (s' ++ "::" ++ o')%string = Get d (s' ++ "::" ++ o')%string.
Proof.
  intros d s o v LS NS LO. unfold Set_. replace (Nat.eqb _ 0) with false.
  2: { symmetry. apply Nat.eqb_neq. rewrite slen_app. simpl. lia. }
  rewrite (colon_split s o LS LO). eexists. split; [reflexivity|].
  assert (NN : named s = s). { unfold named. destruct (String.eqb_spec s ""); congruence. }
  rewrite (Get_lookup _ _ s o (colon_split s o LS LO)), lookup_add, NN, !eqb_refl_s. split; auto.
  intros s' o' L L' NE. rewrite !(Get_lookup _ _ s' o' (colon_split s' o' L L')), lookup_add, NN.
  destruct (String.eqb_spec s' s); destruct (String.eqb_spec o' o); simpl; auto. congruence.
Qed.

(** False for blank lines that are not empty: a text with a line of blanks only (a space,
    or the carriage return of a Windows line end) is refused. *)
Theorem C46_blank_line_refuted : forall text lines l, text_lines text lines -> In l lines -> l <> "" -> every blank l ->
  NewConfigFromText text = Throw IllegalArgument.
Proof.
  intros text lines l T I NE B. apply text_lines_unique in T. subst lines.
  assert (R : read_line l = None).
  { destruct (read_line l) as [it|] eqn:R; auto. exfalso. apply says_read in R.
    assert (X : forall t, trimmed blank l t -> t = "").
    { intros t [[pre [post [E _]]] NO]. apply (all_no_edge blank); auto. subst. apply every_app in B. destruct B as [_ B].
      apply every_app in B. tauto. }
    destruct R as [E|t N Tr C|t s Tr H|t o v Tr C H S]; [congruence| | |]; apply X in Tr; subst.
    - destruct C as [[u U]|[u U]]; discriminate.
    - discriminate.
    - destruct S as [a [b [E _]]]. destruct a; discriminate. }
  unfold NewConfigFromText, built, ParseBuffer. rewrite parse_read. simpl.
  replace (snd (read_lines (getlines text))) with false; auto.
  induction (getlines text) as [|x ls IH]; [destruct I|]. simpl. destruct I as [->|I].
  - rewrite R. auto.
  - destruct (read_line x); auto. destruct (read_lines ls) as [its ok]. simpl in *. auto.
Qed.

Definition eol := String nl "".
Definition sample := ("[request_definition]" ++ eol ++ " r = sub, obj" ++ eol ++ "# comment" ++ eol ++ "r = sub" ++ eol ++ "[matchers]" ++ eol ++ "m = r.sub == p.sub" ++ eol)%string.
Definition sample_lines := ["[request_definition]"; " r = sub, obj"; "# comment"; "r = sub"; "[matchers]"; "m = r.sub == p.sub"].
Definition sample_items := [Heading "request_definition"; Setting "r" "sub, obj"; Nothing; Setting "r" "sub"; Heading "matchers"; Setting "m" "r.sub == p.sub"].
Lemma sample_is : text_lines sample sample_lines /\ Forall2 says sample_lines sample_items.
Proof.
  split.
  - replace sample_lines with (getlines sample) by reflexivity. apply getlines_spec.
  - unfold sample_lines, sample_items. repeat (apply Forall2_cons; [apply says_read; reflexivity|]). apply Forall2_nil.
Qed.
Example C46_reads_applies : exists d, NewConfigFromText sample = Ok d /\ well_formed sample /\
  last_value sample_items "request_definition" "r" "sub" /\ Get d "request_definition::r" = "sub" /\
  never_assigned sample_items "matchers" "r" /\ Get d "matchers::r" = "" /\ Get d "matchers::m" = "r.sub == p.sub".
Proof.
  destruct (NewConfigFromText sample) as [d| |] eqn:E; try discriminate. exists d. split; auto.
  destruct sample_is as [T F]. split.
  { exists sample_lines. split; auto. clear T. induction F; auto. constructor; eauto. }
  destruct (C46_reads _ _ _ _ E T F "request_definition" "r") as [A [B [_ [_ C]]]].
  { apply smem_lacks. reflexivity. } { apply smem_lacks. reflexivity. }
  destruct (C46_reads _ _ _ _ E T F "matchers" "r") as [A' [B' [_ [_ C']]]].
  { apply smem_lacks. reflexivity. } { apply smem_lacks. reflexivity. }
  assert (G1 : Get d "request_definition::r" = "sub"). { injection E as <-. reflexivity. }
  assert (G2 : Get d "matchers::r" = ""). { injection E as <-. reflexivity. }
  repeat split; auto.
  - destruct C as [[v V]|N].
    + pose proof (A v V) as X. change ("request_definition" ++ "::" ++ "r")%string with "request_definition::r" in X. rewrite G1 in X. subst. auto.
    + specialize (B N). change ("request_definition" ++ "::" ++ "r")%string with "request_definition::r" in B. congruence.
  - intros a b v Q [x [-> S]].
    assert (v = "sub, obj" \/ v = "sub").
    { assert (I : In (Setting "r" v) sample_items). { rewrite Q. apply in_or_app. left. apply in_or_app. right. left. auto. }
      unfold sample_items in I. simpl in I.
      repeat (destruct I as [I|I]; [first [discriminate|injection I; auto]|]). destruct I. }
    assert (S' : section_after x "request_definition").
    { unfold sample_items in Q.
      destruct x as [|x0 x]; [discriminate|]. injection Q as <- Q.
      destruct x as [|x1 x].
      - right. exists [], "request_definition", []. split; auto. split; auto. intros ? [].
      - injection Q as <- Q. destruct x as [|x2 x]; [discriminate|]. injection Q as <- Q.
        destruct x as [|x3 x].
        + right. exists [], "request_definition", [Setting "r" "sub, obj"; Nothing]. split; auto. split; auto.
          intros h [I|[I|[]]]; discriminate.
        + injection Q as <- Q. destruct x as [|x4 x]; [discriminate|]. injection Q as <- Q.
          destruct x as [|x5 x]; [discriminate|]. injection Q as <- Q. destruct x; discriminate. }
    pose proof (section_after_unique _ _ _ S S') as X. discriminate X.
  - injection E as <-. reflexivity.
Qed.
Example C46_comments_applies : NewConfigFromText ("; x" ++ eol ++ sample)%string = NewConfigFromText sample.
Proof.
  apply (C46_comments _ _ [] "; x" sample_lines).
  - apply sample_is.
  - replace ([] ++ "; x" :: sample_lines) with (getlines ("; x" ++ eol ++ sample)) by reflexivity. apply getlines_spec.
  - apply says_read. reflexivity.
Qed.
Example C46_set_applies : exists d, Set_ [] "matchers::m" "x" = (d, Ok tt) /\ Get d "matchers::m" = "x".
Proof. eexists. split; reflexivity. Qed.
Example C46_blank_line_applies : NewConfigFromText (sample ++ " " ++ eol)%string = Throw IllegalArgument.
Proof.
  apply (C46_blank_line_refuted _ (sample_lines ++ [" "]) " ").
  - replace (sample_lines ++ [" "]) with (getlines (sample ++ " " ++ eol)) by reflexivity. apply getlines_spec.
  - apply in_or_app. right. left. auto.
  - discriminate.
  - simpl. split; auto. unfold blank. tauto.
Qed.

(** * C52: the lock of the configuration reader is always released *)

(** A history of calls on configuration objects, with the results delivered. *)
Inductive conf_runs : world -> list (cop * res string) -> world -> Prop :=
| conf_none : forall w, conf_runs w [] w
| conf_more : forall w w' w'' op out h, cstep w op = (w', out) -> conf_runs w' h w'' -> conf_runs w ((op, out) :: h) w''.

(** A call that reads a file that cannot be read: some line says nothing. *)
Definition reads_bad_file (w : world) (op : cop) : Prop :=
  match op with
  | NewConfigFile path => ~ well_formed (content_of (w_fs w) path)
  | _ => False
  end.

Lemma parse_ok : forall t, well_formed t -> exists d, ParseBuffer t [] = (d, Ok tt).
Proof.
  intros t W. apply C46_accepts in W. destruct W as [d D]. unfold NewConfigFromText, built in D.
  destruct (ParseBuffer t []) as [c [[]| |]]; simpl in D; try discriminate. eauto.
Qed.
Lemma parse_bad : forall t, ~ well_formed t -> exists d, ParseBuffer t [] = (d, Throw IllegalArgument).
Proof.
  intros t W. apply C46_accepts in W. unfold NewConfigFromText, built in W.
  destruct (ParseBuffer t []) as [c [[]| |]]; simpl in W; try discriminate. injection W as ->. eauto.
Qed.
Lemma wf_dec : forall t, well_formed t \/ ~ well_formed t.
Proof.
  intros t. destruct (C46_accepts t) as [A B]. destruct (NewConfigFromText t) as [d|e|u] eqn:E.
  - left. apply A. eauto.
  - right. rewrite A. intros [d D]. discriminate.
  - right. rewrite A. intros [d D]. discriminate.
Qed.
Lemma fs_kept : forall w op, w_fs (fst (cstep w op)) = w_fs w.
Proof.
  intros [lk f os] op. destruct op; simpl; auto.
  - destruct lk; auto. destruct (ParseBuffer _ []) as [d [| |]]; auto.
  - destruct (ParseBuffer _ []) as [d [| |]]; auto.
  - destruct lk; auto. destruct (nth_error os i); auto. destruct (Set_ _ _ _); auto.
  - destruct (nth_error os i); auto.
Qed.
Lemma step_lock : forall w op, w_locked w = false ->
  (reads_bad_file w op -> w_locked (fst (cstep w op)) = true) /\ (~ reads_bad_file w op -> w_locked (fst (cstep w op)) = false).
Proof.
  intros [lk f os] op L. simpl in L. subst. destruct op; simpl.
  - destruct (wf_dec (content_of f path)) as [W|W].
    + destruct (parse_ok _ W) as [d ->]. simpl. tauto.
    + destruct (parse_bad _ W) as [d ->]. simpl. tauto.
  - destruct (ParseBuffer _ []) as [d [| |]]; simpl; tauto.
  - destruct (nth_error os i); simpl; [destruct (Set_ _ _ _)|]; simpl; tauto.
  - destruct (nth_error os i); simpl; tauto.
Qed.
Lemma step_locked : forall w op, w_locked w = true -> w_locked (fst (cstep w op)) = true.
Proof.
  intros [lk f os] op L. simpl in L. subst. destruct op; simpl; auto.
  - destruct (ParseBuffer _ []) as [d [| |]]; auto.
  - destruct (nth_error os i); auto.
Qed.

(** True as long as every file read is well formed: whatever is called, also with
    arguments that make it throw, every later call finds the lock free. *)
Theorem C52_released_partial : forall w h w', conf_runs w h w' -> w_locked w = false ->
  (forall op out, In (op, out) h -> ~ reads_bad_file w op) ->
  forall op, snd (cstep w' op) <> UB LockedTwice.
Proof.
  intros w h w' R L G. assert (X : w_locked w' = false).
  { induction R as [|w w' w'' op out h E R IH]; auto. apply IH.
    - pose proof (step_lock w op L) as [_ K]. rewrite E in K. apply K. eapply G. left. eauto.
    - intros op' out' I. pose proof (fs_kept w op) as FS. rewrite E in FS. simpl in FS.
      specialize (G op' out' (or_intror I)). destruct op'; simpl in *; auto. rewrite FS. auto. }
  intros op. destruct w' as [lk f os]. simpl in X. subst. destruct op; simpl.
  - destruct (ParseBuffer (content_of f path) []) as [d [| |]] eqn:P; simpl; try discriminate.
    destruct (wf_dec (content_of f path)) as [W|W]; [destruct (parse_ok _ W) as [d' Q]|destruct (parse_bad _ W) as [d' Q]];
      rewrite Q in P; discriminate.
  - destruct (ParseBuffer text []) as [d [| |]] eqn:P; simpl; try discriminate.
    destruct (wf_dec text) as [W|W]; [destruct (parse_ok _ W) as [d' Q]|destruct (parse_bad _ W) as [d' Q]];
      rewrite Q in P; discriminate.
  - destruct (nth_error os i); simpl; [|discriminate]. unfold Set_. destruct (Nat.eqb _ 0); simpl; [discriminate|].
    destruct (Split key "::" None) as [|a [|b l]]; simpl; discriminate.
  - destruct (nth_error os i); simpl; discriminate.
Qed.

(** False in general: once one file that is not well formed has been read, the call that
    read it threw IllegalArgument and kept the lock; whatever happens then, every later
    call that reads a file or sets an option is stuck. *)
Theorem C52_released_refuted : forall w op w1 out h w', w_locked w = false -> reads_bad_file w op -> cstep w op = (w1, out) ->
  out = Throw IllegalArgument /\
  (conf_runs w1 h w' ->
   (forall path, snd (cstep w' (NewConfigFile path)) = UB LockedTwice) /\
   (forall i key value, snd (cstep w' (SetOption i key value)) = UB LockedTwice)).
Proof.
  intros w op w1 out h w' L B E. split.
  - destruct w as [lk f os]. simpl in L. subst. destruct op; simpl in B; try tauto. simpl in E.
    destruct (parse_bad _ B) as [d P]. rewrite P in E. injection E as _ <-. auto.
  - intros R. assert (X : w_locked w' = true).
    { pose proof (step_lock w op L) as [K _]. rewrite E in K. specialize (K B). simpl in K. clear E B L.
      induction R as [|w1 w2 w3 op1 out1 h E R IH]; auto. apply IH.
      pose proof (step_locked w1 op1 K) as Q. rewrite E in Q. auto. }
    split; intros; simpl; rewrite X; auto.
Qed.

Definition two_files := mkW false (mkFs [("good", sample); ("bad", "x")] (fun _ => false)) [].
Example C52_applies : exists w', conf_runs two_files [(NewConfigFile "good", Ok ""); (SetOption 0 "" "v", Throw IllegalArgument); (GetOption 0 "matchers::m", Ok "r.sub == p.sub")] w' /\
  (forall op out, In (op, out) [(NewConfigFile "good", @Ok string ""); (SetOption 0 "" "v", Throw IllegalArgument); (GetOption 0 "matchers::m", Ok "r.sub == p.sub")] -> ~ reads_bad_file two_files op).
Proof.
  eexists. split.
  - eapply conf_more; [reflexivity|]. eapply conf_more; [reflexivity|]. eapply conf_more; [reflexivity|]. apply conf_none.
  - intros op out [I|[I|[I|[]]]]; injection I as <- <-; simpl; try tauto. intros N. apply N. apply (proj1 (C46_accepts sample)). eexists. reflexivity.
Qed.
Example C52_refuted_applies : reads_bad_file two_files (NewConfigFile "bad") /\
  snd (cstep (fst (cstep two_files (NewConfigFile "bad"))) (NewConfigFile "good")) = UB LockedTwice.
Proof.
  split; [|reflexivity]. simpl. intros N. apply (proj1 (C46_accepts "x")) in N. destruct N as [d D]. discriminate.
Qed.

Print Assumptions C46_accepts.
Print Assumptions C46_reads.
Print Assumptions C46_comments.
Print Assumptions C46_set.
Print Assumptions C46_blank_line_refuted.
Print Assumptions C52_released_partial.
Print Assumptions C52_released_refuted.
