(** The choice of the rule index: lemmas. *)
From Verif Require Import Base P_Base M_Util M_Model M_Config M_Load S_Text S_Load S_Select P_Text P_Store P_Load.

Lemma sassoc : forall a b c, ((a ++ b) ++ c)%string = (a ++ (b ++ c))%string.
Proof. induction a; simpl; intros; congruence. Qed.
Lemma snil : forall a, (a ++ "")%string = a.
Proof. induction a; simpl; congruence. Qed.

(** ** Deleting the matches of the pattern is cutting *)
Lemma pattern_some : forall w ps s, pattern_here (dot_or w ++ ps) s = true <-> exists t, s = (w ++ t)%string /\ pattern_here ps t = true.
Proof.
  induction w as [|c w IH]; intros ps s.
  - simpl. split; [eauto|intros [t [-> H]]; auto].
  - change (dot_or (String c w)) with (Some c :: dot_or w). cbn [app pattern_here]. destruct s as [|d s].
    + split; [discriminate|]. intros [t [E _]]. discriminate E.
    + rewrite andb_true_iff, IH, Ascii.eqb_eq. split.
      * intros [-> [t [-> H]]]. exists t. auto.
      * intros [t [E H]]. inversion E; subst. eauto.
Qed.
Lemma pattern_dot : forall ps s, pattern_here (None :: ps) s = true <-> exists c t, s = String c t /\ c <> nl /\ c <> cr /\ pattern_here ps t = true.
Proof.
  intros ps [|c s]; cbn [pattern_here].
  - split; [discriminate|]. intros [c [t [E _]]]. discriminate E.
  - rewrite andb_true_iff, negb_true_iff, orb_false_iff, !Ascii.eqb_neq. split.
    + intros [[A B] H]. exists c, s. auto.
    + intros [c' [t [E [A [B H]]]]]. inversion E; subst. auto.
Qed.
Lemma pattern_spec : forall f s, pattern_here (equality_pattern f) s = true <-> exists x t, comparison f x /\ s = (x ++ t)%string.
Proof.
  intros f s. unfold equality_pattern. change (Some "r"%char :: None :: dot_or f ++ dot_or " == p" ++ None :: dot_or f)
    with (dot_or "r" ++ None :: dot_or f ++ dot_or " == p" ++ None :: dot_or f).
  rewrite pattern_some. split.
  - intros [t [-> H]]. apply pattern_dot in H. destruct H as [a [t1 [-> [A1 [A2 H]]]]]. apply pattern_some in H. destruct H as [t2 [-> H]].
    apply pattern_some in H. destruct H as [t3 [-> H]]. apply pattern_dot in H. destruct H as [b [t4 [-> [B1 [B2 H]]]]].
    rewrite <- (app_nil_r (dot_or f)) in H. apply pattern_some in H. destruct H as [t5 [-> _]].
    exists (String "r" (String a (f ++ " == p" ++ String b f)))%string, t5. split; [exists a, b; auto|].
    repeat (rewrite app_s_cons || rewrite sassoc). reflexivity.
  - intros [x [t [[a [b [A1 [A2 [B1 [B2 ->]]]]]] ->]]]. eexists. split; [rewrite app_s_cons; reflexivity|].
    apply pattern_dot. eexists a, _. split; [rewrite app_s_cons; reflexivity|]. split; auto. split; auto.
    apply pattern_some. eexists. split; [rewrite sassoc; reflexivity|]. apply pattern_some. eexists. split; [rewrite sassoc; reflexivity|].
    apply pattern_dot. eexists b, _. split; [rewrite app_s_cons; reflexivity|]. split; auto. split; auto.
    rewrite <- (app_nil_r (dot_or f)). apply pattern_some. eexists. split; reflexivity.
Qed.
Lemma pattern_length : forall f x, comparison f x -> String.length x = List.length (equality_pattern f).
Proof.
  intros f x [a [b [_ [_ [_ [_ ->]]]]]]. unfold equality_pattern, dot_or. cbn [List.length]. rewrite !app_length. cbn [List.length]. rewrite !map_length.
  assert (L : forall s, List.length (list_ascii_of_string s) = String.length s) by (induction s; simpl; auto).
  rewrite !L. cbn [String.length]. rewrite !length_app_s. cbn [String.length]. lia.
Qed.
Lemma remove_skip : forall pat x s, remove_matches pat (String.length x) (x ++ s)%string = remove_matches pat 0 s.
Proof. induction x as [|c x IH]; intros s; auto. apply IH. Qed.
Lemma cut_fun : forall f s s', cut f s s' -> remove_matches (equality_pattern f) 0 s = s'.
Proof.
  intros f s s' H. induction H as [|x s s' X H IH|c s s' N H IH].
  - reflexivity.
  - pose proof (pattern_length f x X) as L. destruct x as [|c x]; [destruct X as [a [b [_ [_ [_ [_ E]]]]]]; discriminate E|].
    rewrite app_s_cons. cbn [remove_matches]. replace (pattern_here (equality_pattern f) (String c (x ++ s))) with true.
    + rewrite <- L. cbn [String.length pred]. rewrite remove_skip. exact IH.
    + symmetry. apply pattern_spec. exists (String c x), s. auto.
  - cbn [remove_matches]. replace (pattern_here (equality_pattern f) (String c s)) with false; [f_equal; exact IH|].
    symmetry. apply not_true_iff_false. intros P. apply pattern_spec in P. destruct P as [x [t [X E]]]. apply (N x t X E).
Qed.
Lemma cut_exists : forall f n s, String.length s <= n -> exists s', cut f s s'.
Proof.
  intros f. induction n as [|n IH]; intros s L.
  - destruct s; [|simpl in L; lia]. eexists. constructor.
  - destruct s as [|c s]; [eexists; constructor|]. simpl in L. destruct (pattern_here (equality_pattern f) (String c s)) eqn:P.
    + apply pattern_spec in P. destruct P as [x [t [X E]]]. destruct (IH t) as [s' H].
      * apply (f_equal String.length) in E. rewrite length_app_s in E. destruct X as [a [b [_ [_ [_ [_ ->]]]]]]. cbn [String.length] in E. lia.
      * exists s'. rewrite E. constructor; auto.
    + destruct (IH s) as [s' H]; [lia|]. exists (String c s'). constructor; auto.
      intros x t X E. assert (Y : pattern_here (equality_pattern f) (String c s) = true) by (apply pattern_spec; eauto). congruence.
Qed.
Lemma remove_cut : forall f s s', remove_matches (equality_pattern f) 0 s = s' <-> cut f s s'.
Proof.
  intros f s s'. split; [|apply cut_fun]. intros <-. destruct (cut_exists f _ s (le_n _)) as [s' H]. rewrite (cut_fun _ _ _ H). exact H.
Qed.

Lemma ordinary_plain : forall f, every ordinary f -> plain_token f = true.
Proof.
  intros f H. unfold plain_token. apply negb_true_iff. induction f as [|c f IH]; auto.
  cbn [list_ascii_of_string existsb]. destruct H as [O H]. rewrite IH by auto. rewrite orb_false_r. unfold special. apply smem_lacks. exact O.
Qed.
Lemma remove_all : forall odd fs s, Forall (every ordinary) fs ->
  exists s', remove_equalities odd (map (fun f => ("r_" ++ f)%string) fs) s = Ok s' /\ forall s'', cut_all fs s s'' <-> s'' = s'.
Proof.
  intros odd. induction fs as [|f fs IH]; intros s F.
  - exists s. split; [reflexivity|]. intros s''. split; [intros H; inversion H; auto|intros ->; constructor].
  - inversion F as [|? ? O F']; subst. cbn [map remove_equalities].
    replace (Nat.ltb (String.length ("r_" ++ f)) 2) with false by (symmetry; apply Nat.ltb_ge; simpl; lia). cbv zeta.
    change (sdrop 2 ("r_" ++ f)) with f. rewrite ordinary_plain by auto. cbn [bind].
    destruct (IH (remove_matches (equality_pattern f) 0 s) F') as [s' [E U]]. exists s'. split; auto.
    intros s''. rewrite <- U. split.
    + intros H. inversion H as [|? ? ? s1 ? C H']; subst. apply remove_cut in C. rewrite C. auto.
    + intros H. econstructor; [apply remove_cut; reflexivity|exact H].
Qed.
Lemma concat_cons : forall x l, String.concat "" (x :: l) = (x ++ String.concat "" l)%string.
Proof. intros x [|y l]; [simpl; rewrite snil; reflexivity|reflexivity]. Qed.
Lemma expected_ands : forall n, expected_matcher n = ands (n - 1).
Proof.
  intros n. unfold expected_matcher. induction (n - 1) as [|k IH]; auto. cbn [repeat ands]. rewrite concat_cons, IH. reflexivity.
Qed.

(** The test, for a model with a request definition and a matcher. *)
Lemma hash_spec : forall odd m ra ma fs, get_ast m "r" "r" = Ok ra -> get_ast m "m" "m" = Ok ma ->
  a_tokens ra = map (fun f => ("r_" ++ f)%string) fs -> Forall (every ordinary) fs ->
  exists b, IsHashsetUsagePossible odd m = Ok b /\ (b = true <-> ahas "g" m = false /\ cut_all fs (a_value ma) (ands (List.length fs - 1))).
Proof.
  intros odd m ra ma fs R M T O. unfold IsHashsetUsagePossible. unfold get_ast, sec_of in *.
  destruct (aget "r" m) as [ram|]; [|simpl in R; discriminate]. destruct (aget "r" ram) as [r|]; [|discriminate]. inversion R; subst. clear R.
  destruct (aget "m" m) as [mam|]; [|simpl in M; discriminate]. destruct (aget "m" mam) as [mm|]; [|discriminate]. inversion M; subst. clear M.
  rewrite T. destruct (remove_all odd fs (a_value ma) O) as [s' [E U]]. rewrite E. cbn [bind]. eexists. split; [reflexivity|].
  rewrite map_length, expected_ands, andb_true_iff, String.eqb_eq, negb_true_iff. rewrite U. tauto.
Qed.

(** ** The sections of a model *)
Lemma hash_same : forall odd m m', (forall s, In s ["r"; "m"; "g"] -> aget s m' = aget s m) -> IsHashsetUsagePossible odd m' = IsHashsetUsagePossible odd m.
Proof.
  intros odd m m' H. unfold IsHashsetUsagePossible, ahas. rewrite !H; simpl; auto.
Qed.
Lemma touch_p : forall m s, s <> "p" -> aget s (touch m "p") = aget s m.
Proof. intros m s N. unfold touch. rewrite aget_ainsert. destruct (String.eqb_spec s "p"); [congruence|auto]. Qed.
Lemma load_stores : forall odd d sec (inv : model -> Prop) b0,
  (forall m b, inv m -> IsHashsetUsagePossible odd (touch m sec) = Ok b -> b = b0) ->
  (forall m k a, inv m -> inv (put_ast (touch m sec) sec k a)) ->
  forall fuel i m m', inv m -> load_section odd fuel m d sec i = (m', Ok tt) ->
  (forall k a, get_ast m sec k = Ok a -> is_hash (a_policy a) = b0) ->
  forall k a, get_ast m' sec k = Ok a -> is_hash (a_policy a) = b0.
Proof.
  intros odd d sec inv b0 HB HI. induction fuel as [|fuel IH]; intros i m m' I L OLD k a G; cbn [load_section] in L; [discriminate|].
  unfold LoadAssertion, AddDef in L. destruct (String.eqb (Get d (section_name sec ++ "::" ++ sec ++ GetKeySuffix i)) "").
  { inversion L; subst. eauto. }
  set (a0 := if String.eqb sec "r" || String.eqb sec "p" then _ else _) in L.
  assert (T : forall k a, get_ast (touch m sec) sec k = Ok a -> is_hash (a_policy a) = b0) by (intros k0 a1 G0; rewrite get_touch' in G0; eauto).
  assert (ST : match store_def odd (touch m sec) sec (sec ++ GetKeySuffix i)%string a0 with
               | (m', Ok true) => load_section odd fuel m' d sec (S i) | (m', Ok false) => (m', Ok tt)
               | (m', Throw e) => (m', Throw e) | (m', UB u) => (m', UB u) end = (m', Ok tt) -> is_hash (a_policy a) = b0).
  { unfold store_def. destruct (IsHashsetUsagePossible odd (touch m sec)) as [b|t|u] eqn:H; [|discriminate|discriminate].
    intros Q. apply HB in H; auto. subst b. eapply IH; [apply HI; exact I|exact Q| |exact G].
    intros k1 a1 G1. destruct (string_dec k1 (sec ++ GetKeySuffix i)%string) as [->|D].
    - rewrite get_put_ast_same in G1. inversion G1; subst. destruct b0; reflexivity.
    - rewrite get_put_ast_other in G1 by congruence. eauto. }
  destruct (negb (String.eqb sec "p")); [auto|]. destruct (negb (ahas "m" (touch m sec)) || negb (ahas "r" (touch m sec))); [|auto].
  inversion L; subst. eauto.
Qed.
Lemma load_index : forall odd d m ra ma fs, LoadModelFromConfig odd [] d = (m, Ok tt) ->
  get_ast m "r" "r" = Ok ra -> get_ast m "m" "m" = Ok ma ->
  a_tokens ra = map (fun f => ("r_" ++ f)%string) fs -> Forall (every ordinary) fs ->
  (forall k a, get_ast m "p" k = Ok a -> (is_hash (a_policy a) = true <-> cut_all fs (a_value ma) (ands (List.length fs - 1)))) /\
  (forall k a, get_ast m "g" k = Ok a -> is_hash (a_policy a) = false).
Proof.
  intros odd d m ra ma fs L R M T O. unfold LoadModelFromConfig in L. fold kinds in L.
  destruct (load_sections odd kinds [] d) as [m5 out] eqn:LS.
  destruct out; try discriminate. destruct (forallb (fun s => ahas s m5) ["r"; "p"; "e"; "m"]) eqn:F; [|discriminate].
  injection L as <-. rewrite forallb_forall in F.
  assert (W : forall s, In s ["r"; "p"; "e"; "m"] -> val d s 1 <> "").
  { intros s S. specialize (F s S). replace m5 with (fst (load_sections odd kinds [] d)) in F by (rewrite LS; auto).
    apply load_sections_has in F. destruct F as [F|[_ F]]; auto. discriminate. }
  unfold kinds in LS. cbn [load_sections] in LS.
  destruct (LoadSection odd [] d "m") as [m1 [[]| |]] eqn:L1; try discriminate.
  destruct (LoadSection odd m1 d "r") as [m2 [[]| |]] eqn:L2; try discriminate.
  destruct (LoadSection odd m2 d "p") as [m3 [[]| |]] eqn:L3; try discriminate.
  destruct (LoadSection odd m3 d "g") as [m4 [[]| |]] eqn:L4; try discriminate.
  destruct (LoadSection odd m4 d "e") as [m6 [[]| |]] eqn:L5; try discriminate. injection LS as <-.
  pose proof L3 as K3. pose proof L4 as K4.
  apply load_section_added in L1; [|simpl; tauto|lia|discriminate]. destruct L1 as [k1 [A1 [V1 E1]]].
  apply load_section_added in L2; [|simpl; tauto|lia|discriminate]. destruct L2 as [k2 [A2 [V2 E2]]].
  apply load_section_added in L3; [|simpl; tauto|lia|].
  2: { intros _. destruct A1 as [_ _ H1]. destruct A2 as [_ _ H2]. rewrite !H2, !H1. split.
       - destruct k1; [exfalso; apply (W "m"); simpl; auto|]. auto.
       - destruct k2; [exfalso; apply (W "r"); simpl; auto|]. auto. }
  destruct L3 as [k3 [A3 [V3 E3]]].
  apply load_section_added in L4; [|simpl; tauto|lia|discriminate]. destruct L4 as [k4 [A4 [V4 E4]]].
  apply load_section_added in L5; [|simpl; tauto|lia|discriminate]. destruct L5 as [k5 [A5 [V5 E5]]].
  assert (KEEP : forall sec k m m' s q, added d sec 1 k m m' -> s <> sec -> get_ast m' s q = get_ast m s q).
  { intros sec k m m' s q [_ OO _] NE. apply OO. congruence. }
  assert (Z : forall s q, get_ast [] s q = UB NullDeref) by reflexivity.
  split.
  - assert (G2 : ahas "g" m2 = false) by (rewrite (added_has _ _ _ _ _ _ A2), (added_has _ _ _ _ _ _ A1); reflexivity).
    rewrite (KEEP _ _ _ _ _ _ A5), (KEEP _ _ _ _ _ _ A4), (KEEP _ _ _ _ _ _ A3) in R by discriminate.
    rewrite (KEEP _ _ _ _ _ _ A5), (KEEP _ _ _ _ _ _ A4), (KEEP _ _ _ _ _ _ A3) in M by discriminate.
    destruct (hash_spec odd m2 ra ma fs R M T O) as [b [HB S]].
    intros q pa G. rewrite (KEEP _ _ _ _ _ _ A5), (KEEP _ _ _ _ _ _ A4) in G by discriminate.
    assert (X : is_hash (a_policy pa) = b).
    { eapply (load_stores odd d "p" (fun m => forall s, In s ["r"; "m"; "g"] -> aget s m = aget s m2) b); [| | |exact K3| |exact G].
      - intros m0 b0 I0 H0. rewrite (hash_same odd m2 (touch m0 "p")) in H0; [congruence|].
        intros s S0. rewrite touch_p; auto. simpl in S0. intros ->. destruct S0 as [S0|[S0|[S0|[]]]]; discriminate.
      - intros m0 k0 a0 I0 s S0. assert (N : s <> "p") by (simpl in S0; intros ->; destruct S0 as [S0|[S0|[S0|[]]]]; discriminate).
        unfold put_ast. rewrite aget_aset_other by auto. rewrite touch_p by auto. auto.
      - auto.
      - intros k0 a0 G0. rewrite (KEEP _ _ _ _ _ _ A2), (KEEP _ _ _ _ _ _ A1) in G0 by discriminate. discriminate G0. }
    rewrite X, S. tauto.
  - intros q pa G. rewrite (KEEP _ _ _ _ _ _ A5) in G by discriminate.
    eapply (load_stores odd d "g" (fun _ => True) false); [| | |exact K4| |exact G]; auto.
    + intros m0 b _ HH. unfold IsHashsetUsagePossible in HH. rewrite ahas_touch in HH. replace (ahas "g" m0 || String.eqb "g" "g") with true in HH by (rewrite orb_true_r; reflexivity).
      destruct (aget "r" (touch m0 "g")) as [ram|]; [|congruence]. destruct (aget "r" ram) as [r|]; [|congruence].
      destruct (aget "m" (touch m0 "g")) as [mam|]; [|congruence]. destruct (aget "m" mam) as [ma'|]; [|congruence].
      destruct (remove_equalities odd (a_tokens r) (a_value ma')) as [s|t|u]; cbn [bind] in HH; try congruence. rewrite andb_false_r in HH. congruence.
    + intros k0 a0 G0. rewrite (KEEP _ _ _ _ _ _ A3), (KEEP _ _ _ _ _ _ A2), (KEEP _ _ _ _ _ _ A1) in G0 by discriminate. discriminate G0.
Qed.

(** ** The conjunction of all comparisons *)
Definition clear (s : string) : Prop := every (fun c => c <> " "%char) s.
Lemma clear_split : forall u v s t, clear u -> clear v -> (u ++ String " " s)%string = (v ++ String " " t)%string -> u = v /\ s = t.
Proof.
  induction u as [|c u IH]; intros [|d v] s t U V E; cbn [append] in E.
  - inversion E; auto.
  - inversion E; subst. destruct V as [V _]. congruence.
  - inversion E; subst. destruct U as [U _]. congruence.
  - inversion E; subst. destruct U, V. destruct (IH v s t) as [-> ->]; auto.
Qed.
Lemma clear_end : forall u v t, clear u -> u <> (v ++ String " " t)%string.
Proof.
  induction u as [|c u IH]; intros [|d v] t U E; cbn [append] in E; try discriminate; inversion E; subst; destruct U as [N U]; [congruence|].
  eapply IH; eauto.
Qed.
Lemma simple_clear : forall f, simple_name f -> clear f.
Proof.
  intros f [_ H]. unfold clear. induction f as [|c f IH]; [exact Logic.I|]. destruct H as [N H]. split; [|apply IH; exact H].
  intros ->. apply N. exists "", "=&.". reflexivity.
Qed.
Lemma simple_first : forall c f, simple_name (String c f) -> c <> "="%char /\ c <> "&"%char.
Proof.
  intros c f [_ [N _]]. split; intros ->; apply N.
  - exists " ", "&.". reflexivity.
  - exists " =", ".". reflexivity.
Qed.
(** What follows a piece: the end, or " && " and more. *)
Definition after (R : string) : Prop := R = "" \/ exists t, R = (" && " ++ t)%string.

(** A comparison of [f] that begins in a word: the word is r?f, and "== p?f" follows. *)
Lemma comparison_in : forall f v R x t, simple_name f -> clear v -> v <> "" -> (R = "" \/ exists c R', R = String " " (String c R') /\ (c = "="%char \/ c = "&"%char)) ->
  comparison f x -> (v ++ R)%string = (x ++ t)%string ->
  exists a b, v = String "r" (String a f) /\ R = (" == p" ++ String b (f ++ t))%string.
Proof.
  intros f v R x t SF V NV HR [a [b [_ [_ [_ [_ ->]]]]]] E.
  assert (X : (String "r" (String a (f ++ " == p" ++ String b f)) ++ t)%string = (String "r" (String a f) ++ String " " ("== p" ++ String b (f ++ t)))%string).
  { repeat (rewrite app_s_cons || rewrite sassoc). reflexivity. }
  rewrite X in E. clear X. destruct (ascii_dec a " ") as [->|NA].
  - exfalso. destruct v as [|c v]; [congruence|]. destruct v as [|c2 v].
    + destruct HR as [->|[c0 [R' [-> HC]]]]; [discriminate E|].
      destruct f as [|c1 f]; [destruct SF as [N _]; congruence|]. cbn [append] in E. inversion E; subst.
      destruct (simple_first _ _ SF). destruct HC; congruence.
    + cbn [append] in E. inversion E; subst. destruct V as [_ [V _]]. congruence.
  - assert (C : clear (String "r" (String a f))) by (split; [discriminate|split; [auto|apply simple_clear; auto]]).
    destruct HR as [->|[c [R' [-> HC]]]].
    + exfalso. rewrite snil in E. exact (clear_end _ _ _ V E).
    + destruct (clear_split v (String "r" (String a f)) _ _ V C E) as [-> E2]. exists a, b. split; auto. rewrite E2. reflexivity.
Qed.
Lemma after_shape : forall R, after R -> R = "" \/ exists c R', R = String " " (String c R') /\ (c = "="%char \/ c = "&"%char).
Proof. intros R [->|[t ->]]; auto. right. eexists "&"%char, _. split; [reflexivity|auto]. Qed.

(** Nothing is cut out of a word where no comparison begins in it. *)
Lemma keep_word : forall f w R R', (forall v, v <> "" -> (exists u, w = (u ++ v)%string) -> forall x t, comparison f x -> (v ++ R)%string <> (x ++ t)%string) ->
  cut f R R' -> cut f (w ++ R)%string (w ++ R')%string.
Proof.
  induction w as [|c w IH]; intros R R' N H; auto. rewrite !app_s_cons. constructor.
  - intros x t X. rewrite <- app_s_cons. apply (N (String c w)); [discriminate|exists ""; reflexivity|auto].
  - apply IH; auto. intros v NV [u U]. apply N; auto. exists (String c u). rewrite U. reflexivity.
Qed.
(** ... nor where the word has no r. *)
Lemma keep_no_r : forall f w R R', every (fun c => c <> "r"%char) w -> cut f R R' -> cut f (w ++ R)%string (w ++ R')%string.
Proof.
  induction w as [|c w IH]; intros R R' N H; auto. destruct N as [N1 N]. rewrite !app_s_cons. constructor; auto.
  intros x t [a [b [_ [_ [_ [_ ->]]]]]] E. inversion E. congruence.
Qed.
Lemma clear_app : forall a b, clear (a ++ b)%string <-> clear a /\ clear b.
Proof. intros. apply every_app. Qed.
Lemma names_eq : forall f g c s t, clear f -> clear g -> (s = "" \/ exists s', s = String " " s') -> c = " "%char ->
  (f ++ t)%string = (g ++ s)%string -> exists u, g = (f ++ u)%string.
Proof.
  induction f as [|x f IH]; intros g c s t F G S C E.
  - exists g. reflexivity.
  - destruct F as [NX F]. destruct g as [|y g].
    + exfalso. cbn [append] in E. destruct S as [->|[s' ->]]; inversion E. congruence.
    + cbn [append] in E. inversion E; subst. destruct G as [_ G]. destruct (IH g " "%char s t F G S eq_refl H1) as [u ->]. exists u. reflexivity.
Qed.
Lemma keep_piece : forall f g R R', simple_name f -> simple_name g -> (forall u, g <> (f ++ u)%string) -> after R -> cut f R R' ->
  cut f (compared g ++ R)%string (compared g ++ R')%string.
Proof.
  intros f g R R' SF SG NP A H. unfold compared.
  assert (E : forall R, (("r." ++ g ++ " == p." ++ g) ++ R)%string = (("r." ++ g) ++ (" == p." ++ (g ++ R)))%string).
  { intros R0. rewrite !sassoc. reflexivity. }
  rewrite !E. assert (CG := simple_clear g SG). assert (AR : R = "" \/ exists s', R = String " " s') by (destruct A as [->|[s ->]]; [auto|right; eexists; reflexivity]).
  apply keep_word.
  - intros v NV [u U] x t X Q.
    assert (V : clear v) by (assert (Y : clear ("r." ++ g)%string) by (apply clear_app; split; [repeat split; discriminate|auto]); rewrite U in Y; apply clear_app in Y; tauto).
    destruct (comparison_in f v (" == p." ++ (g ++ R))%string x t SF V NV) as [a [b [_ Q2]]]; auto.
    { right. eexists "="%char, _. split; [reflexivity|auto]. }
    cbn [append] in Q2. inversion Q2 as [[Q3 Q4]]. destruct (names_eq f g " "%char R t (simple_clear f SF) CG AR eq_refl (eq_sym Q4)) as [w ->]. apply (NP w eq_refl).
  - change (" == p." ++ (g ++ R))%string with (" == p." ++ (g ++ R))%string. apply (keep_no_r f " == p." (g ++ R) (g ++ R')).
    { repeat split; discriminate. }
    apply keep_word; auto. intros v NV [u U] x t X Q.
    assert (V : clear v) by (rewrite U in CG; apply clear_app in CG; tauto).
    destruct (comparison_in f v R x t SF V NV (after_shape R A) X Q) as [a [b [_ Q2]]].
    destruct A as [->|[s ->]]; inversion Q2.
Qed.
Lemma cut_piece : forall f R R', cut f R R' -> cut f (compared f ++ R)%string R'.
Proof.
  intros f R R' H. apply cut_out; auto. exists "."%char, "."%char. repeat split; try discriminate.
Qed.
Lemma keep_and : forall f R R', cut f R R' -> cut f (" && " ++ R)%string (" && " ++ R')%string.
Proof. intros f R R' H. apply keep_no_r; auto. repeat split; discriminate. Qed.

(** The text when some comparisons are already cut out. *)
Definition piece (p : option string) : string := match p with Some g => compared g | None => "" end.
Fixpoint glued (ps : list (option string)) : string :=
  match ps with
  | [] => ""
  | [p] => piece p
  | p :: ps' => (piece p ++ " && " ++ glued ps')%string
  end.
Definition cross (f : string) (p : option string) : option string :=
  match p with Some g => if String.eqb g f then None else Some g | None => None end.
Lemma cut_glued : forall f ps, simple_name f -> (forall g, In (Some g) ps -> simple_name g /\ forall u, g = (f ++ u)%string -> u = "") ->
  cut f (glued ps) (glued (map (cross f) ps)).
Proof.
  intros f ps SF. induction ps as [|p ps IH]; intros H; [constructor|].
  assert (P : forall R R', after R -> cut f R R' -> cut f (piece p ++ R)%string (piece (cross f p) ++ R')%string).
  { intros R R' A C. destruct p as [g|]; [|exact C]. cbn [cross piece]. destruct (String.eqb_spec g f) as [->|N]; [apply cut_piece; auto|].
    destruct (H g (or_introl eq_refl)) as [SG NP]. apply keep_piece; auto. intros u ->. rewrite (NP u eq_refl), snil in N. auto. }
  destruct ps as [|q ps].
  - cbn [glued map]. rewrite <- (snil (piece p)), <- (snil (piece (cross f p))). apply P; [left; reflexivity|constructor].
  - cbn [glued map]. apply P; [right; eexists; reflexivity|]. apply keep_and. apply IH. intros g G. apply H. right. exact G.
Qed.
Lemma cut_all_glued : forall fs ps, Forall simple_name fs ->
  (forall f g, In f fs -> In (Some g) ps -> simple_name g /\ forall u, g = (f ++ u)%string -> u = "") ->
  cut_all fs (glued ps) (glued (fold_left (fun ps f => map (cross f) ps) fs ps)).
Proof.
  induction fs as [|f fs IH]; intros ps S H; [constructor|]. inversion S; subst. cbn [fold_left]. econstructor.
  - apply cut_glued; auto. intros g G. apply H; auto. left. auto.
  - apply IH; auto. intros f' g F G. apply H; [right; auto|]. apply in_map_iff in G. destruct G as [p [E G]].
    destruct p as [g'|]; [|discriminate]. cbn [cross] in E. destruct (String.eqb g' f); inversion E; subst. auto.
Qed.
Lemma glued_all : forall gs, glued (map Some gs) = conjunction gs.
Proof. induction gs as [|g gs IH]; auto. destruct gs as [|h gs]; [reflexivity|]. 
  change (compared g ++ " && " ++ glued (map Some (h :: gs)) = compared g ++ " && " ++ conjunction (h :: gs))%string. rewrite IH. reflexivity.
Qed.
Lemma crossed : forall fs ps, (forall p, In p ps -> p = None \/ exists g, p = Some g /\ In g fs) ->
  fold_left (fun ps f => map (cross f) ps) fs ps = map (fun _ => None) ps.
Proof.
  induction fs as [|f fs IH]; intros ps H.
  - cbn [fold_left]. rewrite <- (map_id ps) at 1. apply map_ext_in. intros p P. destruct (H p P) as [->|[g [_ []]]]. reflexivity.
  - cbn [fold_left]. rewrite IH.
    + rewrite map_map. reflexivity.
    + intros p P. apply in_map_iff in P. destruct P as [q [<- Q]]. destruct (H q Q) as [->|[g [-> G]]]; [left; reflexivity|].
      cbn [cross]. destruct (String.eqb_spec g f); auto. right. exists g. split; auto. destruct G; [congruence|auto].
Qed.
Lemma glued_none : forall (ps : list (option string)), glued (map (fun _ => None) ps) = ands (List.length ps - 1).
Proof.
  induction ps as [|p ps IH]; auto. destruct ps as [|q ps]; [reflexivity|]. 
  change (" && " ++ glued (map (fun _ => None) (q :: ps)) = ands (S (List.length ps)))%string. rewrite IH.
  cbn [List.length Nat.sub]. rewrite Nat.sub_0_r. reflexivity.
Qed.
Lemma conjunction_cut : forall fs gs, Forall simple_name fs -> prefix_free fs -> (forall g, In g gs -> In g fs) ->
  cut_all fs (conjunction gs) (ands (List.length gs - 1)).
Proof.
  intros fs gs S PF I. rewrite <- glued_all. replace (List.length gs) with (List.length (map (@Some string) gs)) by apply map_length.
  rewrite <- glued_none, <- (crossed fs (map Some gs)).
  - apply cut_all_glued; auto. intros f g F G. apply in_map_iff in G. destruct G as [g' [E G]]. inversion E; subst.
    rewrite Forall_forall in S. split; auto. intros u U. apply (PF f u F). rewrite <- U. auto.
  - intros p P. apply in_map_iff in P. destruct P as [g [<- G]]. right. eauto.
Qed.
