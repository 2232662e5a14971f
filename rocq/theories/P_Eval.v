(** Proofs about eval(...) and the escaping of dots. *)
From Verif Require Import Base P_Base M_Eval S_Text S_Eval P_Text.

Lemma lower_is : forall c d, is_upper d = false -> to_lower c = d -> c = d \/ (is_upper c = true /\ c = ascii_of_nat (nat_of_ascii d - 32)).
Proof.
  intros c d U H. unfold to_lower in H. destruct (is_upper c) eqn:E; auto. right. split; auto. subst d.
  unfold is_upper in E. apply andb_true_iff in E. destruct E as [E1 E2]. apply Nat.leb_le in E1, E2.
  rewrite nat_ascii_embedding by lia. replace (nat_of_ascii c + 32 - 32) with (nat_of_ascii c) by lia. rewrite ascii_nat_embedding. auto.
Qed.
Lemma iprefix_opens : forall s, iprefix "eval(" s = true <-> exists ev rest, opens ev /\ s = (ev ++ rest)%string.
Proof.
  intros s. split.
  - destruct s as [|c1 [|c2 [|c3 [|c4 [|c5 s]]]]]; cbn [iprefix]; rewrite ?andb_false_r; try discriminate.
    rewrite !andb_true_iff, !Ascii.eqb_eq. intros [H1 [H2 [H3 [H4 [H5 _]]]]]. symmetry in H1, H2, H3, H4, H5.
    apply lower_is in H1; [|reflexivity]. apply lower_is in H2; [|reflexivity]. apply lower_is in H3; [|reflexivity].
    apply lower_is in H4; [|reflexivity]. apply lower_is in H5; [|reflexivity].
    assert (c5 = "("%char). { destruct H5 as [->|[U ->]]; auto. vm_compute in U. discriminate. } subst.
    exists (String c1 (String c2 (String c3 (String c4 "(")))), s. split; auto. exists c1, c2, c3, c4. split; auto.
    change (ascii_of_nat (nat_of_ascii "e" - 32)) with "E"%char in *. change (ascii_of_nat (nat_of_ascii "v" - 32)) with "V"%char in *.
    change (ascii_of_nat (nat_of_ascii "a" - 32)) with "A"%char in *. change (ascii_of_nat (nat_of_ascii "l" - 32)) with "L"%char in *. tauto.
  - intros [ev [rest [[c1 [c2 [c3 [c4 [-> [H1 [H2 [H3 H4]]]]]]]] ->]]].
    destruct H1, H2, H3, H4; subst; reflexivity.
Qed.
Lemma opens_len : forall ev, opens ev -> String.length ev = 5.
Proof. intros ev [c1 [c2 [c3 [c4 [-> _]]]]]. reflexivity. Qed.

(** The text up to and including the parenthesis. *)
Lemma stake_snoc : forall a c b, stake (S (String.length a)) (a ++ String c b)%string = (a ++ String c "")%string.
Proof. induction a; intros; [destruct b; reflexivity|]. cbn [String.length append]. cbn [stake]. f_equal. apply IHa. Qed.
Lemma stake_len : forall n s, n <= String.length s -> String.length (stake n s) = n.
Proof. induction n; destruct s; simpl; intros; auto; try lia. rewrite IHn; auto; lia. Qed.
Lemma eval_here_some : forall s m, eval_here s = Some m -> exists ev, starts_call s ev (em_key m) (em_suffix m) /\
  em_prefix m = "" /\ em_text m = (ev ++ em_key m ++ ")")%string.
Proof.
  intros s m. unfold eval_here. destruct (iprefix "eval(" s) eqn:I; [|discriminate]. apply iprefix_opens in I. destruct I as [ev [rest [O ->]]].
  pose proof (opens_len ev O) as L. rewrite <- L, sdrop_app, stake_app. destruct (close_paren rest) as [k|] eqn:C; [|discriminate].
  intros H. inversion H; subst; clear H. cbn [em_key em_suffix em_prefix em_text].
  unfold close_paren in C. apply sfind_some in C. destruct C as [LE [E M]]. cbn [String.length] in E. rewrite Nat.add_1_r in E.
  exists ev. split; [|split; auto].
  - split; [|split; auto].
    + f_equal. exact E.
    + intros [a [b Q]]. assert (E' := E). rewrite Q in E'. rewrite !app_assoc_s in E'. apply M in E'. assert (LK := f_equal String.length Q).
      rewrite !length_app_s in LK. simpl in LK. lia.
  - f_equal. assert (Q := stake_snoc (stake k rest) ")"%char (sdrop (S k) rest)). rewrite (stake_len k rest LE) in Q.
    rewrite <- Q. exact (f_equal (stake (S k)) E).
Qed.
Lemma starts_call_unique : forall s ev key rest ev' key' rest', starts_call s ev key rest -> starts_call s ev' key' rest' ->
  ev = ev' /\ key = key' /\ rest = rest'.
Proof.
  intros s ev key rest ev' key' rest' [E [O K]] [E' [O' K']].
  assert (C : forall x y u v, String.length x = String.length y -> (x ++ u)%string = (y ++ v)%string -> x = y /\ u = v).
  { induction x; destruct y; simpl; intros; try discriminate; auto. inversion H0; subst. destruct (IHx y u v); auto. subst. auto. }
  rewrite E in E'. apply C in E'; [|rewrite !opens_len; auto]. destruct E' as [-> E']. split; auto.
  destruct (first_occurrence_unique ")" (key ++ ")" ++ rest) key rest key' rest'); auto; try discriminate.
  - split; auto. intros a b H. destruct (le_lt_dec (String.length key) (String.length a)); auto. exfalso.
    symmetry in H. assert (H2 : ((a ++ ")") ++ b)%string = (key ++ ")" ++ rest)%string) by (rewrite app_assoc_s; exact H).
    apply app_cmp in H2; [|rewrite length_app_s; simpl; lia]. destruct H2 as [m [-> _]]. apply K. exists a, m. rewrite app_assoc_s. auto.
  - split; auto. rewrite E'. intros a b H. destruct (le_lt_dec (String.length key') (String.length a)); auto. exfalso.
    symmetry in H. assert (H2 : ((a ++ ")") ++ b)%string = (key' ++ ")" ++ rest')%string) by (rewrite app_assoc_s; exact H).
    apply app_cmp in H2; [|rewrite length_app_s; simpl; lia]. destruct H2 as [m [-> _]]. apply K'. exists a, m. rewrite app_assoc_s. auto.
Qed.
Lemma eval_here_none : forall s, eval_here s = None -> ~ call_here s.
Proof.
  intros s H [ev [key [rest [E [O K]]]]]. unfold eval_here in H. assert (I : iprefix "eval(" s = true) by (apply iprefix_opens; eauto).
  rewrite I in H. subst s. rewrite <- (opens_len ev O), sdrop_app in H. unfold close_paren in H.
  destruct (sfind ")" (key ++ ")" ++ rest)) eqn:F; [discriminate|]. apply sfind_none in F; [|discriminate]. apply F. exists key, rest. auto.
Qed.

(** The search finds the leftmost call. *)
Fixpoint no_call_in (w : bool) (pre s : string) : Prop :=
  match pre with
  | EmptyString => True
  | String c pre' => (w = true \/ ~ call_here (String c (pre' ++ s))) /\ no_call_in (is_word c) pre' s
  end.
Fixpoint word_after (w : bool) (pre : string) : bool := match pre with EmptyString => w | String c pre' => word_after (is_word c) pre' end.
Lemma search_some : forall s w m, eval_search w s = Some m -> exists t ev, s = (em_prefix m ++ t)%string /\
  starts_call t ev (em_key m) (em_suffix m) /\ em_text m = (ev ++ em_key m ++ ")")%string /\
  no_call_in w (em_prefix m) t /\ word_after w (em_prefix m) = false.
Proof.
  induction s; intros w m H; cbn [eval_search] in H.
  - destruct w; [discriminate|]. destruct (eval_here "") eqn:E; [|discriminate]. vm_compute in E. discriminate.
  - destruct (if w then None else eval_here (String a s)) as [m0|] eqn:E.
    + destruct w; [discriminate|]. inversion H; subst. destruct (eval_here_some _ _ E) as [ev [S [P T]]]. exists (String a s), ev. rewrite P. simpl. auto.
    + destruct (eval_search (is_word a) s) as [m1|] eqn:Q; [|discriminate]. inversion H; subst; clear H. cbn [em_prefix em_key em_text em_suffix].
      destruct (IHs _ _ Q) as [t [ev [E1 [S [T [N W]]]]]]. exists t, ev. rewrite E1. split; auto. split; auto. split; auto. split; auto.
      simpl. split; auto. rewrite <- E1. destruct w; auto. right. apply eval_here_none. auto.
Qed.
Lemma search_none : forall s w, eval_search w s = None -> no_call_in w s "".
Proof.
  induction s; intros w H; simpl; auto. cbn [eval_search] in H.
  destruct (if w then None else eval_here (String a s)) as [m0|] eqn:E; [discriminate|].
  destruct (eval_search (is_word a) s) eqn:Q; [discriminate|]. split; auto. rewrite app_nil_r_s. destruct w; auto. right. apply eval_here_none. auto.
Qed.

Lemma replaced_prefix : forall val pre w s out, no_call_in w pre s -> replaced val (word_after w pre) s out ->
  replaced val w (pre ++ s)%string (pre ++ out)%string.
Proof. induction pre; simpl; intros; auto. destruct H. apply rep_char; auto. Qed.
Lemma replace_loop_spec : forall sets fuel s, String.length s <= fuel -> replaced (fun k => aget k sets) false s (replace_loop fuel s sets).
Proof.
  intros sets. induction fuel; intros s L.
  - destruct s; [|simpl in L; lia]. constructor.
  - cbn [replace_loop]. destruct (eval_search false s) as [m|] eqn:E.
    + destruct (search_some _ _ _ E) as [t [ev [E1 [SC [T [N W]]]]]]. rewrite E1.
      replace (match aget (em_key m) sets with None => em_text m | Some v => v end)
        with (match aget (em_key m) sets with Some v => v | None => (ev ++ em_key m ++ ")")%string end) by (destruct (aget (em_key m) sets); auto).
      apply replaced_prefix; auto. rewrite W. eapply (rep_call (fun k => aget k sets)); eauto. apply IHfuel.
      destruct SC as [SC [O _]]. rewrite E1, SC, !length_app_s in L. simpl in L. rewrite (opens_len _ O) in L. lia.
    + assert (R := replaced_prefix (fun k => aget k sets) s false "" "" (search_none _ _ E)). rewrite app_nil_r_s in R. apply R. constructor.
Qed.
Lemma keys_prefix : forall pre w s l, no_call_in w pre s -> eval_keys (word_after w pre) s l -> eval_keys w (pre ++ s)%string l.
Proof. induction pre; simpl; intros; auto. destruct H. apply keys_char; auto. Qed.
Lemma values_loop_spec : forall fuel s, String.length s <= fuel -> eval_keys false s (values_loop fuel s).
Proof.
  induction fuel; intros s L.
  - destruct s; [|simpl in L; lia]. constructor.
  - cbn [values_loop]. destruct (eval_search false s) as [m|] eqn:E.
    + destruct (search_some _ _ _ E) as [t [ev [E1 [SC [T [N W]]]]]]. rewrite E1.
      apply keys_prefix; auto. rewrite W. eapply keys_call; eauto. apply IHfuel.
      destruct SC as [SC [O _]]. rewrite E1, SC, !length_app_s in L. simpl in L. rewrite (opens_len _ O) in L. lia.
    + assert (R := keys_prefix s false "" [] (search_none _ _ E)). rewrite app_nil_r_s in R. apply R. constructor.
Qed.
Lemma replaced_unique : forall val w s out, replaced val w s out -> forall out', replaced val w s out' -> out = out'.
Proof.
  intros val w s out H. induction H; intros out' H'.
  - inversion H'; subst; auto. destruct H as [H [O _]]. destruct O as [c1 [c2 [c3 [c4 [-> _]]]]]. discriminate.
  - inversion H'; subst.
    + destruct H as [H [O _]]. destruct O as [c1 [c2 [c3 [c4 [-> _]]]]]. discriminate.
    + destruct (starts_call_unique _ _ _ _ _ _ _ H H1) as [-> [-> ->]]. f_equal. auto.
    + destruct H1 as [|N]; [discriminate|]. exfalso. apply N. do 3 eexists. eauto.
  - inversion H'; subst.
    + destruct H as [|N]; [discriminate|]. exfalso. apply N. do 3 eexists. eauto.
    + f_equal. auto.
Qed.
Lemma keys_unique : forall w s l, eval_keys w s l -> forall l', eval_keys w s l' -> l = l'.
Proof.
  intros w s l H. induction H; intros l' H'.
  - inversion H'; subst; auto. destruct H as [H [O _]]. destruct O as [c1 [c2 [c3 [c4 [-> _]]]]]. discriminate.
  - inversion H'; subst.
    + destruct H as [H [O _]]. destruct O as [c1 [c2 [c3 [c4 [-> _]]]]]. discriminate.
    + destruct (starts_call_unique _ _ _ _ _ _ _ H H1) as [-> [-> ->]]. f_equal. auto.
    + destruct H1 as [|N]; [discriminate|]. exfalso. apply N. do 3 eexists. eauto.
  - inversion H'; subst; auto. destruct H as [|N]; [discriminate|]. exfalso. apply N. do 3 eexists. eauto.
Qed.
Lemma HasEval_keys : forall s, HasEval s = true <-> exists k l, eval_keys false s (k :: l).
Proof.
  intros s. unfold HasEval. assert (K := values_loop_spec (String.length s) s (Nat.le_refl _)).
  split.
  - intros H. destruct (eval_search false s) as [m|] eqn:E; [|discriminate].
    destruct s; [vm_compute in E; discriminate|]. simpl String.length in K. cbn [values_loop] in K. rewrite E in K. eauto.
  - intros [k [l H]]. destruct (eval_search false s) as [m|] eqn:E; auto.
    assert (R := keys_prefix s false "" [] (search_none _ _ E)). rewrite app_nil_r_s in R.
    assert (Q : k :: l = []) by (eapply keys_unique; [exact H|apply R; constructor]). discriminate.
Qed.

Lemma replaced_ext : forall val val' w s out, replaced val w s out -> forall l, eval_keys w s l -> (forall k, In k l -> val k = val' k) ->
  replaced val' w s out.
Proof.
  intros val val' w s out H. induction H; intros l K E.
  - constructor.
  - inversion K; subst.
    + destruct H as [H [O _]]. destruct O as [c1 [c2 [c3 [c4 [-> _]]]]]. discriminate.
    + destruct (starts_call_unique _ _ _ _ _ _ _ H H1) as [-> [-> ->]]. rewrite (E key0) by (simpl; auto).
      eapply (rep_call val'); eauto. eapply IHreplaced; eauto. intros k I. apply E. right. auto.
    + destruct H1 as [|N]; [discriminate|]. exfalso. apply N. do 3 eexists. eauto.
  - inversion K; subst.
    + destruct H as [|N]; [discriminate|]. exfalso. apply N. do 3 eexists. eauto.
    + constructor; auto. eapply IHreplaced; eauto.
Qed.

(** ** Escaping *)
Fixpoint seen_after (seen : bool) (a : string) : bool :=
  match a with
  | EmptyString => seen
  | String c a' => seen_after (if esc_class c then if Ascii.eqb c "." then true else seen else false) a'
  end.
Lemma escape_app : forall a seen b, escape_aux seen (a ++ b)%string = (escape_aux seen a ++ escape_aux (seen_after seen a) b)%string.
Proof.
  induction a as [|c a IH]; intros; auto. cbn [append escape_aux seen_after]. destruct (esc_class c) eqn:C.
  - destruct (Ascii.eqb c ".") eqn:D; cbn [andb].
    + destruct seen; cbn [negb]; rewrite IH; auto.
    + rewrite IH; auto.
  - rewrite IH. auto.
Qed.
Lemma escape_len : forall s seen, String.length (escape_aux seen s) = String.length s.
Proof. induction s; intros; simpl; auto. destruct (esc_class a); [destruct (Ascii.eqb a "." && negb seen)|]; simpl; auto. Qed.
Lemma seen_snoc : forall a seen c, seen_after seen (a ++ String c "")%string =
  if esc_class c then if Ascii.eqb c "." then true else seen_after seen a else false.
Proof. induction a; intros; simpl; auto. Qed.
Lemma string_rev_ind : forall P : string -> Prop, P "" -> (forall a c, P a -> P (a ++ String c "")%string) -> forall s, P s.
Proof.
  intros P H0 HS s. remember (String.length s) as n eqn:L. revert s L. induction n; intros s L.
  - destruct s; [auto|discriminate].
  - destruct (snoc_cases s) as [->|[r [c ->]]]; auto. apply HS. apply IHn. rewrite length_app_s in L. simpl in L. lia.
Qed.
Lemma esc_class_run : forall c, esc_class c = true <-> run_char c \/ c = "."%char.
Proof. intros. unfold esc_class, run_char. rewrite !orb_true_iff, !Ascii.eqb_eq. tauto. Qed.
Lemma dot_not_run : ~ run_char ".".
Proof. intros [H|H]; discriminate. Qed.
Lemma seen_spec : forall a, seen_after false a = false <-> in_fresh_run a.
Proof.
  apply (string_rev_ind (fun a => seen_after false a = false <-> in_fresh_run a)).
  - simpl. split; auto. intros _. exists "", "". simpl. auto.
  - intros a c IH. rewrite seen_snoc. destruct (esc_class c) eqn:C.
    + destruct (Ascii.eqb_spec c ".") as [->|D].
      * split; [discriminate|]. intros [a1 [a2 [E [R M]]]]. exfalso. destruct (snoc_cases a2) as [->|[r [d ->]]].
        -- rewrite app_nil_r_s in E. subst a1. destruct M as [M|[b [d [M [N1 N2]]]]]; [destruct a; discriminate|]. apply snoc_inj in M. destruct M as [_ <-]. congruence.
        -- rewrite <- app_assoc_s in E. apply snoc_inj in E. destruct E as [_ <-]. apply every_app in R. simpl in R. apply dot_not_run. tauto.
      * assert (RC : run_char c) by (apply esc_class_run in C; tauto). rewrite IH. split.
        -- intros [a1 [a2 [-> [R M]]]]. exists a1, (a2 ++ String c "")%string. rewrite app_assoc_s. split; auto. split; auto. apply every_app. simpl. auto.
        -- intros [a1 [a2 [E [R M]]]]. destruct (snoc_cases a2) as [->|[r [d ->]]].
           ++ rewrite app_nil_r_s in E. subst a1. destruct M as [M|[b [d [M [N1 N2]]]]]; [destruct a; discriminate|]. apply snoc_inj in M. destruct M as [_ <-]. contradiction.
           ++ rewrite <- app_assoc_s in E. apply snoc_inj in E. destruct E as [-> _]. exists a1, r. apply every_app in R. tauto.
    + split; auto. intros _. exists (a ++ String c "")%string, "". rewrite app_nil_r_s. simpl. split; auto. split; auto. right. exists a, c. split; auto.
      assert (NC : ~ (run_char c \/ c = "."%char)) by (rewrite <- esc_class_run; congruence). tauto.
Qed.
Lemma sget_split : forall i s c, sget i s = Some c -> s = (stake i s ++ String c (sdrop (S i) s))%string /\ String.length (stake i s) = i.
Proof.
  induction i; destruct s; simpl; intros; try discriminate.
  - inversion H; subst. auto.
  - destruct (IHi s c H) as [E L]. split; [exact (f_equal (String a) E)|congruence].
Qed.
Lemma sget_mid : forall a c b, sget (String.length a) (a ++ String c b)%string = Some c.
Proof. induction a; simpl; auto. Qed.
Lemma sget_prefix : forall a b i, i < String.length a -> sget i (a ++ b)%string = sget i a.
Proof. induction a; simpl; intros; [lia|]. destruct i; auto. apply IHa. lia. Qed.
Lemma escape_at : forall s i c, sget i s = Some c ->
  (c = "."%char -> in_fresh_run (stake i s) -> sget i (EscapeAssertion s) = Some "_"%char) /\
  (~ (c = "."%char /\ in_fresh_run (stake i s)) -> sget i (EscapeAssertion s) = Some c).
Proof.
  intros s i c H. destruct (sget_split i s c H) as [E L]. set (a := stake i s) in *.
  assert (K : forall d r, escape_aux (seen_after false a) (String c (sdrop (S i) s)) = String d r -> sget i (EscapeAssertion s) = Some d).
  { intros d r Q. assert (Z : EscapeAssertion s = (escape_aux false a ++ String d r)%string).
    { rewrite <- Q. rewrite <- escape_app. unfold EscapeAssertion. f_equal. exact E. }
    rewrite Z. rewrite <- L. rewrite <- (escape_len a false). apply sget_mid. }
  cbn [escape_aux] in K. destruct (esc_class c) eqn:C.
  - destruct (Ascii.eqb_spec c ".") as [->|D]; cbn [andb] in K.
    + destruct (seen_after false a) eqn:SA; cbn [negb] in K; split; intros; try (eapply K; reflexivity).
      * exfalso. apply seen_spec in H1. congruence.
      * exfalso. apply H0. split; auto. apply seen_spec. auto.
    + split; intros; [congruence|eapply K; reflexivity].
  - split; [intros Hc; rewrite Hc in C; discriminate|intros; eapply K; reflexivity].
Qed.
Lemma escape_lacks : forall s seen, lacks "." s -> escape_aux seen s = s.
Proof.
  induction s; intros seen L; simpl; auto.
  assert (L' : lacks "." s). { intros [x [y ->]]. apply L. exists (String a x), y. auto. }
  destruct (Ascii.eqb_spec a ".") as [->|D]. { exfalso. apply L. exists "", s. auto. }
  simpl. destruct (esc_class a); rewrite IHs; auto.
Qed.
