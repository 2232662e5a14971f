(** Proofs about the reader of model files. *)
From Verif Require Import Base M_Util M_Model M_Persist M_Config S_Text S_Config P_Base P_Text.

(** ** Lines *)
Lemma drop_last_snoc : forall l x, drop_last_empty (l ++ [x]) = if String.eqb x "" then l else l ++ [x].
Proof.
  induction l as [|a l IH]; intros; simpl.
  - destruct (String.eqb x ""); auto.
  - destruct (l ++ [x]) as [|b t] eqn:E; [destruct l; discriminate|]. rewrite <- E, IH. destruct (String.eqb x ""); auto.
Qed.
Lemma newline_ne : String nl "" <> "".
Proof. discriminate. Qed.
Lemma getlines_spec : forall c, text_lines c (getlines c).
Proof.
  intros c. unfold getlines. pose proof (Split_spec (String nl "") c newline_ne) as S.
  pose proof (splits_glue _ _ _ S) as [_ N].
  destruct (exists_last N) as [l [x E]]. rewrite E in *. rewrite drop_last_snoc.
  destruct (String.eqb_spec x "").
  - left. exists x. auto.
  - right. split; auto. rewrite last_last. auto.
Qed.
Lemma text_lines_unique : forall c l, text_lines c l -> l = getlines c.
Proof.
  intros c l [[x [S E]]|[S N]]; unfold getlines.
  - rewrite (Split_unique _ _ _ newline_ne S), drop_last_snoc. subst. auto.
  - pose proof (splits_glue _ _ _ S) as [_ NE]. rewrite (Split_unique _ _ _ newline_ne S).
    destruct (exists_last NE) as [t [x E]]. subst. rewrite drop_last_snoc. rewrite last_last in N.
    destruct (String.eqb_spec x ""); congruence.
Qed.

(** ** What a line is read as *)
Definition read_line (l : string) : option item :=
  if String.eqb l "" then Some Nothing
  else
    let t := Trim l in
    if String.prefix "#" t then Some Nothing
    else if String.prefix ";" t then Some Nothing
    else match (if String.prefix "[" t then EndsWith t "]" else Ok false) with
         | Ok true => Some (Heading (stake (String.length t - 2) (sdrop 1 t)))
         | Ok false => match Split t "=" (Some 1) with
                       | [o; v] => Some (Setting (Trim o) (Trim v))
                       | _ => None
                       end
         | _ => None
         end.
Lemma begins_prefix : forall c s, String.prefix (String c "") s = true <-> begins c s.
Proof.
  intros. rewrite prefix_app. unfold begins. reflexivity.
Qed.
Lemma sdrop_app : forall a b, sdrop (String.length a) (a ++ b)%string = b.
Proof. induction a; simpl; auto. Qed.
Lemma stake_app : forall a b, stake (String.length a) (a ++ b)%string = a.
Proof. induction a; simpl; intros; auto. f_equal; auto. Qed.
Lemma slen_app : forall a b, String.length (a ++ b)%string = String.length a + String.length b.
Proof. induction a; simpl; intros; auto. Qed.
Lemma EndsWith_bracket : forall c s, exists b, EndsWith (String c s) "]" = Ok b /\
  (b = true <-> exists r, String c s = (r ++ "]")%string).
Proof.
  intros c s. unfold EndsWith. replace (Nat.ltb (String.length (String c s)) (String.length "]")) with false.
  2: { symmetry. apply Nat.ltb_ge. simpl. lia. }
  eexists. split; [reflexivity|]. destruct (snoc_cases (String c s)) as [E|[r [d E]]]; [discriminate|].
  rewrite E. rewrite slen_app. simpl String.length. replace (String.length r + 1 - 1) with (String.length r) by lia.
  rewrite sdrop_app. cbn [stake]. destruct (String.eqb_spec (String d "") "]") as [X|X].
  - split; intros; auto. rewrite X in *. eauto.
  - split; [discriminate|]. intros [r' R]. apply snoc_inj in R. destruct R as [_ R]. subst. congruence.
Qed.
Lemma heading_test : forall t, ((if String.prefix "[" t then EndsWith t "]" else Ok false) = Ok true /\
                                exists s, is_heading t s /\ stake (String.length t - 2) (sdrop 1 t) = s) \/
                               ((if String.prefix "[" t then EndsWith t "]" else Ok false) = Ok false /\ forall s, ~ is_heading t s).
Proof.
  intros t. unfold is_heading. destruct (String.prefix "[" t) eqn:P.
  - apply begins_prefix in P. destruct P as [u U]. subst. destruct (EndsWith_bracket "[" u) as [b [E B]]. rewrite E.
    destruct b.
    + left. split; auto. destruct B as [B _]. destruct (B eq_refl) as [r R].
      destruct r as [|c r]; [simpl in R; discriminate|]. simpl in R. injection R as <- ->. exists r. split; auto.
      simpl. rewrite slen_app. simpl. replace (String.length r + 1 - 1) with (String.length r) by lia. apply stake_app.
    + right. split; auto. intros s S. assert (false = true); [|discriminate]. apply B. exists ("[" ++ s)%string. auto.
  - right. split; auto. intros s S. subst. simpl in P. destruct s; discriminate.
Qed.
Lemma split1_aux : forall s cur, (lacks "=" s /\ split_aux "=" (Some 1) 0 cur s = [(cur ++ s)%string]) \/
  (exists a b, s = (a ++ "=" ++ b)%string /\ lacks "=" a /\ split_aux "=" (Some 1) 0 cur s = [(cur ++ a)%string; b]).
Proof.
  induction s as [|c s IH]; intros cur.
  - left. split; [apply occurs_nil; discriminate|]. simpl. rewrite app_nil_r_s. auto.
  - cbn [split_aux]. destruct (String.prefix "=" (String c s)) eqn:P.
    + right. apply begins_prefix in P. destruct P as [u U]. injection U as -> ->. exists "", u. simpl.
      split; auto. split; [apply occurs_nil; discriminate|]. rewrite app_nil_r_s. f_equal.
      destruct u; auto.
    + destruct (IH (cur ++ String c "")%string) as [[L E]|[a [b [-> [L E]]]]].
      * left. rewrite E, app_snoc_s. split; auto. intros O. apply occurs_cons in O. destruct O as [O|O]; auto.
        apply (proj2 (prefix_app "=" _)) in O. congruence.
      * right. exists (String c a), b. rewrite E, app_snoc_s. repeat split; auto.
        intros O. apply occurs_cons in O. destruct O as [[z Z]|O]; auto. injection Z as Zc Za. subst c. apply prefix_false in P. apply P. eexists. reflexivity.
Qed.
Lemma split1 : forall s, (lacks "=" s /\ Split s "=" (Some 1) = [s]) \/
  (exists a b, s = (a ++ "=" ++ b)%string /\ lacks "=" a /\ Split s "=" (Some 1) = [a; b]).
Proof. intros s. exact (split1_aux s ""). Qed.
Lemma cut_unique : forall a b a' b', (a ++ "=" ++ b)%string = (a' ++ "=" ++ b')%string -> lacks "=" a -> lacks "=" a' -> a = a' /\ b = b'.
Proof.
  induction a as [|c a IH]; intros b a' b' E L L'; destruct a' as [|c' a']; simpl in E.
  - injection E as ->. auto.
  - injection E as <- E. exfalso. apply L'. exists "", a'. auto.
  - injection E as -> E. exfalso. apply L. exists "", a. auto.
  - injection E as -> E. destruct (IH b a' b'); auto.
    + intros [x [y O]]. apply L. exists (String c' x), y. subst. auto.
    + intros [x [y O]]. apply L'. exists (String c' x), y. subst. auto.
    + subst. auto.
Qed.
Lemma is_setting_test : forall t o v, is_setting t o v <-> exists a b, Split t "=" (Some 1) = [a; b] /\ o = Trim a /\ v = Trim b.
Proof.
  intros t o v. split.
  - intros [a [b [E [L [A B]]]]]. destruct (split1 t) as [[N _]|[a' [b' [E' [L' S]]]]].
    + exfalso. apply N. exists a, b. auto.
    + rewrite E in E'. destruct (cut_unique _ _ _ _ E' L L') as [<- <-]. exists a, b. split; auto.
      split; symmetry; apply Trim_unique; auto.
  - intros [a [b [S [-> ->]]]]. destruct (split1 t) as [[N X]|[a' [b' [E [L X]]]]]; rewrite X in S; inversion S; subst.
    exists a, b. split; auto. split; auto. split; apply Trim_spec.
Qed.
Lemma says_read : forall l it, says l it <-> read_line l = Some it.
Proof.
  intros l it. unfold read_line. split.
  - intros S. destruct S as [E|t N T C|t s T H|t o v T C H S].
    + subst. auto.
    + destruct (String.eqb_spec l ""); auto. rewrite (Trim_unique _ _ T). destruct C as [C|C]; apply begins_prefix in C.
      * rewrite C. auto.
      * destruct (String.prefix "#" t); auto. rewrite C. auto.
    + destruct (String.eqb_spec l "").
      { subst. assert (t = ""). { symmetry. apply (trimmed_unique blank ""); [apply (Trim_spec "")|auto]. } subst. discriminate. }
      rewrite (Trim_unique _ _ T). unfold is_heading in H.
      destruct (String.prefix "#" t) eqn:P1; [apply begins_prefix in P1; destruct P1 as [u U]; subst; discriminate|].
      destruct (String.prefix ";" t) eqn:P2; [apply begins_prefix in P2; destruct P2 as [u U]; subst; discriminate|].
      destruct (heading_test t) as [[E [s' [I X]]]|[E N]]; [|exfalso; eapply N; exact H].
      rewrite E, X. f_equal. f_equal. unfold is_heading in I. rewrite H in I. simpl in I. injection I as I.
      apply snoc_inj in I. symmetry. tauto.
    + destruct (String.eqb_spec l "").
      { subst. assert (t = ""). { symmetry. apply (trimmed_unique blank ""); [apply (Trim_spec "")|auto]. } subst.
        destruct S as [a [b [E _]]]. destruct a; discriminate. }
      rewrite (Trim_unique _ _ T).
      destruct (String.prefix "#" t) eqn:P1; [exfalso; apply C; left; apply begins_prefix; auto|].
      destruct (String.prefix ";" t) eqn:P2; [exfalso; apply C; right; apply begins_prefix; auto|].
      destruct (heading_test t) as [[E [s' [I X]]]|[E N]]; [exfalso; eapply H; exact I|]. rewrite E.
      apply is_setting_test in S. destruct S as [a [b [S [-> ->]]]]. rewrite S. auto.
  - destruct (String.eqb_spec l ""); [intros E; injection E as <-; apply says_empty; auto|].
    pose proof (Trim_spec l) as T. set (t := Trim l) in *.
    destruct (String.prefix "#" t) eqn:P1.
    { intros E; injection E as <-. apply (says_comment l t); auto. left. apply begins_prefix. auto. }
    destruct (String.prefix ";" t) eqn:P2.
    { intros E; injection E as <-. apply (says_comment l t); auto. right. apply begins_prefix. auto. }
    destruct (heading_test t) as [[E [s' [I X]]]|[E N]]; rewrite E.
    + rewrite X. intros Q. injection Q as <-. apply (says_heading l t); auto.
    + destruct (split1 t) as [[L S]|[a [b [E' [L S]]]]]; rewrite S; [discriminate|]. intros Q. injection Q as <-.
      apply (says_setting l t); auto.
      * intros [C|C]; apply begins_prefix in C; congruence.
      * apply is_setting_test. exists a, b. auto.
Qed.

(** ** The loop *)
Fixpoint apply_items (section : string) (its : list item) (d : config) : config :=
  match its with
  | [] => d
  | Nothing :: r => apply_items section r d
  | Heading s :: r => apply_items s r d
  | Setting o v :: r => apply_items section r (AddConfig d section o v)
  end.
Fixpoint read_lines (ls : list string) : list item * bool :=
  match ls with
  | [] => ([], true)
  | l :: r => match read_line l with
              | None => ([], false)
              | Some it => let (its, ok) := read_lines r in (it :: its, ok)
              end
  end.
Lemma parse_step : forall l sec ls d, parse_lines sec (l :: ls) d =
  match read_line l with
  | None => (d, Throw IllegalArgument)
  | Some Nothing => parse_lines sec ls d
  | Some (Heading s) => parse_lines s ls d
  | Some (Setting o v) => parse_lines sec ls (AddConfig d sec o v)
  end.
Proof.
  intros. cbn [parse_lines]. unfold read_line. destruct (String.eqb l ""); auto. cbv zeta.
  destruct (String.prefix "#" (Trim l)); auto. destruct (String.prefix ";" (Trim l)); auto.
  destruct (heading_test (Trim l)) as [[E [s [I X]]]|[E N]]; rewrite E; auto.
  destruct (split1 (Trim l)) as [[L S]|[a [b [E' [L S]]]]]; rewrite S; auto.
Qed.
Lemma parse_read : forall ls sec d, parse_lines sec ls d =
  (apply_items sec (fst (read_lines ls)) d, if snd (read_lines ls) then Ok tt else Throw IllegalArgument).
Proof.
  induction ls as [|l ls IH]; intros; auto. rewrite parse_step. cbn [read_lines]. destruct (read_line l) as [it|]; auto.
  destruct (read_lines ls) as [its ok]. simpl in *. destruct it; simpl; apply IH.
Qed.
Lemma read_lines_says : forall ls, snd (read_lines ls) = true <-> Forall2 says ls (fst (read_lines ls)).
Proof.
  induction ls as [|l ls IH]; simpl; [split; auto|].
  destruct (read_line l) as [it|] eqn:R; simpl.
  - destruct (read_lines ls) as [its ok]. simpl in *. split; intros.
    + constructor; [apply says_read; auto|tauto].
    + inversion H; subst. tauto.
  - split; [discriminate|]. intros H. inversion H.
Qed.
Lemma read_lines_unique : forall ls its, Forall2 says ls its -> read_lines ls = (its, true).
Proof.
  intros ls its F. induction F as [|l it ls its S F IH]; auto. simpl. apply says_read in S. rewrite S, IH. auto.
Qed.

(** ** Sections and values *)
Lemma section_after_unique : forall its s s', section_after its s -> section_after its s' -> s = s'.
Proof.
  assert (X : forall a h b a' h' b', a ++ Heading h :: b = a' ++ Heading h' :: b' -> no_heading b -> no_heading b' -> h = h').
  { induction a as [|x a IH]; intros h b a' h' b' E N N'; destruct a' as [|x' a']; simpl in E.
    - injection E as -> _. auto.
    - injection E as <- E. exfalso. apply (N h'). rewrite E. apply in_or_app. right; left; auto.
    - injection E as -> E. exfalso. apply (N' h). rewrite <- E. apply in_or_app. right; left; auto.
    - injection E as -> E. eapply IH; eauto. }
  intros its s s' [[N ->]|[a [h [b [E [N ->]]]]]] [[N' ->]|[a' [h' [b' [E' [N' ->]]]]]]; auto.
  - exfalso. apply (N h'). subst. apply in_or_app. right; left; auto.
  - exfalso. apply (N' h). subst. apply in_or_app. right; left; auto.
  - rewrite E in E'. f_equal. eapply X; eauto.
Qed.
Lemma section_after_snoc : forall its it s, (forall h, it <> Heading h) -> section_after its s -> section_after (its ++ [it]) s.
Proof.
  intros its it s N [[A ->]|[a [h [b [E [A ->]]]]]].
  - left. split; auto. intros h H. apply in_app_or in H. destruct H as [H|[H|[]]]; [eapply A; eauto|eapply N; eauto].
  - right. exists a, h, (b ++ [it]). subst. rewrite <- app_assoc. split; auto. split; auto.
    intros h' H. apply in_app_or in H. destruct H as [H|[H|[]]]; [eapply A; eauto|eapply N; eauto].
Qed.
Lemma section_after_heading : forall its h, section_after (its ++ [Heading h]) (named h).
Proof. intros. right. exists its, h, []. split; auto. split; auto. intros s []. Qed.
Lemma assigns_snoc : forall its it s o v, assigns (its ++ [it]) s o v <-> it = Setting o v /\ section_after its s.
Proof.
  intros. split.
  - intros [a [E A]]. apply app_inj_tail in E. destruct E as [-> ->]. auto.
  - intros [-> A]. exists its. auto.
Qed.
Lemma last_value_keep : forall its it s o v, last_value its s o v -> (forall v', ~ assigns (its ++ [it]) s o v') -> last_value (its ++ [it]) s o v.
Proof.
  intros its it s o v [a [b [-> [A N]]]] K. exists a, (b ++ [it]). rewrite app_assoc. split; auto. split; auto.
  intros b1 b2 v' E NE. destruct b2 as [|y b2] using rev_ind.
  - rewrite app_nil_r in E. subst. rewrite app_assoc. apply K.
  - rewrite app_assoc in E. apply app_inj_tail in E. destruct E as [-> _]. eapply N; eauto.
Qed.
Lemma last_value_set : forall its s o v, section_after its s -> last_value (its ++ [Setting o v]) s o v.
Proof.
  intros. exists (its ++ [Setting o v]), []. rewrite app_nil_r. split; auto. split; [exists its; auto|].
  intros b1 b2 v' E NE. destruct b1; [congruence|discriminate].
Qed.
Lemma never_keep : forall its it s o, never_assigned its s o -> (forall v', ~ assigns (its ++ [it]) s o v') -> never_assigned (its ++ [it]) s o.
Proof.
  intros its it s o N K a b v E. destruct b as [|y b] using rev_ind.
  - rewrite app_nil_r in E. subst. apply K.
  - rewrite app_assoc in E. apply app_inj_tail in E. destruct E as [-> _]. eapply N; eauto.
Qed.
Definition lookup (d : config) (s o : string) : option string :=
  match aget s d with Some l => aget o l | None => None end.
Lemma lookup_add : forall d sec o v s' o', lookup (AddConfig d sec o v) s' o' =
  if String.eqb s' (named sec) && String.eqb o' o then Some v else lookup d s' o'.
Proof.
  intros. unfold lookup, AddConfig. fold (named sec). set (n := named sec).
  destruct (String.eqb_spec s' n) as [->|NE]; simpl.
  - rewrite aget_aset_same. destruct (String.eqb_spec o' o) as [->|NO].
    + rewrite aget_aset_same. auto.
    + rewrite aget_aset_other by congruence. destruct (aget n d); auto.
  - rewrite aget_aset_other by congruence. auto.
Qed.
Definition tells (its : list item) (d : config) : Prop := forall s o,
  match lookup d s o with Some v => last_value its s o v | None => never_assigned its s o end.
Lemma apply_items_tells : forall its sec d done, section_after done (named sec) -> tells done d ->
  tells (done ++ its) (apply_items sec its d).
Proof.
  induction its as [|it its IH]; intros sec d done S T.
  - rewrite app_nil_r. auto.
  - replace (done ++ it :: its) with ((done ++ [it]) ++ its) by (rewrite <- app_assoc; auto).
    destruct it as [|h|o v]; simpl; apply IH.
    + apply section_after_snoc; auto. discriminate.
    + intros s o. specialize (T s o). assert (K : forall v', ~ assigns (done ++ [Nothing]) s o v').
      { intros v' A. apply assigns_snoc in A. destruct A. discriminate. }
      destruct (lookup d s o); [apply last_value_keep|apply never_keep]; auto.
    + apply section_after_heading.
    + intros s o. specialize (T s o). assert (K : forall v', ~ assigns (done ++ [Heading h]) s o v').
      { intros v' A. apply assigns_snoc in A. destruct A. discriminate. }
      destruct (lookup d s o); [apply last_value_keep|apply never_keep]; auto.
    + apply section_after_snoc; auto. discriminate.
    + intros s' o'. specialize (T s' o'). rewrite lookup_add.
      destruct (String.eqb_spec s' (named sec)) as [->|NS]; [destruct (String.eqb_spec o' o) as [->|NO]|]; simpl.
      * apply last_value_set. auto.
      * assert (K : forall v', ~ assigns (done ++ [Setting o v]) (named sec) o' v').
        { intros v' A. apply assigns_snoc in A. destruct A as [A _]. injection A. congruence. }
        destruct (lookup d (named sec) o'); [apply last_value_keep|apply never_keep]; auto.
      * assert (K : forall v', ~ assigns (done ++ [Setting o v]) s' o' v').
        { intros v' A. apply assigns_snoc in A. destruct A as [_ A]. apply NS. eapply section_after_unique; eauto. }
        destruct (lookup d s' o'); [apply last_value_keep|apply never_keep]; auto.
Qed.
Lemma tells_nil : tells [] [].
Proof.
  intros s o. simpl. intros a b v E. destruct a; [|discriminate]. intros [x [X _]]. destruct x; discriminate.
Qed.
Lemma parse_tells : forall text d, NewConfigFromText text = Ok d ->
  exists its, Forall2 says (getlines text) its /\ tells its d.
Proof.
  intros text d. unfold NewConfigFromText, built, ParseBuffer. rewrite parse_read. simpl.
  destruct (snd (read_lines (getlines text))) eqn:R; simpl; [|discriminate]. intros E. injection E as <-.
  exists (fst (read_lines (getlines text))). split; [apply read_lines_says; auto|].
  apply (apply_items_tells _ "" [] []); [|exact tells_nil]. left. split; [intros s []|auto].
Qed.
Lemma last_value_fun : forall its s o v v', last_value its s o v -> last_value its s o v' -> v = v'.
Proof.
  assert (X : forall its s o v v', last_value its s o v -> last_value its s o v' ->
    forall a b a' b', its = a ++ b -> assigns a s o v -> (forall b1 b2 w, b = b1 ++ b2 -> b1 <> [] -> ~ assigns (a ++ b1) s o w) ->
      its = a' ++ b' -> assigns a' s o v' -> (forall b1 b2 w, b' = b1 ++ b2 -> b1 <> [] -> ~ assigns (a' ++ b1) s o w) -> a = a').
  { intros its s o v v' _ _ a b a' b' E A N E' A' N'. rewrite E in E'.
    apply app_eq_app in E'. destruct E' as [l [[-> ->]|[-> ->]]].
    - destruct l as [|x l]; [rewrite app_nil_r; auto|]. exfalso. eapply (N' (x :: l) b); eauto. discriminate.
    - destruct l as [|x l]; [rewrite app_nil_r; auto|]. exfalso. eapply (N (x :: l) b'); eauto. discriminate. }
  intros its s o v v' L L'. pose proof L as [a [b [E [A N]]]]. pose proof L' as [a' [b' [E' [A' N']]]].
  assert (a = a') by (eapply (X its s o v v'); eauto). subst a'.
  destruct A as [x [-> _]]. destruct A' as [y [E2 _]]. apply app_inj_tail in E2. destruct E2 as [_ E2]. congruence.
Qed.
Lemma never_last : forall its s o v, never_assigned its s o -> ~ last_value its s o v.
Proof. intros its s o v N [a [b [E [A _]]]]. eapply N; eauto. Qed.

(** ** Reading an option *)
Lemma Get_lookup : forall d key s o, Split key "::" None = [s; o] -> Get d key = match lookup d s o with Some v => v | None => "" end.
Proof. intros d key s o E. unfold Get, lookup. rewrite E. destruct (aget s d); auto. Qed.
Lemma Get_lookup_default : forall d key, Split key "::" None = [key] -> Get d key = match lookup d "default" key with Some v => v | None => "" end.
Proof. intros d key E. unfold Get, lookup. rewrite E. destruct (aget "default" d); auto. Qed.
Lemma colon_split : forall s o, lacks ":" s -> lacks ":" o -> Split (s ++ "::" ++ o)%string "::" None = [s; o].
Proof.
  intros s o L L'. apply Split_unique; [discriminate|]. apply splits_more with o.
  - split; auto. intros a b E. destruct (Nat.le_gt_cases (String.length s) (String.length a)); auto. exfalso.
    destruct (app_cmp a ("::" ++ b) s ("::" ++ o)) as [r [R1 R2]]; auto; [lia|].
    destruct r as [|c r].
    + rewrite app_nil_r_s in R1. subst. lia.
    + simpl in R2. injection R2 as <- _. apply L. exists a, r. subst. auto.
  - apply splits_last. intros [a [b E]]. apply L'. exists a, (":" ++ b)%string. subst. auto.
Qed.
Lemma colon_none : forall o, lacks ":" o -> Split o "::" None = [o].
Proof.
  intros o L. apply Split_unique; [discriminate|]. apply splits_last. intros [a [b E]]. apply L. exists a, (":" ++ b)%string. subst. auto.
Qed.
