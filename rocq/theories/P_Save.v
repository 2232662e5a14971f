(** Proofs about the text that SavePolicy writes. *)
From Verif Require Import Base P_Base M_Util M_RoleManager M_Model M_Persist M_Evaluator M_Enforcer S_Text S_Policy S_Persist S_History
  P_Text P_Decide P_Store P_Api P_History P_Persist.

(** ** Splitting at one character *)
Lemma lacks_app : forall c a b, lacks c (a ++ b) <-> lacks c a /\ lacks c b.
Proof.
  intros. rewrite <- !smem_lacks. assert (smem c (a ++ b) = smem c a || smem c b).
  { induction a; simpl; auto. rewrite IHa, orb_assoc. auto. }
  rewrite H, orb_false_iff. tauto.
Qed.
Lemma lacks_first : forall c s a b, first_occurrence (String c "") s a b -> lacks c a.
Proof.
  intros c s a b [-> M] [x [y ->]]. specialize (M x (y ++ String c "" ++ b)%string). rewrite !app_assoc_s in M. specialize (M eq_refl).
  rewrite length_app_s in M. simpl in M. lia.
Qed.
Lemma splits_char : forall c s l, splits (String c "") s l <-> l <> [] /\ s = glue (String c "") l /\ Forall (lacks c) l.
Proof.
  intros c s l. split.
  - intros H. destruct (splits_glue _ _ _ H) as [G N]. repeat split; auto. clear G N. induction H.
    + repeat constructor. auto.
    + constructor; auto. eapply lacks_first; eauto.
  - intros [N [-> F]]. apply splits_glued; auto; [discriminate|]. intros x I. apply lacks_apart. rewrite Forall_forall in F. auto.
Qed.
Lemma Split_char : forall c l, l <> [] -> Forall (lacks c) l -> Split (glue (String c "") l) (String c "") None = l.
Proof. intros. apply Split_unique; [discriminate|]. apply splits_char. auto. Qed.
Lemma glue_app : forall sep a b, a <> [] -> b <> [] -> glue sep (a ++ b) = (glue sep a ++ sep ++ glue sep b)%string.
Proof.
  intros sep a b N M. induction a as [|x a IH]; [congruence|]. destruct a as [|y a].
  - simpl. destruct b; [congruence|]. auto.
  - change ((x :: y :: a) ++ b) with (x :: (y :: a) ++ b). change (glue sep (x :: y :: a)) with (x ++ sep ++ glue sep (y :: a))%string.
    rewrite !app_assoc_s, <- IH by discriminate. destruct ((y :: a) ++ b) eqn:E; [discriminate|]. auto.
Qed.
Lemma Split_app : forall c a b, Split (a ++ String c "" ++ b) (String c "") None = Split a (String c "") None ++ Split b (String c "") None.
Proof.
  intros c a b. assert (A := Split_spec (String c "") a ltac:(discriminate)). assert (B := Split_spec (String c "") b ltac:(discriminate)).
  apply splits_char in A. apply splits_char in B. destruct A as [NA [EA FA]], B as [NB [EB FB]].
  apply Split_unique; [discriminate|]. apply splits_char. split; [|split].
  - destruct (Split a (String c "") None); [congruence|discriminate].
  - rewrite glue_app by auto. rewrite <- EA, <- EB. auto.
  - apply Forall_app. auto.
Qed.
(** A text around the edges of which stand characters other than the separator. *)
Lemma glue_cons : forall sep a x l, glue sep ((a ++ x)%string :: l) = (a ++ glue sep (x :: l))%string.
Proof. intros. destruct l; simpl; auto. rewrite app_assoc_s. auto. Qed.
Lemma glue_snoc : forall sep l x b, glue sep (l ++ [(x ++ b)%string]) = (glue sep (l ++ [x]) ++ b)%string.
Proof.
  intros. destruct l as [|y l]; [auto|]. rewrite !glue_app by discriminate. simpl. rewrite !app_assoc_s. auto.
Qed.
Lemma every_lacks : forall c P s, every P s -> ~ P c -> lacks c s.
Proof.
  intros c P s E N. apply smem_lacks. induction s as [|d s IH]; simpl; auto. destruct E as [E1 E2]. rewrite IH by auto.
  destruct (Ascii.eqb_spec c d); auto. subst. tauto.
Qed.
Lemma Trim_pre : forall a x, every blank a -> Trim (a ++ x) = Trim x.
Proof.
  intros a x E. apply Trim_unique. destruct (Trim_spec x) as [[pre [post [X [E1 E2]]]] N]. split; auto.
  exists (a ++ pre)%string, post. rewrite app_assoc_s, <- X. split; auto. split; auto. apply every_app. auto.
Qed.
Lemma Trim_post : forall a x, every blank a -> Trim (x ++ a) = Trim x.
Proof.
  intros a x E. apply Trim_unique. destruct (Trim_spec x) as [[pre [post [X [E1 E2]]]] N]. split; auto.
  exists pre, (post ++ a)%string. rewrite X at 1. rewrite !app_assoc_s. split; auto. split; auto. apply every_app. auto.
Qed.
Lemma comma_not_blank : ~ blank ","%char.
Proof. intros [H|[H|[H|[H|[H|H]]]]]; discriminate. Qed.
Lemma split_trim : forall s, map Trim (Split (Trim s) "," None) = map Trim (Split s "," None).
Proof.
  intros s. destruct (Trim_spec s) as [[pre [post [E [P1 P2]]]] _]. rewrite E at 2. generalize (Trim s). clear E. intros t.
  assert (A := Split_spec "," t ltac:(discriminate)). apply splits_char in A. destruct A as [NA [EA FA]].
  set (l := Split t "," None) in *. clearbody l.
  assert (L1 := every_lacks ","%char _ _ P1 comma_not_blank). assert (L2 := every_lacks ","%char _ _ P2 comma_not_blank).
  assert (H1 : Split (t ++ post) "," None = removelast l ++ [(last l "" ++ post)%string]).
  { apply Split_unique; [discriminate|]. apply splits_char. split; [destruct (removelast l); discriminate|]. split.
    - rewrite glue_snoc, <- app_removelast_last by auto. rewrite <- EA. auto.
    - rewrite (app_removelast_last "" NA) in FA. apply Forall_app in FA. destruct FA as [F1 F2]. apply Forall_app. split; auto. constructor; auto.
      apply lacks_app. inversion F2. auto. }
  assert (H2 : map Trim (Split (t ++ post) "," None) = map Trim l).
  { rewrite H1, map_app. cbn [map]. rewrite Trim_post by auto. rewrite (app_removelast_last "" NA) at 3. rewrite map_app. auto. }
  rewrite <- H2. set (u := (t ++ post)%string) in *. clearbody u.
  assert (B := Split_spec "," u ltac:(discriminate)). apply splits_char in B. destruct B as [NB [EB FB]].
  destruct (Split u "," None) as [|x r]; [congruence|]. cbn [map]. inversion FB; subst.
  rewrite (Split_unique "," _ ((pre ++ x)%string :: r)); [cbn [map]; rewrite Trim_pre by auto; auto|discriminate|].
  apply splits_char. split; [discriminate|]. split; [rewrite glue_cons; auto|]. constructor; auto. apply lacks_app. auto.
Qed.

(** ** One line *)
Definition line_of (kr : string * rule) : string := glue ", " (fst kr :: snd kr).
Definition plain_entry (kr : string * rule) : Prop :=
  plain_value (fst kr) /\ plain_rule (snd kr) /\ exists c s, fst kr = String c s /\ c <> "#"%char.
Lemma plain_trim : forall v, plain_value v -> Trim (" " ++ v) = v.
Proof. intros v [_ [_ N]]. rewrite (Trim_pre " " v); [apply Trim_id; auto|]. simpl. unfold blank. tauto. Qed.
Lemma line_comma : forall k r, glue ", " (k :: r) = glue "," (k :: map (fun v => " " ++ v)%string r).
Proof. intros k r. revert k. induction r as [|v r IH]; intros k; auto. cbn [map]. change (glue ", " (k :: v :: r)) with (k ++ ", " ++ glue ", " (v :: r))%string.
  rewrite IH. change (k ++ ", " ++ glue "," (v :: map (fun v0 => (" " ++ v0)%string) r) = k ++ "," ++ glue "," ((" " ++ v)%string :: map (fun v0 => (" " ++ v0)%string) r))%string.
  rewrite (glue_cons "," " " v). auto.
Qed.
Lemma split_line : forall kr, plain_entry kr -> map Trim (Split (line_of kr) "," None) = fst kr :: snd kr.
Proof.
  intros [k r] [PK [[NR PR] _]]. unfold line_of. cbn [fst snd] in *. rewrite line_comma.
  rewrite Split_char; [|discriminate|].
  - cbn [map]. f_equal. { apply Trim_id. apply PK. } rewrite map_map. clear NR. induction PR; auto. cbn [map]. f_equal; auto. apply plain_trim. auto.
  - constructor; [apply PK|]. clear NR. induction PR; constructor; auto. change (lacks "," (String " " "" ++ x)). apply lacks_app. split; [|apply H].
    apply smem_lacks. reflexivity.
Qed.
Lemma line_head : forall kr, plain_entry kr -> exists c s, line_of kr = String c s /\ c <> "#"%char /\ ~ blank c.
Proof.
  intros [k r] [PK [[NR PR] [c [s [E N]]]]]. unfold line_of. cbn [fst snd] in *. subst. destruct r as [|v r]; [congruence|].
  exists c, (s ++ ", " ++ glue ", " (v :: r))%string. split; auto. split; auto. destruct PK as [_ [_ [N1 _]]]. eapply N1. reflexivity.
Qed.
Lemma parse_head : forall c s, c <> "#"%char -> parse (String c s) = match map Trim (Split (String c s) "," None) with [] => None | k :: f => Some (k, f) end.
Proof.
  intros c s N. unfold parse. cbn [String.eqb orb]. replace (String.prefix "#" (String c s)) with false; auto.
  symmetry. apply prefix_false. intros [b H]. inversion H. congruence.
Qed.
Lemma trim_head : forall c s, ~ blank c -> exists t, Trim (String c s) = String c t.
Proof.
  intros c s N. destruct (Trim_spec (String c s)) as [[pre [post [E [P1 P2]]]] _]. destruct pre as [|d pre]; [|simpl in E; inversion E; subst; destruct P1; tauto].
  destruct (Trim (String c s)) as [|d t]; [|exists t; simpl in E; inversion E; auto]. simpl in E. destruct post; [discriminate|]. inversion E; subst. destruct P2. tauto.
Qed.
Lemma parse_line : forall kr, plain_entry kr -> parse (line_of kr) = Some kr /\ parse (Trim (line_of kr)) = Some kr.
Proof.
  intros kr P. assert (S := split_line kr P). destruct (line_head kr P) as [c [s [E [N1 N2]]]]. destruct (trim_head c s N2) as [t T].
  rewrite E in *. rewrite T. split.
  - rewrite parse_head by auto. rewrite S. destruct kr; auto.
  - rewrite parse_head by auto. rewrite <- T, split_trim, S. destruct kr; auto.
Qed.
Lemma line_no_newline : forall kr, plain_entry kr -> lacks "010" (line_of kr).
Proof.
  intros [k r] [PK [[NR PR] _]]. unfold line_of. cbn [fst snd] in *. assert (F : Forall (lacks "010") (k :: r)).
  { constructor; [apply PK|]. eapply Forall_impl; [|exact PR]. intros v H. apply H. }
  clear PK NR PR. revert k F. induction r as [|v r IH]; intros k F; inversion F; subst; auto.
  change (glue ", " (k :: v :: r)) with (k ++ ", " ++ glue ", " (v :: r))%string. rewrite !lacks_app. split; auto. split; [apply smem_lacks; reflexivity|]. apply IH. auto.
Qed.

(** ** The whole text *)
Lemma rtrim_unique : forall chars s t post, s = (t ++ post)%string -> every (fun c => smem c chars = true) post ->
  (forall c r, t = (r ++ String c "")%string -> smem c chars = false) -> RTrim chars s = t.
Proof.
  intros chars s t post E P N. destruct (RTrim_spec chars s) as [post' [E' [P' N']]]. destruct (string_dec t "") as [->|NT].
  - destruct (snoc_cases (RTrim chars s)) as [->|[r [c R]]]; auto. exfalso.
    assert (every (fun c => smem c chars = true) s) by (rewrite E; auto). rewrite E', every_app in H. destruct H as [H _]. rewrite R, every_app in H.
    simpl in H. rewrite (N' c r R) in H. destruct H as [_ [H _]]. discriminate.
  - destruct (string_dec (RTrim chars s) "") as [Z|NZ].
    + exfalso. rewrite Z in E'. simpl in E'. destruct (snoc_cases t) as [->|[r [c R]]]; [congruence|].
      assert (every (fun c => smem c chars = true) s) by (rewrite E'; auto). rewrite E, every_app in H. destruct H as [H _]. rewrite R, every_app in H.
      simpl in H. rewrite (N c r R) in H. destruct H as [_ [H _]]. discriminate.
    + eapply (every_no_edge_back (fun c => smem c chars = true) post' post); eauto; try congruence.
      * intros c r R H. rewrite (N' c r R) in H. discriminate.
      * intros c r R H. rewrite (N c r R) in H. discriminate.
Qed.
Definition entries_of (am : assertion_map) : list (string * rule) :=
  flat_map (fun kv => map (fun r => (fst kv, r)) (rules_of (a_policy (snd kv)))) am.
Definition text_of (rs : list (string * rule)) : string := String.concat "" (map (fun kr => line_of kr ++ newline)%string rs).
Lemma concat_cons : forall x l, String.concat "" (x :: l) = (x ++ String.concat "" l)%string.
Proof. intros x [|y l]; simpl; auto. rewrite app_nil_r_s. auto. Qed.
Lemma concat_app_s : forall a b, String.concat "" (a ++ b) = (String.concat "" a ++ String.concat "" b)%string.
Proof. induction a as [|x a IH]; intros; auto. cbn [app]. rewrite !concat_cons, IH, app_assoc_s. auto. Qed.
Lemma text_app : forall a b, text_of (a ++ b) = (text_of a ++ text_of b)%string.
Proof. intros. unfold text_of. rewrite map_app, concat_app_s. auto. Qed.
Lemma rule_text_ok : forall pt r, r <> [] -> rule_text pt r = Ok (line_of (pt, r) ++ newline)%string.
Proof.
  intros pt r N. unfold rule_text. rewrite ArrayToString_spec by auto. cbn [bind]. f_equal. unfold line_of. cbn [fst snd].
  destruct r; [congruence|]. cbn [glue]. rewrite !app_assoc_s. auto.
Qed.
Lemma sec_text_ok : forall am, (forall kr, In kr (entries_of am) -> snd kr <> []) -> sec_text am = Ok (text_of (entries_of am)).
Proof.
  intros am NE. unfold sec_text.
  assert (M : mapr (fun kv : string * assertion => let! ls := mapr (rule_text (fst kv)) (rules_of (a_policy (snd kv))) in Ok (String.concat "" ls)) am =
    Ok (map (fun kv => text_of (map (fun r => (fst kv, r)) (rules_of (a_policy (snd kv))))) am)).
  { induction am as [|[k a] am IH]; auto. cbn [mapr map]. simpl in NE.
    assert (R : mapr (rule_text (fst (k, a))) (rules_of (a_policy (snd (k, a)))) = Ok (map (fun r => (line_of (k, r) ++ newline)%string) (rules_of (a_policy a)))).
    { cbn [fst snd]. assert (N : forall r, In r (rules_of (a_policy a)) -> r <> []).
      { intros r I. apply (NE (k, r)). apply in_app_iff. left. apply in_map_iff. eauto. }
      clear NE IH. induction (rules_of (a_policy a)) as [|r l IH]; auto. cbn [mapr map]. rewrite rule_text_ok by (apply N; simpl; auto). cbn [bind].
      rewrite IH; auto. intros. apply N. simpl. auto. }
    rewrite R. cbn [bind]. rewrite IH; [|intros; apply NE; apply in_app_iff; auto]. cbn [bind]. f_equal. f_equal. unfold text_of. rewrite map_map. auto. }
  rewrite M. cbn [bind]. f_equal. clear. induction am as [|kv am IH]; auto. cbn [map]. rewrite concat_cons, IH. unfold entries_of at 2. cbn [flat_map]. rewrite text_app. auto.
Qed.
(** An empty rule cannot be saved. *)
Lemma sec_text_empty : forall am, (exists k, In (k, []) (entries_of am)) -> forall t, sec_text am <> Ok t.
Proof.
  intros am [k I]. unfold sec_text. unfold entries_of in I. apply in_flat_map in I. destruct I as [[k' a] [I J]]. apply in_map_iff in J. destruct J as [r [J K]]. inversion J; subst.
    assert (Z : forall l, In [] l -> forall ls, mapr (rule_text k) l <> Ok ls).
    { induction l as [|x l IH]; [intros []|]. intros [->|L] ls H; [discriminate|]. cbn [mapr] in H. destruct (rule_text k x); try discriminate. cbn [bind] in H.
      destruct (mapr (rule_text k) l) eqn:Q; try discriminate. eapply IH; eauto. }
    intros t. assert (Z2 : forall ls, mapr (fun kv : string * assertion => let! ls := mapr (rule_text (fst kv)) (rules_of (a_policy (snd kv))) in Ok (String.concat "" ls)) am <> Ok ls).
    { induction am as [|kv am IH]; [destruct I|]. cbn [mapr]. destruct I as [->|I].
      - cbn [fst snd]. cbn in J. intros ls. destruct (mapr (rule_text k) (rules_of (a_policy a))) eqn:Q; try discriminate. exfalso. eapply Z; eauto.
      - intros ls. destruct (mapr (rule_text (fst kv)) _); try discriminate. cbn [bind].
        match goal with |- context [mapr ?f am] => destruct (mapr f am) eqn:Q end; try discriminate. exfalso. eapply IH; eauto. }
    match goal with |- context [mapr ?f am] => destruct (mapr f am) eqn:Q end; try discriminate. exfalso. eapply Z2; eauto.
Qed.
Definition entries (m : model) : list (string * rule) := entries_of (sec_of m "p") ++ entries_of (sec_of m "g").
Lemma policy_text_ok : forall m, (forall kr, In kr (entries m) -> plain_entry kr) ->
  exists t, policy_text m = Ok t /\ t = glue newline (map line_of (entries m)).
Proof.
  intros m P. unfold policy_text. unfold entries in *.
  rewrite !sec_text_ok; [|intros kr I; apply P; apply in_app_iff; auto|intros kr I; apply P; apply in_app_iff; auto].
  cbn [bind]. eexists. split; [reflexivity|]. rewrite <- text_app. set (rs := entries_of (sec_of m "p") ++ entries_of (sec_of m "g")) in *. clearbody rs.
  assert (N : rs = [] \/ rs <> []) by (destruct rs; [auto|right; discriminate]). destruct N as [->|N]; [reflexivity|].
  apply rtrim_unique with newline.
  - clear P. induction rs as [|r rs IH]; [congruence|]. unfold text_of in *. cbn [map]. rewrite concat_cons. destruct rs as [|r' rs]; [simpl; rewrite app_nil_r_s; auto|].
    rewrite IH by discriminate. change (glue newline (line_of r :: map line_of (r' :: rs))) with (line_of r ++ newline ++ glue newline (map line_of (r' :: rs)))%string.
    rewrite !app_assoc_s. auto.
  - simpl. auto.
  - intros c r E. destruct (exists_last N) as [l [x X]]. subst rs. rewrite map_app in E. cbn [map] in E.
    destruct (snoc_cases (line_of x)) as [Z|[y [d Y]]].
    { destruct (line_head x) as [? [? [Q _]]]; [apply P; apply in_app_iff; simpl; auto|]. congruence. }
    assert (E2 : glue newline (map line_of l ++ [line_of x]) = (glue newline (map line_of l ++ [y]) ++ String d "")%string) by (rewrite Y, glue_snoc; auto).
    rewrite E2 in E. apply snoc_inj in E. destruct E as [_ <-].
    assert (L := line_no_newline x (P x ltac:(apply in_app_iff; simpl; auto))). rewrite Y in L. apply lacks_app in L. destruct L as [_ L]. apply smem_lacks in L.
    simpl in L. simpl. rewrite Ascii.eqb_sym. auto.
Qed.

(** ** What is saved of one type *)
Lemma rules_for_map : forall pt k l, rules_for pt (map (fun r => (k, r)) l) = if String.eqb k pt then l else [].
Proof.
  intros pt k l. induction l as [|r l IH]; [destruct (String.eqb k pt); auto|]. cbn [map]. rewrite rules_for_cons, IH. destruct (String.eqb k pt); auto.
Qed.
Lemma rules_for_absent : forall am pt, ~ In pt (map fst am) -> rules_for pt (entries_of am) = [].
Proof.
  induction am as [|[k a] am IH]; intros pt N; auto. unfold entries_of in *. cbn [flat_map fst snd]. simpl in N. rewrite rules_for_app, rules_for_map, IH by tauto.
  destruct (String.eqb_spec k pt); [tauto|auto].
Qed.
Lemma rules_for_entries : forall am pt, NoDup (map fst am) ->
  rules_for pt (entries_of am) = match aget pt am with Some a => rules_of (a_policy a) | None => [] end.
Proof.
  induction am as [|[k a] am IH]; intros pt N; auto. inversion N; subst. unfold entries_of. cbn [flat_map fst snd]. rewrite rules_for_app, rules_for_map.
  fold (entries_of am). cbn [aget]. destruct (String.eqb_spec k pt) as [->|D].
  - rewrite rules_for_absent by auto. rewrite app_nil_r, eqb_refl_s. auto.
  - rewrite IH by auto. destruct (String.eqb_spec pt k); [congruence|]. auto.
Qed.
Lemma entries_in : forall e sec k r, NoDup (map fst (sec_of (e_model e) sec)) -> In (k, r) (entries_of (sec_of (e_model e) sec)) ->
  declared e sec k /\ In r (stored e sec k).
Proof.
  intros e sec k r N I. unfold entries_of in I. apply in_flat_map in I. destruct I as [[k' a] [I J]]. apply in_map_iff in J. destruct J as [r' [J K]].
  inversion J; subst. cbn [fst snd] in *. assert (A : aget k (sec_of (e_model e) sec) = Some a).
  { clear K J r. revert N I. generalize (sec_of (e_model e) sec) as am. induction am as [|[k2 a2] am IH]; simpl; intros N I; [tauto|]. inversion N; subst.
    destruct (String.eqb_spec k k2) as [->|D].
    - destruct I as [I|I]; [inversion I; auto|]. exfalso. apply H1. apply (in_map fst) in I. auto.
    - apply IH; auto. destruct I as [I|I]; [inversion I; congruence|auto]. }
  unfold declared, stored, rules_in, get_ast. rewrite A. split; eauto.
Qed.
Lemma writable_entries : forall e, writable_policy e -> forall kr, In kr (entries (e_model e)) ->
  plain_entry kr /\ exists sec, (sec = "p" \/ sec = "g") /\ declared e sec (fst kr) /\ section_of (fst kr) = sec.
Proof.
  intros e W [k r] I. unfold entries in I. apply in_app_iff in I.
  assert (Q : exists sec, (sec = "p" \/ sec = "g") /\ In (k, r) (entries_of (sec_of (e_model e) sec))) by (destruct I; eauto).
  destruct Q as [sec [S J]]. destruct (W sec S) as [N F]. destruct (entries_in e sec k r N J) as [D IR]. destruct (F k D) as [[PV SC] FR].
  split; [|exists sec; auto]. split; [auto|]. split; [rewrite Forall_forall in FR; apply FR; auto|]. cbn [fst]. destruct k as [|c s]; [simpl in SC; destruct S; subst; discriminate|].
  exists c, s. split; auto. simpl in SC. destruct S as [S|S]; rewrite S in SC; inversion SC; discriminate.
Qed.
Lemma rules_for_model : forall e sec pt, writable_policy e -> (sec = "p" \/ sec = "g") -> section_of pt = sec ->
  rules_for pt (entries (e_model e)) = stored e sec pt.
Proof.
  intros e sec pt W S SC. unfold entries. rewrite rules_for_app, !rules_for_entries by (apply W; auto).
  unfold stored, rules_in, get_ast. assert (O : forall sec', (sec' = "p" \/ sec' = "g") -> sec' <> sec -> aget pt (sec_of (e_model e) sec') = None).
  { intros sec' S' N. destruct (aget pt (sec_of (e_model e) sec')) eqn:A; auto. exfalso. apply N. destruct (W sec' S') as [_ F].
    destruct (F pt) as [[_ P] _]; [unfold declared, get_ast; rewrite A; eauto|]. congruence. }
  destruct S as [->| ->].
  - rewrite (O "g") by (auto; discriminate). rewrite app_nil_r. destruct (aget pt (sec_of (e_model e) "p")); auto.
  - rewrite (O "p") by (auto; discriminate). destruct (aget pt (sec_of (e_model e) "g")); auto.
Qed.
Lemma saved_means : forall m, (forall kr, In kr (entries m) -> plain_entry kr) ->
  file_means (glue newline (map line_of (entries m))) (entries m) /\
  (entries m <> [] -> glue newline (map line_of (entries m)) <> "" /\ string_means (glue newline (map line_of (entries m))) (entries m)).
Proof.
  intros m P. set (rs := entries m) in *. clearbody rs. assert (E : rs = [] \/ rs <> []) by (destruct rs; [auto|right; discriminate]).
  assert (SP : rs <> [] -> Split (glue newline (map line_of rs)) newline None = map line_of rs).
  { intros N. apply Split_char; [destruct rs; [congruence|discriminate]|]. apply Forall_forall. intros x I. apply in_map_iff in I. destruct I as [kr [<- I]]. apply line_no_newline. auto. }
  assert (C : forall f, (forall kr, In kr rs -> parse (f (line_of kr)) = Some kr) -> cat_some (map (fun p => parse (f p)) (map line_of rs)) = rs).
  { intros f H. clear SP E. induction rs as [|kr rs IH]; auto. cbn [map]. unfold cat_some in *. cbn [flat_map]. rewrite H by (simpl; auto). cbn [app]. f_equal. apply IH; intros; [apply P|apply H]; simpl; auto. }
  split.
  - apply file_means_fun. destruct E as [->|N]; [reflexivity|]. rewrite SP by auto. rewrite C; auto. intros. apply parse_line. auto.
  - intros N. split.
    + intros Z. destruct rs as [|kr rs]; [congruence|]. destruct (line_head kr) as [c [s [H _]]]; [apply P; simpl; auto|].
      destruct rs; simpl in Z; rewrite H in Z; discriminate.
    + apply string_means_fun. rewrite SP by auto. change (map parse (map line_of rs)) with (map (fun p => parse ((fun x => x) p)) (map line_of rs)).
      rewrite C; auto. intros. apply parse_line. auto.
Qed.
Lemma entries_touch : forall m s, entries (touch m s) = entries m.
Proof.
  intros. assert (S : forall q, sec_of (touch m s) q = sec_of m q).
  { intros. unfold sec_of, touch. rewrite aget_ainsert. destruct (String.eqb_spec q s); auto. subst. destruct (aget s m); auto. }
  unfold entries. rewrite !S. auto.
Qed.
