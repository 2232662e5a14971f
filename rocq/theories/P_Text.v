(** Proofs about the string functions. *)
From Verif Require Import Base P_Base M_Util S_Text.

Lemma app_s_cons : forall c a b, (String c a ++ b)%string = String c (a ++ b)%string.
Proof. reflexivity. Qed.
Lemma app_snoc_s : forall a c b, ((a ++ String c "") ++ b)%string = (a ++ String c b)%string.
Proof. induction a; simpl; intros; congruence. Qed.
Lemma len_pos : forall s, s <> "" <-> 0 < String.length s.
Proof. destruct s; simpl; split; intros; try lia; try congruence. Qed.

(** ** Prefixes and occurrences *)
Lemma prefix_app : forall p s, String.prefix p s = true <-> exists b, s = (p ++ b)%string.
Proof.
  induction p; intros s. { simpl. destruct s; split; eauto. }
  destruct s as [|d s]; simpl. { split; [discriminate|intros [b H]; discriminate]. }
  destruct (ascii_dec a d) as [->|N].
  - rewrite IHp. split; intros [b H]; exists b; congruence.
  - split; [discriminate|]. intros [b H]. inversion H; congruence.
Qed.
Lemma prefix_false : forall p s, String.prefix p s = false <-> ~ exists b, s = (p ++ b)%string.
Proof. intros. rewrite <- prefix_app. destruct (String.prefix p s); split; congruence. Qed.
Lemma occurs_cons : forall pat c s, occurs pat (String c s) <-> (exists b, String c s = (pat ++ b)%string) \/ occurs pat s.
Proof.
  intros. split.
  - intros [[|d a] [b H]]; simpl in H; [left; eauto|]. inversion H; subst. right. exists a, b. auto.
  - intros [[b H]|[a [b H]]]; [exists "", b; auto|]. exists (String c a), b. simpl. congruence.
Qed.
Lemma occurs_nil : forall pat, pat <> "" -> ~ occurs pat "".
Proof. intros pat N [a [b H]]. destruct a; [destruct pat; [congruence|discriminate]|discriminate]. Qed.

(** The first occurrence is [sfind]. *)
Lemma sfind_some : forall pat s n, sfind pat s = Some n ->
  n <= String.length s /\ first_occurrence pat s (stake n s) (sdrop (n + String.length pat) s).
Proof.
  intros pat s. induction s; intros n H.
  - simpl in H. destruct pat; [|discriminate]. inversion H; subst. simpl. split; auto. split; [auto|simpl; intros; lia].
  - cbn [sfind] in H. destruct (String.prefix pat (String a s)) eqn:P.
    + inversion H; subst. split; [lia|]. split; [|simpl; intros; lia]. apply prefix_app in P. destruct P as [b P].
      cbn [stake plus]. rewrite P. cbn. rewrite sdrop_app. auto.
    + destruct (sfind pat s) as [k|] eqn:F; [|discriminate]. inversion H; subst. destruct (IHs k eq_refl) as [L [E M]]. split; [simpl; lia|]. split.
      * simpl. f_equal. exact E.
      * intros [|d a'] b' Q. { apply prefix_false in P. exfalso. apply P. exists b'. exact Q. }
        simpl in Q. inversion Q; subst. simpl. apply le_n_S. eapply M. eauto.
Qed.
Lemma sfind_none : forall pat s, pat <> "" -> (sfind pat s = None <-> ~ occurs pat s).
Proof.
  intros pat s N. split.
  - induction s; intros F.
    + apply occurs_nil. auto.
    + cbn [sfind] in F. destruct (String.prefix pat (String a s)) eqn:P; [discriminate|]. destruct (sfind pat s); [discriminate|].
      intros O. apply occurs_cons in O. destruct O as [O|O]; [apply prefix_false in P; auto|]. apply IHs; auto.
  - intros O. destruct (sfind pat s) as [n|] eqn:F; auto. exfalso. apply O. apply sfind_some in F. destruct F as [_ [E _]]. eexists _, _. exact E.
Qed.
Lemma first_occurrence_unique : forall pat s a b a' b', pat <> "" -> first_occurrence pat s a b -> first_occurrence pat s a' b' -> a = a' /\ b = b'.
Proof.
  intros pat s a b a' b' N [E M] [E' M'].
  assert (L : String.length a = String.length a'). { apply Nat.le_antisymm; eauto. }
  assert (K : forall x y u v, String.length x = String.length y -> (x ++ u)%string = (y ++ v)%string -> x = y /\ u = v).
  { induction x; destruct y; simpl; intros; try discriminate; auto. inversion H0; subst. destruct (IHx y u v); auto. subst. auto. }
  rewrite E in E'. destruct (K _ _ _ _ L E') as [-> P]. split; auto. eapply app_inj_s. eauto.
Qed.
Lemma splits_unique : forall del s l l', del <> "" -> splits del s l -> splits del s l' -> l = l'.
Proof.
  intros del s l l' N H. revert l'. induction H; intros l' H'.
  - inversion H'; subst; auto. exfalso. apply H. destruct H0 as [-> _]. exists a, b. auto.
  - inversion H'; subst. { exfalso. apply H1. destruct H as [-> _]. exists a, b. auto. }
    destruct (first_occurrence_unique del s a b a0 b0 N H H1) as [-> ->]. f_equal. auto.
Qed.

(** ** Split *)
Lemma splits_cur : forall del c s l, del <> "" -> ~ (exists b, String c s = (del ++ b)%string) -> splits del s l ->
  exists x xs, l = x :: xs /\ splits del (String c s) (String c x :: xs).
Proof.
  intros del c s l N P H. inversion H; subst.
  - exists s, []. split; auto. constructor. intros O. apply occurs_cons in O. tauto.
  - exists a, l0. split; auto. destruct H0 as [-> M]. apply splits_more with b; auto. split; auto.
    intros [|d a'] b' Q. { exfalso. apply P. exists b'. exact Q. } simpl in Q. inversion Q; subst. simpl. apply le_n_S. eauto.
Qed.
Lemma split_aux_skip : forall del k cur s, split_aux del None k cur s = split_aux del None 0 cur (sdrop k s).
Proof.
  induction k; simpl; intros; auto. destruct s; auto. apply IHk.
Qed.
Lemma split_aux_spec : forall del, del <> "" -> forall n s cur, String.length s <= n ->
  exists x xs, split_aux del None 0 cur s = (cur ++ x)%string :: xs /\ splits del s (x :: xs).
Proof.
  intros del N. induction n; intros s cur L.
  - destruct s; [|simpl in L; lia]. exists "", []. simpl. rewrite app_nil_r_s. split; auto. constructor. apply occurs_nil. auto.
  - destruct s as [|c s]. { exists "", []. simpl. rewrite app_nil_r_s. split; auto. constructor. apply occurs_nil. auto. }
    simpl in L. cbn [split_aux]. destruct (String.prefix del (String c s)) eqn:P.
    + simpl option_map. rewrite split_aux_skip. apply prefix_app in P. destruct P as [b P].
      assert (SD : sdrop (pred (String.length del)) s = b).
      { destruct del as [|d del]; [congruence|]. simpl in *. inversion P; subst. apply sdrop_app. }
      assert (LB : String.length b <= n).
      { destruct del as [|d del]; [congruence|]. simpl in P. inversion P as [[P1 P2]]. rewrite P2, length_app_s in L. lia. }
      rewrite SD. destruct (IHn b "" LB) as [x [xs [E S]]]. rewrite E. exists "", (x :: xs). rewrite app_nil_r_s. split; auto.
      apply splits_more with b; auto. split; auto. simpl. lia.
    + destruct (IHn s (cur ++ String c "")%string) as [x [xs [E S]]]; [lia|]. rewrite E. apply prefix_false in P.
      destruct (splits_cur del c s (x :: xs) N P S) as [y [ys [Q S']]]. inversion Q; subst.
      exists (String c y), ys. rewrite app_snoc_s. auto.
Qed.
Lemma Split_spec : forall del s, del <> "" -> splits del s (Split s del None).
Proof.
  intros del s N. unfold Split. destruct (split_aux_spec del N (String.length s) s "" (Nat.le_refl _)) as [x [xs [-> S]]]. exact S.
Qed.
Lemma Split_unique : forall del s l, del <> "" -> splits del s l -> Split s del None = l.
Proof. intros. eapply splits_unique; eauto. apply Split_spec. auto. Qed.

Lemma splits_glue : forall del s l, splits del s l -> glue del l = s /\ l <> [].
Proof.
  intros del s l H. induction H; [simpl; split; [auto|discriminate]|]. destruct IHsplits as [IH NN]. split; [|discriminate].
  destruct l; [congruence|]. destruct H as [-> _]. cbn [glue]. rewrite <- IH. reflexivity.
Qed.
Lemma app_cmp : forall a b c d, (a ++ b)%string = (c ++ d)%string -> String.length a <= String.length c ->
  exists m, c = (a ++ m)%string /\ b = (m ++ d)%string.
Proof.
  induction a; simpl; intros. { exists c. auto. }
  destruct c; simpl in *; [lia|]. inversion H; subst. destruct (IHa b c d H3) as [m [-> ->]]; [lia|]. exists m. auto.
Qed.
Lemma splits_glued : forall del l, del <> "" -> l <> [] -> (forall x, In x l -> apart_from del x) ->
  splits del (glue del l) l.
Proof.
  intros del l N. induction l as [|x [|y l] IH]; intros NE A; [congruence| |].
  - simpl. constructor. intros [a [b ->]]. assert (Q := A (a ++ del ++ b)%string (or_introl eq_refl) a (b ++ del)%string). rewrite !app_assoc_s in Q.
    specialize (Q eq_refl). destruct b; simpl in Q; [|discriminate]. subst. congruence.
  - change (glue del (x :: y :: l)) with (x ++ del ++ glue del (y :: l))%string.
    apply splits_more with (glue del (y :: l)); [|apply IH; [discriminate|intros; apply A; simpl in *; tauto]].
    split; auto. intros a' b' Q. destruct (le_lt_dec (String.length x) (String.length a')) as [|LT]; auto. exfalso.
    assert (Q2 := eq_sym Q). rewrite <- (app_assoc_s x), <- (app_assoc_s a') in Q2. apply app_cmp in Q2; [|rewrite !length_app_s; lia].
    destruct Q2 as [m [Q2 _]]. rewrite app_assoc_s in Q2. pose proof (A x (or_introl eq_refl) _ _ Q2) as M. subst m.
    rewrite app_nil_r_s in Q2. assert (L := f_equal String.length Q2). rewrite !length_app_s in L. lia.
Qed.
Lemma lacks_apart : forall c x, lacks c x -> apart_from (String c "") x.
Proof.
  intros c x L a b H. destruct b as [|d b]; auto. exfalso. apply L.
  assert (Q : exists m, x = (a ++ String c m)%string).
  { revert x L H. induction a as [|e a IH]; intros x L H; destruct x as [|f x]; simpl in *; inversion H; subst.
    - exists x. auto.
    - exfalso. destruct a; discriminate.
    - destruct (IH x) as [m ->]; auto. { intros [u [v ->]]. apply L. exists (String e u), v. auto. } exists m. auto. }
  destruct Q as [m ->]. exists a, m. auto.
Qed.
Lemma smem_occurs : forall c s, smem c s = true <-> occurs (String c "") s.
Proof.
  induction s; simpl. { split; [discriminate|]. intros H. exfalso. eapply occurs_nil; [|exact H]. discriminate. }
  rewrite orb_true_iff, occurs_cons, IHs, Ascii.eqb_eq. split; intros [H|H]; auto; left.
  - subst. exists s. auto.
  - destruct H as [b H]. inversion H. auto.
Qed.
Lemma smem_lacks : forall c s, smem c s = false <-> lacks c s.
Proof. intros. unfold lacks. rewrite <- smem_occurs. destruct (smem c s); split; congruence. Qed.

(** ** Join *)
Lemma Join_glue : forall sep l s, Join l sep = Ok s -> s = glue sep l.
Proof.
  intros sep [|x l] s; simpl; [discriminate|]. intros H. inversion H; subst. clear H. revert x.
  induction l as [|y l IH]; intros x; simpl; auto. rewrite IH. destruct l; simpl; rewrite ?app_assoc_s; auto.
Qed.
Lemma Join_ok : forall sep l, l <> [] -> Join l sep = Ok (glue sep l).
Proof. intros sep l N. destruct (Join l sep) eqn:E; destruct l; try congruence; try discriminate. f_equal. eapply Join_glue; eauto. Qed.

(** ** Trim *)
Lemma smem_blanks : forall c, smem c blanks = true <-> blank c.
Proof.
  intros c. unfold blanks, blank, tab, nl, vt, ff, cr. simpl. rewrite !orb_true_iff, !Ascii.eqb_eq. intuition congruence.
Qed.
Lemma every_app : forall P a b, every P (a ++ b)%string <-> every P a /\ every P b.
Proof. induction a; simpl; intros; [tauto|]. rewrite IHa. tauto. Qed.
Lemma LTrim_spec : forall chars s, exists pre, s = (pre ++ LTrim chars s)%string /\ every (fun c => smem c chars = true) pre /\
  (forall c r, LTrim chars s = String c r -> smem c chars = false).
Proof.
  induction s; simpl. { exists "". simpl. repeat split; auto. discriminate. }
  destruct (smem a chars) eqn:E.
  - destruct IHs as [pre [H1 [H2 H3]]]. exists (String a pre). simpl. rewrite <- H1. auto.
  - exists "". simpl. repeat split; auto. intros c r H. inversion H; subst. auto.
Qed.
Lemma RTrim_spec : forall chars s, exists post, s = (RTrim chars s ++ post)%string /\ every (fun c => smem c chars = true) post /\
  (forall c r, RTrim chars s = (r ++ String c "")%string -> smem c chars = false).
Proof.
  induction s; simpl. { exists "". simpl. repeat split; auto. intros c r H. destruct r; discriminate. }
  destruct IHs as [post [H1 [H2 H3]]]. destruct (RTrim chars s) as [|d t] eqn:R.
  - simpl in H1. subst post. destruct (smem a chars) eqn:E.
    + exists (String a s). simpl. repeat split; auto.
    + exists s. simpl. repeat split; auto. intros c [|x r] H; simpl in H; inversion H; subst; auto. destruct r; discriminate.
  - exists post. simpl in *. rewrite <- H1. repeat split; auto. intros c [|x r] H; simpl in H; inversion H; subst.
    eapply H3. eauto.
Qed.
Lemma Trim_spec : forall s, trimmed blank s (Trim s).
Proof.
  intros s. unfold Trim. destruct (RTrim_spec blanks s) as [post [E1 [P1 N1]]]. destruct (LTrim_spec blanks (RTrim blanks s)) as [pre [E2 [P2 N2]]].
  set (t := LTrim blanks (RTrim blanks s)) in *.
  assert (EV : forall x, every (fun c => smem c blanks = true) x -> every blank x).
  { induction x; simpl; auto. intros [H K]. split; auto. apply smem_blanks. auto. }
  split.
  - exists pre, post. split; [|split; apply EV; auto]. rewrite <- app_assoc_s, <- E2. auto.
  - split.
    + intros c r H B. apply smem_blanks in B. rewrite (N2 c r H) in B. discriminate.
    + intros c r H B. apply smem_blanks in B. rewrite (N1 c (pre ++ r)%string) in B; [discriminate|].
      rewrite E2, H. rewrite app_assoc_s. auto.
Qed.
(** The trimmed text is determined. *)
Lemma every_no_edge_front : forall P pre pre' x y, every P pre -> every P pre' ->
  (forall c r, x = String c r -> ~ P c) -> (forall c r, y = String c r -> ~ P c) -> x <> "" -> y <> "" ->
  (pre ++ x)%string = (pre' ++ y)%string -> x = y.
Proof.
  induction pre; simpl; intros pre' x y E E' Nx Ny NEx NEy H.
  - destruct pre'; simpl in H; auto. subst x. destruct E' as [Pa _]. exfalso. eapply Nx; eauto.
  - destruct pre'; simpl in H. { subst y. exfalso. eapply Ny; [reflexivity|]. tauto. }
    inversion H; subst. destruct E as [_ E]. destruct E' as [_ E']. eapply IHpre; eauto.
Qed.
Lemma snoc_cases : forall s, s = "" \/ exists r c, s = (r ++ String c "")%string.
Proof. induction s; auto. right. destruct IHs as [->|[r [c ->]]]; [exists "", a; auto|exists (String a r), c; auto]. Qed.
Lemma snoc_inj : forall a c b d, (a ++ String c "")%string = (b ++ String d "")%string -> a = b /\ c = d.
Proof.
  induction a as [|x a IH]; intros c [|y b] d H; simpl in H; inversion H; subst; auto.
  - destruct b; discriminate.
  - destruct a; discriminate.
  - destruct (IH _ _ _ H2). subst. auto.
Qed.
Lemma every_no_edge_back : forall P post post' x y, every P post -> every P post' ->
  (forall c r, x = (r ++ String c "")%string -> ~ P c) -> (forall c r, y = (r ++ String c "")%string -> ~ P c) -> x <> "" -> y <> "" ->
  (x ++ post)%string = (y ++ post')%string -> x = y.
Proof.
  intros P post. remember (String.length post) as n eqn:L. revert post L. induction n; intros post L post' x y E E' Nx Ny NEx NEy H.
  - destruct post; [|discriminate]. rewrite app_nil_r_s in H. destruct (snoc_cases post') as [->|[r [c ->]]]; [rewrite app_nil_r_s in H; auto|].
    rewrite <- app_assoc_s in H. apply every_app in E'. simpl in E'. exfalso. eapply Nx; [exact H|]. tauto.
  - destruct (snoc_cases post) as [->|[r [c ->]]]; [discriminate|]. rewrite length_app_s in L. simpl in L.
    apply every_app in E. simpl in E. destruct (snoc_cases post') as [->|[r' [c' ->]]].
    + rewrite app_nil_r_s, <- app_assoc_s in H. symmetry in H. exfalso. eapply Ny; [exact H|]. tauto.
    + apply every_app in E'. simpl in E'. rewrite <- !app_assoc_s in H. apply snoc_inj in H. destruct H as [H _].
      eapply (IHn r); eauto; try tauto. lia.
Qed.
Lemma all_no_edge : forall P t, every P t -> no_edge P t -> t = "".
Proof. intros P [|c t] E [N _]; auto. exfalso. eapply N; [reflexivity|]. apply E. Qed.
Lemma trimmed_unique : forall P s t t', trimmed P s t -> trimmed P s t' -> t = t'.
Proof.
  intros P s t t' [[pre [post [E [E1 E2]]]] [N1 N2]] [[pre' [post' [E' [E1' E2']]]] [N1' N2']].
  destruct (string_dec t "") as [->|NT].
  - simpl in E. subst s. assert (every P (pre' ++ t' ++ post')) by (rewrite <- E'; apply every_app; auto).
    apply every_app in H. destruct H as [_ H]. apply every_app in H. symmetry. apply (all_no_edge P); [tauto|split; auto].
  - destruct (string_dec t' "") as [->|NT'].
    + simpl in E'. rewrite E in E'. assert (H : every P (pre ++ t ++ post)) by (rewrite E'; apply every_app; auto).
      apply every_app in H. destruct H as [_ H]. apply every_app in H. apply (all_no_edge P); [tauto|split; auto].
    + rewrite E in E'. assert (Q : (t ++ post)%string = (t' ++ post')%string).
      { eapply (every_no_edge_front P pre pre'); eauto.
        - intros c r H. destruct t; [congruence|]. inversion H; subst. eapply N1. eauto.
        - intros c r H. destruct t'; [congruence|]. inversion H; subst. eapply N1'. eauto.
        - destruct t; [congruence|discriminate].
        - destruct t'; [congruence|discriminate]. }
      eapply (every_no_edge_back P post post'); eauto.
Qed.
Lemma Trim_unique : forall s t, trimmed blank s t -> Trim s = t.
Proof. intros. eapply trimmed_unique; eauto. apply Trim_spec. Qed.
Lemma Trim_id : forall t, no_edge blank t -> Trim t = t.
Proof. intros t N. apply Trim_unique. split; auto. exists "", "". rewrite app_nil_r_s. simpl. auto. Qed.
Lemma Trim_idem : forall s, Trim (Trim s) = Trim s.
Proof. intros. apply Trim_id. apply Trim_spec. Qed.

(** ** Others *)
Lemma SetSubtract_in : forall a b x, In x (SetSubtract a b) <-> In x a /\ ~ In x b.
Proof. intros. unfold SetSubtract. rewrite filter_In, negb_true_iff, inb_false. tauto. Qed.

Lemma ArrayToString_fold : forall l acc, fold_left (fun acc it => (acc ++ (", " ++ it))%string) l acc =
  (acc ++ match l with [] => "" | _ => ", " ++ glue ", " l end)%string.
Proof.
  induction l as [|x l IH]; intros acc. { simpl. rewrite app_nil_r_s. auto. }
  cbn [fold_left]. rewrite IH. destruct l; simpl; rewrite !app_assoc_s; simpl; rewrite ?app_nil_r_s; auto.
Qed.
Lemma ArrayToString_spec : forall l, l <> [] -> ArrayToString l = Ok (glue ", " l).
Proof.
  intros l N. unfold ArrayToString. rewrite ArrayToString_fold. destruct l; [congruence|]. reflexivity.
Qed.
