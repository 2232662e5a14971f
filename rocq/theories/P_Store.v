(** Lemmas about the policy store. *)
From Coq Require Import Permutation NArith.
From Verif Require Import Base P_Base M_Util M_RoleManager M_Model M_Persist M_Evaluator M_Enforcer S_Policy P_Decide.

(** ** Rule comparison *)
Lemma compare_trans : forall a b c, String.compare a b = Lt -> String.compare b c = Lt -> String.compare a c = Lt.
Proof.
  induction a as [|x a IH]; intros [|y b] [|z c]; simpl; try congruence; auto.
  unfold Ascii.compare.
  destruct (N.compare_spec (N_of_ascii x) (N_of_ascii y)) as [E1|L1|G1]; try congruence;
  destruct (N.compare_spec (N_of_ascii y) (N_of_ascii z)) as [E2|L2|G2]; try congruence; intros.
  - rewrite E1, E2, N.compare_refl. eauto.
  - rewrite E1. apply N.compare_lt_iff in L2. rewrite L2. reflexivity.
  - rewrite <- E2. apply N.compare_lt_iff in L1. rewrite L1. reflexivity.
  - assert (L : (N_of_ascii x < N_of_ascii z)%N) by (eapply N.lt_trans; eauto).
    apply N.compare_lt_iff in L. rewrite L. reflexivity.
Qed.

Lemma sleb_total : forall a b, sleb a b = true \/ sleb b a = true.
Proof.
  intros. unfold sleb. rewrite (String.compare_antisym a b). destruct (String.compare b a); simpl; auto.
Qed.
Lemma sleb_antisym : forall a b, sleb a b = true -> sleb b a = true -> a = b.
Proof.
  intros a b. unfold sleb. rewrite (String.compare_antisym a b). destruct (String.compare b a) eqn:E; simpl; try congruence.
  intros. symmetry. apply String.compare_eq_iff. auto.
Qed.
Lemma sleb_trans : forall a b c, sleb a b = true -> sleb b c = true -> sleb a c = true.
Proof.
  intros a b c. unfold sleb. destruct (String.compare a b) eqn:E1; try congruence.
  - apply String.compare_eq_iff in E1. subst. auto.
  - destruct (String.compare b c) eqn:E2; try congruence.
    + apply String.compare_eq_iff in E2. subst. rewrite E1. auto.
    + rewrite (compare_trans a b c E1 E2). auto.
Qed.

Lemma sinsert_perm : forall x l, Permutation (sinsert x l) (x :: l).
Proof.
  induction l; simpl; auto. destruct (sleb x a); auto.
  eapply Permutation_trans; [apply perm_skip, IHl|]. apply perm_swap.
Qed.
Lemma ssort_perm : forall l, Permutation (ssort l) l.
Proof.
  induction l; simpl; auto. eapply Permutation_trans; [apply sinsert_perm|]. auto.
Qed.

Lemma sinsert_comm : forall x y l, sinsert x (sinsert y l) = sinsert y (sinsert x l).
Proof.
  induction l as [|z l IH]; simpl.
  - destruct (sleb x y) eqn:A, (sleb y x) eqn:B; auto.
    + rewrite (sleb_antisym x y); auto.
    + destruct (sleb_total x y); congruence.
  - destruct (sleb y z) eqn:YZ, (sleb x z) eqn:XZ; simpl.
    + destruct (sleb x y) eqn:A, (sleb y x) eqn:B; rewrite ?YZ, ?XZ; auto.
      * rewrite (sleb_antisym x y); auto.
      * destruct (sleb_total x y); congruence.
    + destruct (sleb x y) eqn:A.
      * rewrite (sleb_trans x y z) in XZ; congruence.
      * rewrite XZ, YZ. reflexivity.
    + destruct (sleb y x) eqn:A.
      * rewrite (sleb_trans y x z) in YZ; congruence.
      * rewrite XZ, YZ. reflexivity.
    + rewrite XZ, YZ, IH. reflexivity.
Qed.

Lemma ssort_perm_eq : forall a b, Permutation a b -> ssort a = ssort b.
Proof.
  induction 1; simpl; try congruence. apply sinsert_comm.
Qed.

Lemma ArrayEquals_perm : forall a b, ArrayEquals a b = true <-> Permutation a b.
Proof.
  intros. unfold ArrayEquals. split.
  - destruct (Nat.eqb (List.length a) (List.length b)); [|discriminate]. intros H. apply rule_eqb_true in H.
    eapply Permutation_trans; [apply Permutation_sym, ssort_perm|]. rewrite H. apply ssort_perm.
  - intros H. rewrite (Permutation_length H), Nat.eqb_refl, (ssort_perm_eq _ _ H). apply rule_eqb_refl.
Qed.
Lemma ArrayEquals_refl : forall a, ArrayEquals a a = true.
Proof. intros. apply ArrayEquals_perm. auto. Qed.

Lemma has_rule_true : forall l r, has_rule l r = true <-> exists x, In x l /\ Permutation r x.
Proof.
  intros. unfold has_rule. rewrite existsb_exists. split; intros [x [I P]]; exists x; split; auto;
    apply ArrayEquals_perm; auto.
Qed.
Lemma has_rule_in : forall l r, no_anagram r l -> (has_rule l r = true <-> In r l).
Proof.
  intros. rewrite has_rule_true. split.
  - intros [x [I P]]. rewrite <- (H x I P). auto.
  - intros I. exists r. auto.
Qed.
Lemma has_rule_false : forall l r, no_anagram r l -> (has_rule l r = false <-> ~ In r l).
Proof. intros. rewrite <- has_rule_in by auto. destruct (has_rule l r); split; congruence. Qed.

Lemma has_rule_app : forall l1 l2 r, has_rule (l1 ++ l2) r = has_rule l1 r || has_rule l2 r.
Proof. intros. apply existsb_app. Qed.

(** ** Erasing *)
Lemma erase_first_none : forall r l, erase_first r l = None <-> has_rule l r = false.
Proof.
  induction l; simpl; [tauto|]. destruct (ArrayEquals r a); simpl; [split; discriminate|].
  rewrite <- IHl. destruct (erase_first r l); simpl; split; congruence.
Qed.
Lemma erase_first_some : forall r l l', erase_first r l = Some l' ->
  exists pre x post, l = pre ++ x :: post /\ l' = pre ++ post /\ Permutation r x /\
    forall y, In y pre -> ~ Permutation r y.
Proof.
  induction l; simpl; intros; [discriminate|]. destruct (ArrayEquals r a) eqn:E.
  - inversion H; subst. exists [], a, l'. repeat split; auto. apply ArrayEquals_perm. auto.
  - destruct (erase_first r l) as [l1|] eqn:E1; simpl in H; [|discriminate]. inversion H; subst.
    destruct (IHl l1 eq_refl) as [pre [x [post [-> [-> [P N]]]]]].
    exists (a :: pre), x, post. repeat split; auto. intros y [<-|I]; auto.
    intro Q. apply ArrayEquals_perm in Q. congruence.
Qed.

(** ** Store *)
Lemma rules_with : forall s l, rules_of (with_rules s l) = l.
Proof. intros []; reflexivity. Qed.
Lemma rules_clear : forall s, rules_of (store_clear s) = [].
Proof. intros []; reflexivity. Qed.
Lemma emplace_new : forall s r, has_rule (rules_of s) r = false -> rules_of (emplace s r) = rules_of s ++ [r].
Proof.
  intros [l|l] r H; simpl; auto. destruct (existsb (rule_eqb r) l) eqn:E; auto.
  apply existsb_rule_true in E. exfalso. assert (has_rule l r = true); [|simpl in H; congruence].
  apply has_rule_true. exists r. auto.
Qed.
Lemma emplace_vec : forall l r, emplace (Vec l) r = Vec (l ++ [r]).
Proof. reflexivity. Qed.
Lemma emplace_in : forall s r x, In x (rules_of (emplace s r)) <-> x = r \/ In x (rules_of s).
Proof.
  intros [l|l] r x; simpl.
  - rewrite in_app_iff. simpl. intuition.
  - destruct (existsb (rule_eqb r) l) eqn:E; simpl.
    + apply existsb_rule_true in E. split; [auto|intros [->|]; auto].
    + rewrite in_app_iff. simpl. intuition.
Qed.
Lemma fold_emplace_in : forall rs s x, In x (rules_of (fold_left emplace rs s)) <-> In x rs \/ In x (rules_of s).
Proof.
  induction rs; simpl; intros; [tauto|]. rewrite IHrs, emplace_in. intuition.
Qed.
Lemma fold_emplace_vec : forall rs l, fold_left emplace rs (Vec l) = Vec (l ++ rs).
Proof.
  induction rs; simpl; intros; [rewrite app_nil_r; auto|]. rewrite IHrs, <- app_assoc. reflexivity.
Qed.
Lemma fold_emplace_hash : forall rs l, NoDup rs -> (forall r, In r rs -> ~ In r l) ->
  fold_left emplace rs (Hash l) = Hash (l ++ rs).
Proof.
  induction rs; simpl; intros; [rewrite app_nil_r; auto|]. inversion H; subst.
  destruct (existsb (rule_eqb a) l) eqn:E.
  - apply existsb_rule_true in E. exfalso. eapply H0; eauto.
  - rewrite IHrs; auto.
    + rewrite <- app_assoc. reflexivity.
    + intros r I C. apply in_app_iff in C. destruct C as [C|[<-|[]]]; [eapply H0; eauto|auto].
Qed.

(** ** Reading the model after a write *)
Lemma rules_in_put : forall m sec pt a p, rules_in (put_policy m sec pt a p) sec pt = rules_of p.
Proof. intros. unfold rules_in. rewrite get_put_same. reflexivity. Qed.
Lemma rules_in_put_other : forall m sec pt a p sec' pt', (sec', pt') <> (sec, pt) ->
  rules_in (put_policy m sec pt a p) sec' pt' = rules_in m sec' pt'.
Proof. intros. unfold rules_in. rewrite get_put_other by auto. reflexivity. Qed.
Lemma rules_in_get : forall m sec pt a, get_ast m sec pt = Ok a -> rules_in m sec pt = rules_of (a_policy a).
Proof. intros. unfold rules_in. rewrite H. reflexivity. Qed.

Lemma get_put_ast_same : forall m sec pt a, get_ast (put_ast m sec pt a) sec pt = Ok a.
Proof. intros. unfold get_ast, put_ast, sec_of. rewrite aget_aset_same, aget_aset_same. reflexivity. Qed.
Lemma get_put_ast_other : forall m sec pt a sec' pt', (sec', pt') <> (sec, pt) ->
  get_ast (put_ast m sec pt a) sec' pt' = get_ast m sec' pt'.
Proof.
  intros. unfold get_ast, put_ast, sec_of. rewrite aget_aset.
  seqb sec' sec; [subst|reflexivity].
  rewrite aget_aset_other by congruence. reflexivity.
Qed.
Lemma pair_dec : forall s1 p1 s2 p2 : string, {(s1, p1) = (s2, p2)} + {(s1, p1) <> (s2, p2)}.
Proof. intros. destruct (string_dec s1 s2), (string_dec p1 p2); subst; auto; right; congruence. Qed.

Lemma rules_in_put_rm : forall m sec pt a rm sec' pt', get_ast m sec pt = Ok a ->
  rules_in (put_ast m sec pt (with_rm a rm)) sec' pt' = rules_in m sec' pt'.
Proof.
  intros. destruct (pair_dec sec' pt' sec pt) as [E|E].
  - inversion E; subst. unfold rules_in. rewrite get_put_ast_same, H. reflexivity.
  - unfold rules_in. rewrite get_put_ast_other by auto. reflexivity.
Qed.

(** ** Filters *)
Lemma field_match_spec : forall vals r i b, field_match r i vals = Ok b -> (b = true <-> qualifies i vals r).
Proof.
  induction vals as [|v vs IH]; simpl; intros r i b H.
  - inversion H; subst. split; auto. intros _ [|j] x Q; discriminate.
  - assert (QQ : qualifies i (v :: vs) r <-> (v <> "" -> nth_error r i = Some v) /\ qualifies (S i) vs r).
    { unfold qualifies. split.
      - intros Q. split.
        + intros N. specialize (Q 0 v eq_refl N). rewrite Nat.add_0_r in Q. auto.
        + intros j x E N. specialize (Q (S j) x E N). rewrite <- Nat.add_succ_comm in Q. auto.
      - intros [Q1 Q2] [|j] x E N; simpl in E.
        + inversion E; subst. rewrite Nat.add_0_r. auto.
        + rewrite <- Nat.add_succ_comm. auto. }
    destruct (String.eqb_spec v "") as [V|V].
    + rewrite (IH _ _ _ H), QQ. subst. tauto.
    + destruct (nth_error r i) as [x|] eqn:NE; [|discriminate]. destruct (String.eqb_spec x v) as [W|W].
      * rewrite (IH _ _ _ H), QQ. subst. tauto.
      * inversion H; subst. rewrite QQ. split; [discriminate|]. intros [Q _]. specialize (Q V). congruence.
Qed.

Lemma field_match_range : forall vals r i, i + List.length vals <= List.length r -> exists b, field_match r i vals = Ok b.
Proof.
  induction vals as [|v vs IH]; simpl; intros; eauto. destruct (String.eqb v ""). { apply IH. lia. }
  destruct (nth_error r i) eqn:E.
  - destruct (String.eqb s v); eauto. apply IH. lia.
  - apply nth_error_None in E. lia.
Qed.

Lemma filter_rules_spec : forall i vals l l', filter_rules i vals l = Ok l' -> selects (qualifies i vals) l l'.
Proof.
  induction l; simpl; intros. { inversion H. constructor. }
  destruct (field_match a i vals) as [b| |] eqn:F; simpl in H; try discriminate.
  destruct (filter_rules i vals l) as [r| |]; simpl in H; try discriminate.
  inversion H; subst. apply field_match_spec in F. destruct b.
  - constructor; auto. tauto.
  - constructor; auto. intro C. apply F in C. discriminate.
Qed.
Lemma filter_rules_range : forall i vals l, filter_in_range i vals l -> exists l', filter_rules i vals l = Ok l'.
Proof.
  induction l; simpl; intros; eauto.
  destruct (field_match_range vals a i) as [b B]. { apply H. simpl; auto. }
  destruct IHl as [l' L]. { intros r I. apply H. simpl; auto. }
  rewrite B, L. simpl. eauto.
Qed.
Lemma partition_rules_spec : forall i vals l eff tmp, partition_rules i vals l = Ok (eff, tmp) ->
  selects (qualifies i vals) l eff /\ selects (fun r => ~ qualifies i vals r) l tmp.
Proof.
  induction l; simpl; intros. { inversion H. split; constructor. }
  destruct (field_match a i vals) as [b| |] eqn:F; simpl in H; try discriminate.
  destruct (partition_rules i vals l) as [[e1 t1]| |]; simpl in H; try discriminate.
  destruct (IHl e1 t1 eq_refl) as [A B]. apply field_match_spec in F. destruct b; inversion H; subst.
  - split; constructor; auto; tauto.
  - assert (~ qualifies i vals a) by (intro C; apply F in C; discriminate). split; constructor; auto.
Qed.
Lemma partition_rules_range : forall i vals l, filter_in_range i vals l -> exists eff tmp, partition_rules i vals l = Ok (eff, tmp).
Proof.
  induction l; simpl; intros; eauto.
  destruct (field_match_range vals a i) as [b B]. { apply H. simpl; auto. }
  destruct IHl as [e1 [t1 L]]. { intros r I. apply H. simpl; auto. }
  rewrite B, L. simpl. destruct b; eauto.
Qed.
Lemma partition_filter : forall i vals l eff tmp, partition_rules i vals l = Ok (eff, tmp) -> filter_rules i vals l = Ok eff.
Proof.
  induction l; simpl; intros. { inversion H. reflexivity. }
  destruct (field_match a i vals) as [b| |]; simpl in *; try discriminate.
  destruct (partition_rules i vals l) as [[e1 t1]| |]; simpl in *; try discriminate.
  rewrite (IHl e1 t1 eq_refl). simpl. destruct b; inversion H; reflexivity.
Qed.
Lemma selects_in : forall P l l' x, selects P l l' -> (In x l' <-> In x l /\ P x).
Proof.
  induction 1; simpl.
  - tauto.
  - rewrite IHselects. split; [intros [->|]; tauto|]. tauto.
  - rewrite IHselects. split; [tauto|]. intros [[->|] Q]; tauto.
Qed.

(** ** Duplicates *)
Lemma dedup_in : forall s found x, In x (dedup_aux found s) <-> In x s /\ ~ In x found.
Proof.
  induction s; simpl; intros; [tauto|]. destruct (inb a found) eqn:E.
  - apply inb_true in E. rewrite IHs. split; [tauto|]. intros [[->|]]; tauto.
  - apply inb_false in E. simpl. rewrite IHs. simpl. destruct (string_dec a x); subst; tauto.
Qed.
Lemma dedup_nodup : forall s found, NoDup (dedup_aux found s).
Proof.
  induction s; simpl; intros; [constructor|]. destruct (inb a found); auto.
  constructor; auto. rewrite dedup_in. simpl. tauto.
Qed.
