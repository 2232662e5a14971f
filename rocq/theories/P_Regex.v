(** Proofs about regular expressions. *)
From Verif Require Import Base P_Base M_Util M_Eval M_Regex S_Text P_Text S_Regex P_BuiltIn.
From Coq Require Import Lia.

(** ** The matcher *)
Lemma after_none : forall s, accepts RNone s = false.
Proof. induction s; auto. Qed.
Lemma accepts_empty : forall s, accepts REmpty s = true <-> s = "".
Proof. intros [|c s]; simpl; [tauto|]. rewrite after_none. split; discriminate. Qed.
Lemma accepts_set : forall neg l s, accepts (RSet neg l) s = true <-> exists c, s = String c "" /\ in_set neg l c = true.
Proof.
  intros neg l [|c s]; simpl. { split; [discriminate|]. intros [c [E _]]. discriminate. }
  destruct (in_set neg l c) eqn:E.
  - rewrite accepts_empty. split; [intros ->; eauto|]. intros [d [Q _]]. congruence.
  - rewrite after_none. split; [discriminate|]. intros [d [Q F]]. congruence.
Qed.
Lemma accepts_alt : forall s a b, accepts (RAlt a b) s = accepts a s || accepts b s.
Proof. induction s; simpl; auto. Qed.
Lemma accepts_cat : forall s a b, accepts (RCat a b) s = true <-> exists x y, s = (x ++ y)%string /\ accepts a x = true /\ accepts b y = true.
Proof.
  induction s as [|c s IH]; intros a b.
  - simpl. rewrite Bool.andb_true_iff. split.
    + intros [A B]. exists "", "". auto.
    + intros [x [y [E [A B]]]]. destruct x; [|discriminate]. destruct y; [|discriminate]. auto.
  - assert (K : (exists x y, s = (x ++ y)%string /\ accepts (after c a) x = true /\ accepts b y = true) <->
      exists x y, String c s = (x ++ y)%string /\ x <> "" /\ accepts a x = true /\ accepts b y = true).
    { split.
      - intros [x [y [-> [A B]]]]. exists (String c x), y. repeat split; auto; discriminate.
      - intros [x [y [E [N [A B]]]]]. destruct x as [|d x]; [congruence|]. injection E as <- E. exists x, y. auto. }
    cbn [accepts after]. destruct (nullable a) eqn:NU.
    + rewrite accepts_alt, Bool.orb_true_iff, IH, K. split.
      * intros [[x [y [E [_ H]]]]|B]; [eauto|]. exists "", (String c s). split; auto.
      * intros [x [y [E [A B]]]]. destruct x as [|d x].
        -- right. cbn [append] in E. subst y. exact B.
        -- left. exists (String d x), y. repeat split; auto. discriminate.
    + rewrite IH, K. split.
      * intros [x [y [E [_ H]]]]. eauto.
      * intros [x [y [E [A B]]]]. exists x, y. repeat split; auto. intros ->. simpl in A. congruence.
Qed.
Lemma accepts_star : forall a s, accepts (RStar a) s = true <-> repeated (fun k => accepts a k = true) s.
Proof.
  intros a s. remember (String.length s) as n. revert s Heqn. induction n as [n IH] using (well_founded_induction Wf_nat.lt_wf).
  intros [|c s] L.
  - simpl. split; auto. intros _. constructor.
  - cbn [accepts after]. rewrite accepts_cat. split.
    + intros [x [y [-> [A B]]]]. change (String c (x ++ y)) with (String c x ++ y)%string. apply rep_more; [exact A|].
      apply (IH (String.length y)); auto. rewrite L. cbn. rewrite length_app_s. lia.
    + intros R. remember (String c s) as k eqn:E. revert c s E L. induction R as [|x y A R IHR]; intros c s E L; [discriminate|].
      destruct x as [|d x].
      * cbn [append] in E. apply IHR; auto.
      * cbn [append] in E. injection E as -> E. exists x, y. repeat split; auto.
        apply (IH (String.length y)); auto. rewrite L. cbn. rewrite length_app_s. lia.
Qed.
Lemma repeated_ext : forall L M, (forall k, L k <-> M k) -> forall k, repeated L k <-> repeated M k.
Proof. intros L M H k. split; intros R; induction R; constructor; auto; apply H; auto. Qed.

(** ** Characters *)
Lemma between_range : forall x c d, between x (c, d) = true <-> range c d x.
Proof. intros. unfold between, range. cbn [fst snd]. rewrite Bool.andb_true_iff, !Nat.leb_le. tauto. Qed.
Lemma range_self : forall c x, range c c x <-> x = c.
Proof.
  intros. unfold range. split.
  - intros H. assert (E : nat_of_ascii x = nat_of_ascii c) by lia. rewrite <- (ascii_nat_embedding x), E. apply ascii_nat_embedding.
  - intros ->. lia.
Qed.
Lemma meaning_special : forall c, has_meaning c <-> special c = true.
Proof. intros. symmetry. apply smem_occurs. Qed.
Lemma class_meaning_special : forall c, has_class_meaning c <-> class_special c = true.
Proof. intros. symmetry. apply smem_occurs. Qed.
Lemma no_meaning : forall c, ~ has_meaning c -> special c = false.
Proof. intros c H. destruct (special c) eqn:E; auto. elim H. apply meaning_special; auto. Qed.
Lemma no_class_meaning : forall c, ~ has_class_meaning c -> class_special c = false.
Proof. intros c H. destruct (class_special c) eqn:E; auto. elim H. apply class_meaning_special; auto. Qed.
Lemma special_eq : forall c d, special c = false -> special d = true -> Ascii.eqb c d = false.
Proof. intros. apply Ascii.eqb_neq. intros ->. congruence. Qed.
Lemma class_special_eq : forall c d, class_special c = false -> class_special d = true -> Ascii.eqb c d = false.
Proof. intros. apply Ascii.eqb_neq. intros ->. congruence. Qed.

(** ** The reader *)
(** The texts that may follow. *)
Definition starts_in (set s : string) : Prop := exists c r, s = String c r /\ smem c set = true.
Definition stops (set s : string) : Prop := s = "" \/ starts_in set s.
Definition good (r : re) (L : lang) : Prop := forall k, accepts r k = true <-> L k.

Lemma class_head : forall s P rest, class_text s P -> forall c t, (s ++ "]" ++ rest)%string = String c t ->
  c <> "^"%char /\ forall d r, c = "-"%char -> t = String d r -> d = "]"%char.
Proof.
  intros s P rest H c t E. destruct H as [|c' s P N H|c' d' s P Nc Nd R H|c' Q s P Q' H|nm Q s P Q' H|]; cbn [append] in E; injection E as <- Et.
  - split; [discriminate|]. discriminate.
  - apply no_class_meaning in N. split; [intros ->; discriminate|]. intros d r ->. discriminate.
  - apply no_class_meaning in Nc. split; [intros ->; discriminate|]. intros d r ->. discriminate.
  - split; discriminate.
  - split; discriminate.
  - split; [discriminate|]. intros d r _ X. subst t. injection X as <- _. reflexivity.
Qed.
(** Membership in constant ranges is arithmetic. *)
Lemma eq_code : forall x c : ascii, x = c <-> nat_of_ascii x = nat_of_ascii c.
Proof. intros x c. split; [intros ->; auto|]. intros E. rewrite <- (ascii_nat_embedding x), E. apply ascii_nat_embedding. Qed.
Ltac codes x :=
  let B := fresh in pose proof (nat_ascii_bounded x) as B; revert B;
  repeat match goal with
  | |- context [nat_of_ascii (Ascii ?a ?b ?c ?d ?e ?f ?g ?h)] =>
      let v := eval vm_compute in (nat_of_ascii (Ascii a b c d e f g h)) in
      change (nat_of_ascii (Ascii a b c d e f g h)) with v
  end; generalize (nat_of_ascii x); intros k B; lia.
Ltac by_code x :=
  cbn [existsb]; rewrite ?Bool.orb_true_iff, ?between_range;
  unfold a_digit, a_word, a_space, a_letter, is_visible, range; rewrite ?eq_code; codes x.
Lemma escape_set_spec : forall c Q, escape c Q -> exists l, escape_set c = Some l /\ l <> [] /\ forall x, existsb (between x) l = true <-> Q x.
Proof.
  intros c Q H. destruct H as [| | | | | |c d H|c H].
  - exists digits. split; [reflexivity|]. split; [discriminate|]. intros x. unfold digits. by_code x.
  - exists word_chars. split; [reflexivity|]. split; [discriminate|]. intros x. unfold word_chars. by_code x.
  - exists spaces. split; [reflexivity|]. split; [discriminate|]. intros x. unfold spaces. by_code x.
  - exists not_digits. split; [reflexivity|]. split; [discriminate|]. intros x. unfold not_digits. by_code x.
  - exists not_word_chars. split; [reflexivity|]. split; [discriminate|]. intros x. unfold not_word_chars. by_code x.
  - exists not_spaces. split; [reflexivity|]. split; [discriminate|]. intros x. unfold not_spaces. by_code x.
  - exists [(d, d)]. split; [destruct H; reflexivity|]. split; [discriminate|]. intros x. cbn [existsb].
    rewrite Bool.orb_true_iff, between_range, range_self. intuition discriminate.
  - exists [(c, c)]. split; [|split; [discriminate|]].
    + unfold escape_set. assert (K : special c || Ascii.eqb c "/" || Ascii.eqb c "-" = true).
      { destruct H as [H|[->| ->]]; [|reflexivity|reflexivity]. apply meaning_special in H. rewrite H. reflexivity. }
      rewrite K. replace (look_up c escape_table) with (@None (list (ascii * ascii))); auto.
      destruct c as [[] [] [] [] [] [] [] []]; try reflexivity; discriminate K.
    + intros x. cbn [existsb]. rewrite Bool.orb_true_iff, between_range, range_self. intuition discriminate.
Qed.
Lemma without_app : forall p s, without p (p ++ s) = Some s.
Proof. induction p as [|c p IH]; intros s; [destruct s; reflexivity|]. cbn [append without]. rewrite Ascii.eqb_refl. apply IH. Qed.
Lemma without_sound : forall p s r, without p s = Some r -> s = (p ++ r)%string.
Proof.
  induction p as [|c p IH]; intros s r H; [injection H as <-; reflexivity|]. destruct s as [|d s]; [discriminate|]. cbn [without] in H.
  destruct (Ascii.eqb_spec c d) as [->|]; [|discriminate]. cbn [append]. rewrite (IH s r); auto.
Qed.
Lemma read_name_spec : forall n Q, named n Q -> exists l, (forall s, read_name class_table (":" ++ n ++ ":]" ++ s) = Some (l, s)) /\ l <> [] /\
  forall x, existsb (between x) l = true <-> Q x.
Proof.
  intros n Q H. destruct H; eexists; (split; [intros s; reflexivity|]); (split; [discriminate|]); intros x; unfold digits, spaces; by_code x.
Qed.
Lemma existsb_app_iff : forall (f : ascii * ascii -> bool) l m, existsb f (l ++ m) = true <-> existsb f l = true \/ existsb f m = true.
Proof. intros. rewrite existsb_app, Bool.orb_true_iff. reflexivity. Qed.
Lemma read_class_spec : forall s P, class_text s P -> forall n rest, String.length s + 1 <= n ->
  exists l, read_class n (s ++ "]" ++ rest) = Some (l, rest) /\ (forall x, existsb (between x) l = true <-> P x) /\ (s <> "" -> l <> []).
Proof.
  intros s P H. induction H as [|c s P N H IH|c d s P Nc Nd R H IH|c Q s P Q' H IH|nm Q s P Q' H IH|]; intros n rest F; destruct n as [|n]; try (cbn in F; lia).
  - exists []. repeat split; try discriminate; try tauto.
  - destruct (IH n rest) as [l [E [M _]]]. { cbn in F; lia. }
    exists ((c, c) :: l). split; [|split; [|discriminate]].
    + apply no_class_meaning in N. cbn [append read_class]. rewrite (class_special_eq c "]" N eq_refl), (class_special_eq c "-" N eq_refl), (class_special_eq c "\" N eq_refl), (class_special_eq c "[" N eq_refl), N.
      pose proof (class_head s P rest H) as HD. cbn [append] in HD, E. destruct (s ++ String "]" rest)%string as [|d t] eqn:Q; [destruct s; discriminate|].
      destruct t as [|d' t]; [rewrite E; reflexivity|]. destruct (HD d (String d' t) eq_refl) as [_ HX].
      destruct (Ascii.eqb_spec d "-") as [->|ND]; cbn [andb]; [|rewrite E; reflexivity]. rewrite (HX d' t eq_refl eq_refl). cbn [negb Ascii.eqb]. change (Ascii.eqb "]" "]") with true. cbn [negb].
      rewrite (HX d' t eq_refl eq_refl) in E. rewrite E. reflexivity.
    + intros x. cbn [existsb]. rewrite Bool.orb_true_iff, between_range, range_self, M. reflexivity.
  - destruct (IH n rest) as [l [E [M _]]]. { cbn in F; lia. }
    exists ((c, d) :: l). split; [|split; [|discriminate]].
    + apply no_class_meaning in Nc. apply no_class_meaning in Nd. cbn [append read_class] in *.
      rewrite (class_special_eq c "]" Nc eq_refl), (class_special_eq c "-" Nc eq_refl), (class_special_eq c "\" Nc eq_refl), (class_special_eq c "[" Nc eq_refl), Nc, Nd, (class_special_eq d "]" Nd eq_refl).
      change (Ascii.eqb "-" "-") with true. cbn [andb negb orb].
      replace (Nat.ltb _ _) with false by (symmetry; apply Nat.ltb_ge; lia). replace (Nat.leb 128 _) with false by (symmetry; apply Nat.leb_gt; lia).
      cbn [orb]. rewrite E. reflexivity.
    + intros x. cbn [existsb]. rewrite Bool.orb_true_iff, between_range, M. reflexivity.
  - destruct (IH n rest) as [l [E [M _]]]. { cbn in F; lia. } destruct (escape_set_spec c Q Q') as [e [EE [NE ME]]].
    exists (e ++ l). split; [|split].
    + cbn [append read_class] in *. change (Ascii.eqb "\" "]") with false. change (Ascii.eqb "\" "-") with false. change (Ascii.eqb "\" "\") with true. cbv iota. rewrite EE, E. reflexivity.
    + intros x. rewrite existsb_app_iff, ME, M. reflexivity.
    + intros _ X. apply app_eq_nil in X. tauto.
  - destruct (read_name_spec nm Q Q') as [e [EE [NE ME]]].
    destruct (IH n rest) as [l [E [M _]]]. { cbn [append String.length] in F. rewrite !length_app_s in F. cbn [append String.length] in F. lia. }
    exists (e ++ l). split; [|split].
    + rewrite !app_assoc_s. cbn [append] in EE, E |- *. cbn [read_class].
      change (Ascii.eqb "[" "]") with false. change (Ascii.eqb "[" "-") with false. change (Ascii.eqb "[" "\") with false. change (Ascii.eqb "[" "[") with true. cbv iota.
      rewrite ?app_assoc_s. cbn [append]. rewrite EE, E. reflexivity.
    + intros x. rewrite existsb_app_iff, ME, M. reflexivity.
    + intros _ X. apply app_eq_nil in X. tauto.
  - exists [("-", "-")]%char. split; [reflexivity|]. split; [|discriminate].
    intros x. cbn [existsb]. rewrite Bool.orb_true_iff, between_range, range_self. intuition discriminate.
Qed.

(** ** Counts *)
Lemma is_digit_spec : forall c, is_digit c = true <-> a_digit c.
Proof. intros. apply between_range. Qed.
Fixpoint value (acc : nat) (d : string) : nat :=
  match d with EmptyString => acc | String c d' => value (10 * acc + (nat_of_ascii c - nat_of_ascii "0")) d' end.
Lemma value_snoc : forall d acc c, value acc (d ++ String c "") = 10 * value acc d + (nat_of_ascii c - nat_of_ascii "0").
Proof. induction d as [|x d IH]; intros acc c; [reflexivity|]. cbn [append value]. apply IH. Qed.
Lemma numeral_value : forall d m, numeral d m -> every a_digit d /\ d <> "" /\ value 0 d = m.
Proof.
  intros d m H. induction H as [c D|s m c H [A [N V]] D].
  - split; [split; [auto|exact I]|]. split; [discriminate|]. reflexivity.
  - split; [|split].
    + clear - A D. induction s as [|x s IH]; [split; [auto|exact I]|]. destruct A. split; auto.
    + destruct s; discriminate.
    + rewrite value_snoc, V. reflexivity.
Qed.
Definition no_digit (s : string) : Prop := forall c t, s = String c t -> is_digit c = false.
Lemma read_digits_spec : forall d acc rest, every a_digit d -> no_digit rest -> read_digits acc (d ++ rest) = (value acc d, rest).
Proof.
  induction d as [|c d IH]; intros acc rest D R.
  - destruct rest as [|x t]; auto. cbn [append read_digits]. rewrite (R x t eq_refl). reflexivity.
  - destruct D as [Dc Dd]. cbn [append read_digits value]. apply is_digit_spec in Dc. rewrite Dc. apply IH; auto.
Qed.
Lemma read_number_spec : forall d m rest, numeral d m -> no_digit rest -> read_number (d ++ rest) = Some (m, rest).
Proof.
  intros d m rest H R. destruct (numeral_value d m H) as [A [N V]]. destruct d as [|c d]; [congruence|]. cbn [append read_number].
  destruct A as [Ac Ad]. rewrite (proj2 (is_digit_spec c) Ac). change (String c (d ++ rest)) with (String c d ++ rest)%string. rewrite read_digits_spec by (auto; split; auto). congruence.
Qed.
Lemma no_digit_cons : forall c t, is_digit c = false -> no_digit (String c t).
Proof. intros c t H x u E. injection E as <- _. exact H. Qed.
Lemma read_number_sound : forall s m t, read_number s = Some (m, t) -> exists d, s = (d ++ t)%string /\ numeral d m.
Proof.
  assert (R : forall s acc m t, read_digits acc s = (m, t) -> exists d, s = (d ++ t)%string /\ every a_digit d /\ value acc d = m).
  { induction s as [|c s IH]; intros acc m t H; cbn [read_digits] in H; [injection H as <- <-; exists ""; repeat split|].
    destruct (is_digit c) eqn:D; [|injection H as <- <-; exists ""; repeat split]. destruct (IH _ _ _ H) as [d [-> [A V]]]. exists (String c d). split; [reflexivity|]. split; [split; [apply is_digit_spec, D|exact A]|exact V]. }
  assert (V : forall d, every a_digit d -> forall p m, numeral p m -> numeral (p ++ d) (value m d)).
  { induction d as [|c d IH]; intros A p m P; [rewrite app_nil_r_s; exact P|]. destruct A as [Ac Ad]. cbn [value].
    replace (p ++ String c d)%string with ((p ++ String c "") ++ d)%string by (rewrite app_assoc_s; reflexivity). apply IH; auto. constructor; auto. }
  intros s m t H. destruct s as [|c s]; [discriminate|]. cbn [read_number] in H. destruct (is_digit c) eqn:D; [|discriminate]. injection H as H.
  rewrite D in H. destruct (R _ _ _ _ H) as [d [-> [A <-]]]. exists (String c d). split; [reflexivity|].
  change (String c d) with (String c "" ++ d)%string. apply (V d A (String c "")). constructor. apply is_digit_spec, D.
Qed.
Lemma count_times : forall d m t, numeral d m -> read_count (d ++ String "}" t) = Some (m, Some m, t).
Proof. intros. unfold read_count. rewrite (read_number_spec d m); auto. apply no_digit_cons. reflexivity. Qed.
Lemma count_least : forall d m t, numeral d m -> read_count (d ++ String "," (String "}" t)) = Some (m, None, t).
Proof. intros. unfold read_count. rewrite (read_number_spec d m); auto. apply no_digit_cons. reflexivity. Qed.
Lemma count_between : forall d m d' n t, numeral d m -> numeral d' n -> m <= n -> read_count (d ++ String "," (d' ++ String "}" t)) = Some (m, Some n, t).
Proof.
  intros d m d' n t H H' L. unfold read_count. rewrite (read_number_spec d m); auto; [|apply no_digit_cons; reflexivity].
  change (Ascii.eqb "," "}") with false. change (Ascii.eqb "," ",") with true. cbv iota.
  destruct (d' ++ String "}" t)%string as [|c r] eqn:E; [destruct d'; discriminate|].
  assert (C : Ascii.eqb c "}" = false). { destruct (numeral_value d' n H') as [A [N _]]. destruct d' as [|x d']; [congruence|]. cbn [append] in E. injection E as <- _. destruct A as [A _].
    apply Ascii.eqb_neq. intros ->. unfold a_digit, range in A. cbn in A. lia. }
  rewrite C, <- E, (read_number_spec d' n); auto; [|apply no_digit_cons; reflexivity]. change (Ascii.eqb "}" "}") with true. apply Nat.leb_le in L. rewrite L. reflexivity.
Qed.
Lemma count_sound : forall s m n t, read_count s = Some (m, n, t) -> exists d, numeral d m /\
  ((s = (d ++ "}" ++ t)%string /\ n = Some m) \/ (s = (d ++ ",}" ++ t)%string /\ n = None) \/
   exists d' k, numeral d' k /\ m <= k /\ s = (d ++ "," ++ d' ++ "}" ++ t)%string /\ n = Some k).
Proof.
  intros s m n t H. unfold read_count in H. destruct (read_number s) as [[m' u]|] eqn:E; [|discriminate]. destruct (read_number_sound _ _ _ E) as [d [-> D]].
  destruct u as [|c u]; [discriminate|]. destruct (Ascii.eqb_spec c "}") as [->|]. { injection H as <- <- <-. exists d. split; auto. }
  destruct (Ascii.eqb_spec c ",") as [->|]; [|discriminate]. destruct u as [|x u]; [discriminate|]. destruct (Ascii.eqb_spec x "}") as [->|]. { injection H as <- <- <-. exists d. split; auto. }
  destruct (read_number (String x u)) as [[k v]|] eqn:E'; [|discriminate]. destruct (read_number_sound _ _ _ E') as [d' [E2 D']]. destruct v as [|y v]; [discriminate|].
  destruct (Ascii.eqb_spec y "}") as [->|]; [|discriminate]. destruct (Nat.leb_spec m' k); [|discriminate]. cbn [andb] in H. injection H as <- <- <-.
  exists d. split; auto. right. right. exists d', k. rewrite E2. auto.
Qed.

Scheme alternatives_mut := Minimality for alternatives Sort Prop
  with sequence_mut := Minimality for sequence Sort Prop
  with part_mut := Minimality for part Sort Prop
  with single_mut := Minimality for single Sort Prop.
Combined Scheme regex_mut from alternatives_mut, sequence_mut, part_mut, single_mut.

Definition head_ok (s : string) : Prop := exists c r, s = String c r /\ smem c "*+?{|)$" = false.
Lemma special_head : forall c, special c = false -> smem c "*+?{|)$" = false.
Proof.
  intros c H. destruct (smem c "*+?{|)$") eqn:E; auto. exfalso.
  assert (K : forall d, smem d "*+?{|)$" = true -> special d = true).
  { intros d. unfold special. cbn [smem]. repeat match goal with |- context [Ascii.eqb ?a ?b] => destruct (Ascii.eqb a b) end; cbn; auto. }
  rewrite (K c E) in H. discriminate.
Qed.
Lemma single_head : forall s L, single s L -> head_ok s.
Proof.
  intros s L H. destruct H; cbn [append]; try (do 2 eexists; split; [reflexivity|reflexivity]).
  do 2 eexists. split; [reflexivity|]. apply special_head, no_meaning; auto.
Qed.
Lemma head_app : forall s t, head_ok s -> head_ok (s ++ t).
Proof. intros s t [c [r [-> H]]]. exists c, (r ++ t)%string. auto. Qed.
Lemma part_head : forall s L, part s L -> head_ok s.
Proof. intros s L H. destruct H; [|apply head_app..]; eapply single_head; eauto. Qed.
Lemma seq_head : forall s L, sequence s L -> s = "" \/ head_ok s.
Proof. intros s L H. destruct H; auto. right. apply head_app. eapply part_head; eauto. Qed.
(** What cannot be a quantifier. *)
Definition quiet (r : string) : Prop := forall c t, r = String c t -> smem c "*+?{" = false.
Lemma quiet_cons : forall c r, smem c "*+?{" = false -> quiet (String c r).
Proof. intros c r H d t E. injection E as <- _. exact H. Qed.
Lemma head_calm : forall s, head_ok s -> quiet s.
Proof.
  intros s [c [r [-> H]]]. apply quiet_cons. cbn [smem] in H |- *.
  destruct (Ascii.eqb c "*"), (Ascii.eqb c "+"), (Ascii.eqb c "?"), (Ascii.eqb c "{"); cbn in H; try discriminate; reflexivity.
Qed.
Lemma stops_calm : forall s, stops ")|$" s -> quiet s.
Proof.
  intros s [->|[c [r [-> H]]]]; [intros c t E; discriminate|]. apply quiet_cons. cbn [smem] in H.
  destruct (Ascii.eqb_spec c ")") as [->|]; [reflexivity|]. destruct (Ascii.eqb_spec c "|") as [->|]; [reflexivity|]. destruct (Ascii.eqb_spec c "$") as [->|]; [reflexivity|discriminate].
Qed.
Lemma seq_calm : forall s L rest, sequence s L -> stops ")|$" rest -> quiet (s ++ rest).
Proof. intros s L rest H R. destruct (seq_head s L H) as [->|O]; [exact (stops_calm _ R)|]. apply head_calm, head_app, O. Qed.

Lemma quant_none : forall r s, quiet s -> read_quant r s = (r, s).
Proof.
  intros r [|c t] H; [reflexivity|]. specialize (H c t eq_refl). cbn [read_quant smem] in *.
  destruct (Ascii.eqb c "*"), (Ascii.eqb c "+"), (Ascii.eqb c "?"), (Ascii.eqb c "{"); try discriminate; reflexivity.
Qed.
Lemma lazy_calm : forall s, quiet s -> lazy_mark s = s.
Proof.
  intros [|c t] H; [reflexivity|]. specialize (H c t eq_refl). unfold lazy_mark. destruct c as [[] [] [] [] [] [] [] []]; try reflexivity. discriminate.
Qed.
Lemma lazy_either : forall mark s, quiet s -> mark = "" \/ mark = "?" -> lazy_mark (mark ++ s) = s.
Proof. intros mark s H [->| ->]; [exact (lazy_calm s H)|reflexivity]. Qed.

Lemma good_cat : forall a b L M, good a L -> good b M -> good (RCat a b) (followed L M).
Proof.
  intros a b L M A B k. rewrite accepts_cat. unfold followed. split; intros [x [y [E [H1 H2]]]]; exists x, y; (split; [exact E|]); split; first [apply A|apply B]; auto.
Qed.
Lemma good_alt : forall a b L M, good a L -> good b M -> good (RAlt a b) (either L M).
Proof. intros a b L M A B k. rewrite accepts_alt, Bool.orb_true_iff, (A k), (B k). reflexivity. Qed.
Lemma good_star : forall a L, good a L -> good (RStar a) (repeated L).
Proof. intros a L A k. rewrite accepts_star. apply repeated_ext. exact A. Qed.
Lemma good_empty_lang : forall r L, good r L -> forall M, (forall k, L k <-> M k) -> good r M.
Proof. intros r L G M E k. rewrite (G k). apply E. Qed.
Lemma good_empty : good REmpty nothing_else.
Proof. exact accepts_empty. Qed.
Lemma good_times : forall r L m, good r L -> good (times r m) (power L m).
Proof. intros r L m G. induction m as [|m IH]; [exact good_empty|]. apply good_cat; auto. Qed.
Lemma good_up_to : forall r L m, good r L -> good (up_to r m) (between_times L 0 m).
Proof.
  intros r L m G. induction m as [|m IH].
  - apply (good_empty_lang _ _ good_empty). intros k. unfold between_times. split; [intros H; exists 0; auto|]. intros [i [B H]]. replace i with 0 in H by lia. exact H.
  - cbn [up_to]. apply (good_empty_lang _ (either (followed L (between_times L 0 m)) nothing_else)); [apply good_alt; [apply good_cat; auto|exact good_empty]|].
    intros k. unfold either, followed, between_times. split.
    + intros [[a [b [-> [A [i [B H]]]]]]|H]; [|exists 0; split; [lia|exact H]]. exists (S i). split; [lia|]. exists a, b. auto.
    + intros [[|i] [B H]]; [right; exact H|left]. destruct H as [a [b [-> [A H]]]]. exists a, b. repeat split; auto. exists i. split; [lia|exact H].
Qed.
Lemma power_add : forall L m n k, power L (m + n) k <-> followed (power L m) (power L n) k.
Proof.
  intros L m n. induction m as [|m IH]; intros k.
  - cbn. unfold followed, nothing_else. split; [intros H; exists "", k; auto|]. intros [a [b [-> [-> H]]]]. exact H.
  - cbn [Nat.add power]. unfold followed in *. split.
    + intros [a [b [-> [A H]]]]. apply IH in H. destruct H as [x [y [-> [X Y]]]]. exists (a ++ x)%string, y. rewrite app_assoc_s. repeat split; auto. exists a, x. auto.
    + intros [a [b [-> [[x [y [-> [X Y]]]] B]]]]. exists x, (y ++ b)%string. rewrite app_assoc_s. repeat split; auto. apply IH. exists y, b. auto.
Qed.
Lemma good_counted_between : forall r L m n, good r L -> m <= n -> good (counted r m (Some n)) (between_times L m n).
Proof.
  intros r L m n G LE. unfold counted. apply (good_empty_lang _ (followed (power L m) (between_times L 0 (n - m)))); [apply good_cat; [apply good_times|apply good_up_to]; auto|].
  intros k. unfold between_times. split.
  - intros [a [b [-> [A [i [B H]]]]]]. exists (m + i). split; [lia|]. apply power_add. exists a, b. auto.
  - intros [i [B H]]. replace i with (m + (i - m)) in H by lia. apply power_add in H. destruct H as [a [b [-> [A H]]]]. exists a, b. repeat split; auto. exists (i - m). split; [lia|exact H].
Qed.
Lemma good_counted_times : forall r L m, good r L -> good (counted r m (Some m)) (power L m).
Proof.
  intros r L m G. apply (good_empty_lang _ (between_times L m m)); [apply good_counted_between; auto|]. intros k. unfold between_times. split; [|intros H; exists m; auto].
  intros [i [B H]]. replace i with m in H by lia. exact H.
Qed.
Lemma good_counted_least : forall r L m, good r L -> good (counted r m None) (followed (power L m) (repeated L)).
Proof. intros r L m G. apply good_cat; [apply good_times|apply good_star]; auto. Qed.
Lemma good_set : forall neg l P, (forall c, in_set neg l c = true <-> P c) -> good (RSet neg l) (one_char P).
Proof. intros neg l P H k. rewrite accepts_set. unfold one_char. split; intros [c [E Q]]; exists c; (split; [exact E|]); apply H; auto. Qed.
Lemma in_set_cons : forall c d l x, in_set false ((c, d) :: l) x = true <-> range c d x \/ in_set false l x = true.
Proof. intros. unfold in_set. rewrite !Bool.xorb_false_l. cbn [existsb]. rewrite Bool.orb_true_iff, between_range. reflexivity. Qed.
Lemma in_set_pos : forall l x, in_set false l x = true <-> existsb (between x) l = true.
Proof. intros. unfold in_set. rewrite Bool.xorb_false_l. reflexivity. Qed.
Lemma in_set_nil : forall x, in_set false [] x = true <-> False.
Proof. intros. unfold in_set. simpl. split; [discriminate|tauto]. Qed.
Lemma in_set_neg : forall l x, in_set true l x = true <-> ~ in_set false l x = true.
Proof. intros. unfold in_set. destruct (existsb (between x) l); simpl; split; try tauto; try discriminate; congruence. Qed.
Lemma good_one : forall c, good (one c) (one_char (fun x => x = c)).
Proof. intros c. apply good_set. intros x. rewrite in_set_cons, in_set_nil, range_self. tauto. Qed.

Ltac reject H := rewrite ?(special_eq _ "." H eq_refl), ?(special_eq _ "\" H eq_refl), ?(special_eq _ "[" H eq_refl), ?(special_eq _ "(" H eq_refl), ?H.
Lemma escaped_of : forall c Q, escape c Q -> exists l, escaped c = Some (RSet false l) /\ forall x, in_set false l x = true <-> Q x.
Proof.
  intros c Q H. destruct (escape_set_spec c Q H) as [l [E [_ M]]]. exists l. split; [|intros x; rewrite in_set_pos; apply M]. unfold escaped. rewrite E. reflexivity.
Qed.
Lemma not_question : forall s, quiet s -> match s with String "?" (String ":" s'') => s'' | _ => s end = s.
Proof.
  intros [|c t] H; [reflexivity|]. specialize (H c t eq_refl). destruct c as [[] [] [] [] [] [] [] []]; try reflexivity. discriminate.
Qed.
Lemma alts_calm : forall s L rest, alternatives s L -> quiet (s ++ String ")" rest).
Proof.
  intros s L rest H. destruct H as [s L H|s L t M H H'].
  - eapply seq_calm; eauto. right. exists ")"%char, rest. split; reflexivity.
  - rewrite app_assoc_s. apply (seq_calm s L ("|" ++ t ++ String ")" rest)%string H). right. exists "|"%char, (t ++ String ")" rest)%string. split; reflexivity.
Qed.

Theorem read_spec :
  (forall s L, alternatives s L -> forall n rest, 3 * String.length s + 3 <= n -> stops ")" rest ->
     exists r, read_alts n (s ++ rest) = Some (r, rest) /\ good r L) /\
  (forall s L, sequence s L -> forall n rest, 3 * String.length s + 2 <= n -> stops ")|$" rest ->
     exists r, read_seq n (s ++ rest) = Some (r, rest) /\ good r L) /\
  (forall s L, part s L -> forall n rest, 3 * String.length s + 1 <= n -> quiet rest ->
     exists a s' r, read_atom n (s ++ rest) = Some (a, s') /\ read_quant a s' = (r, rest) /\ good r L) /\
  (forall s L, single s L -> forall n rest, 3 * String.length s + 1 <= n ->
     exists r, read_atom n (s ++ rest) = Some (r, rest) /\ good r L).
Proof.
  apply regex_mut.
  - (* the last alternative *)
    intros s L H IH n rest F R. destruct n as [|n]; [lia|]. destruct (IH n rest) as [r [E G]]. { lia. }
    { destruct R as [->|[c [t [-> Q]]]]; [left; reflexivity|]. right. exists c, t. split; auto. cbn in Q |- *. destruct (Ascii.eqb c ")"); [reflexivity|discriminate]. }
    exists r. split; auto. cbn [read_alts]. rewrite E. destruct R as [->|[c [t [-> Q]]]]; [reflexivity|].
    cbn [smem] in Q. destruct (Ascii.eqb_spec c ")") as [->|]; [reflexivity|discriminate].
  - intros s L t M H IH H' IH' n rest F R. destruct n as [|n]; [lia|]. rewrite !length_app_s in F. cbn [String.length] in F.
    rewrite !app_assoc_s. destruct (IH n ("|" ++ t ++ rest)%string) as [r [E G]]. { lia. } { right. exists "|"%char, (t ++ rest)%string. split; reflexivity. }
    destruct (IH' n rest) as [q [E' G']]; [lia|auto|]. exists (RAlt r q). split; [|apply good_alt; auto].
    cbn [read_alts]. cbn [append] in E |- *. rewrite E. cbn [append] in E'. rewrite E'. reflexivity.
  - (* the end of a sequence *)
    intros n rest F R. destruct n as [|n]; [lia|]. exists REmpty. split; [|exact good_empty]. cbn [append].
    destruct R as [->|[c [t [-> Q]]]]; [reflexivity|]. cbn [read_seq]. cbn [smem] in Q.
    destruct (Ascii.eqb c ")"), (Ascii.eqb c "|"), (Ascii.eqb c "$"); cbn in Q |- *; try reflexivity. discriminate.
  - intros s L t M H IH H' IH' n rest F R. destruct n as [|n]; [lia|]. rewrite length_app_s in F. rewrite app_assoc_s.
    destruct (part_head s L H) as [c [s0 [-> HD]]]. cbn [String.length] in F.
    destruct (IH n (t ++ rest)%string) as [a [s' [r [E [Q G]]]]]; [cbn [String.length]; lia|eapply seq_calm; eauto|].
    destruct (IH' n rest) as [q [E' G']]; [lia|auto|]. exists (RCat r q). split; [|apply good_cat; auto].
    cbn [read_seq append]. cbn [append] in E.
    assert (C1 : Ascii.eqb c "|" || Ascii.eqb c ")" || Ascii.eqb c "$" = false).
    { cbn [smem] in HD. destruct (Ascii.eqb c "|"), (Ascii.eqb c ")"), (Ascii.eqb c "$"); cbn in HD; rewrite ?Bool.orb_true_r in HD; try discriminate HD; reflexivity. }
    rewrite C1, E, Q, E'. reflexivity.
  - (* quantifiers *)
    intros s L H IH n rest F C. destruct (IH n rest F) as [r [E G]]. exists r, rest, r. rewrite quant_none; auto.
  - intros s L mark H IH MK n rest F C. rewrite !length_app_s in F. rewrite !app_assoc_s.
    destruct (IH n ("*" ++ mark ++ rest)%string) as [r [E G]]; [lia|]. exists r, ("*" ++ mark ++ rest)%string, (RStar r).
    split; auto. split; [|apply good_star; auto]. cbn. rewrite lazy_either; auto.
  - intros s L mark H IH MK n rest F C. rewrite !length_app_s in F. rewrite !app_assoc_s.
    destruct (IH n ("+" ++ mark ++ rest)%string) as [r [E G]]; [lia|]. exists r, ("+" ++ mark ++ rest)%string, (RCat r (RStar r)).
    split; auto. split; [|apply good_cat; auto; apply good_star; auto]. cbn. rewrite lazy_either; auto.
  - intros s L mark H IH MK n rest F C. rewrite !length_app_s in F. rewrite !app_assoc_s.
    destruct (IH n ("?" ++ mark ++ rest)%string) as [r [E G]]; [lia|]. exists r, ("?" ++ mark ++ rest)%string, (RAlt r REmpty).
    split; auto. split; [|apply good_alt; auto; apply good_empty]. cbn. rewrite lazy_either; auto.
  - intros s L d m mark H IH NU MK n rest F C. rewrite !length_app_s in F. rewrite !app_assoc_s.
    destruct (IH n ("{" ++ d ++ "}" ++ mark ++ rest)%string) as [r [E G]]; [lia|]. exists r, ("{" ++ d ++ "}" ++ mark ++ rest)%string, (counted r m (Some m)).
    split; auto. split; [|apply good_counted_times; auto]. cbn [append read_quant]. change (Ascii.eqb "{" "*") with false. change (Ascii.eqb "{" "+") with false. change (Ascii.eqb "{" "?") with false. change (Ascii.eqb "{" "{") with true. cbv iota.
    rewrite (count_times d m) by auto. rewrite lazy_either; auto.
  - intros s L d m mark H IH NU MK n rest F C. rewrite !length_app_s in F. rewrite !app_assoc_s.
    destruct (IH n ("{" ++ d ++ ",}" ++ mark ++ rest)%string) as [r [E G]]; [lia|]. exists r, ("{" ++ d ++ ",}" ++ mark ++ rest)%string, (counted r m None).
    split; auto. split; [|apply good_counted_least; auto]. cbn [append read_quant]. change (Ascii.eqb "{" "*") with false. change (Ascii.eqb "{" "+") with false. change (Ascii.eqb "{" "?") with false. change (Ascii.eqb "{" "{") with true. cbv iota.
    rewrite (count_least d m) by auto. rewrite lazy_either; auto.
  - intros s L d m d' k mark H IH NU NU' LE MK n rest F C. rewrite !length_app_s in F. rewrite !app_assoc_s.
    destruct (IH n ("{" ++ d ++ "," ++ d' ++ "}" ++ mark ++ rest)%string) as [r [E G]]; [lia|]. exists r, ("{" ++ d ++ "," ++ d' ++ "}" ++ mark ++ rest)%string, (counted r m (Some k)).
    split; auto. split; [|apply good_counted_between; auto]. cbn [append read_quant]. change (Ascii.eqb "{" "*") with false. change (Ascii.eqb "{" "+") with false. change (Ascii.eqb "{" "?") with false. change (Ascii.eqb "{" "{") with true. cbv iota.
    rewrite (count_between d m d' k) by auto. rewrite lazy_either; auto.
  - (* single ones *)
    intros c H n rest F. destruct n as [|n]; [lia|]. apply no_meaning in H. exists (one c). split; [|apply good_one].
    cbn [append read_atom]. reject H. reflexivity.
  - intros c P H n rest F. destruct n as [|n]; [lia|]. destruct (escaped_of c P H) as [l [E M]]. exists (RSet false l). split; [|apply good_set, M].
    cbn [append read_atom]. change (Ascii.eqb "\" ".") with false. change (Ascii.eqb "\" "\") with true. cbv iota. rewrite E. reflexivity.
  - intros n rest F. destruct n as [|n]; [lia|]. eexists. split; [reflexivity|]. apply good_set. intros x.
    unfold line_end. rewrite in_set_neg, !in_set_cons, in_set_nil, !range_self. unfold a_line_end. tauto.
  - intros s P NE H n rest F. destruct n as [|n]; [lia|]. rewrite !length_app_s in F. cbn [String.length] in F.
    destruct (read_class_spec s P H n rest) as [l [E [M N]]]; [lia|]. exists (RSet false l). split.
    + rewrite !app_assoc_s. cbn [append] in E |- *. cbn [read_atom].
      change (Ascii.eqb "[" ".") with false. change (Ascii.eqb "[" "\") with false. change (Ascii.eqb "[" "[") with true. cbv iota.
      pose proof (class_head s P rest H) as HD. cbn [append] in HD. destruct (s ++ String "]" rest)%string as [|d t] eqn:Q; [destruct s; discriminate|].
      destruct l as [|x l]; [elim N; auto|].
      destruct (HD d t eq_refl) as [K _]. destruct d as [[] [] [] [] [] [] [] []]; try (rewrite E; reflexivity). congruence.
    + apply good_set. intros x. rewrite in_set_pos. apply M.
  - intros s P NE H n rest F. destruct n as [|n]; [lia|]. rewrite !length_app_s in F. cbn [String.length] in F.
    destruct (read_class_spec s P H n rest) as [l [E [M N]]]; [lia|]. exists (RSet true l). split.
    + rewrite !app_assoc_s. cbn [append] in E |- *. cbn [read_atom].
      change (Ascii.eqb "[" ".") with false. change (Ascii.eqb "[" "\") with false. change (Ascii.eqb "[" "[") with true. cbv iota.
      rewrite E. destruct l as [|x l]; [elim N; auto|]. reflexivity.
    + apply good_set. intros x. rewrite in_set_neg, in_set_pos. split; intros Q R; apply Q, M; auto.
  - intros s L H IH n rest F. destruct n as [|n]; [lia|]. rewrite !length_app_s in F. cbn [String.length] in F.
    destruct (IH n (")" ++ rest)%string) as [r [E G]]; [lia|right; exists ")"%char, rest; split; reflexivity|]. exists r. split; auto.
    rewrite !app_assoc_s. cbn [append] in E |- *. cbn [read_atom].
    change (Ascii.eqb "(" ".") with false. change (Ascii.eqb "(" "\") with false. change (Ascii.eqb "(" "[") with false. change (Ascii.eqb "(" "(") with true. cbv iota zeta.
    rewrite not_question, E by (eapply alts_calm; eauto). reflexivity.
  - intros s L H IH n rest F. destruct n as [|n]; [lia|]. rewrite !length_app_s in F. cbn [String.length] in F.
    destruct (IH n (")" ++ rest)%string) as [r [E G]]; [lia|right; exists ")"%char, rest; split; reflexivity|]. exists r. split; auto.
    rewrite !app_assoc_s. cbn [append] in E |- *. cbn [read_atom].
    change (Ascii.eqb "(" ".") with false. change (Ascii.eqb "(" "\") with false. change (Ascii.eqb "(" "[") with false. change (Ascii.eqb "(" "(") with true. cbv iota zeta.
    rewrite E. reflexivity.
Qed.
Lemma skip_front : forall front s L rest, front = "" \/ front = "^" -> sequence s L -> stops ")|$" rest -> skip_mark "^" (front ++ s ++ rest) = (s ++ rest)%string.
Proof.
  intros front s L rest [->| ->] H R; [|reflexivity]. cbn [append].
  assert (K : forall c t, (s ++ rest)%string = String c t -> Ascii.eqb c "^" = false).
  { intros c t E. destruct H as [|s L t' M P H].
    - cbn [append] in E. destruct R as [->|[d [u [-> Q]]]]; [discriminate|]. injection E as <- _. cbn [smem] in Q.
      destruct (Ascii.eqb_spec d ")") as [->|]; [reflexivity|]. destruct (Ascii.eqb_spec d "|") as [->|]; [reflexivity|]. destruct (Ascii.eqb_spec d "$") as [->|]; [reflexivity|discriminate].
    - assert (SH : forall x L, single x L -> exists d y, x = String d y /\ Ascii.eqb d "^" = false).
      { intros x L0 X. destruct X; cbn [append]; try (do 2 eexists; split; reflexivity). do 2 eexists. split; [reflexivity|]. apply (special_eq c0 "^"); [apply no_meaning; auto|reflexivity]. }
      assert (PH : forall x L, part x L -> exists d y, x = String d y /\ Ascii.eqb d "^" = false).
      { intros x L0 X. destruct X; [eauto|..]; match goal with Q : single ?z _ |- _ => destruct (SH z _ Q) as [d0 [y [-> Y]]] end; do 2 eexists; (split; [reflexivity|auto]). }
      destruct (PH s L P) as [d [y [-> Y]]]. cbn [append] in E. injection E as <- _. exact Y. }
  destruct (s ++ rest)%string as [|c t]; [reflexivity|]. cbn [skip_mark]. rewrite (K c t eq_refl). reflexivity.
Qed.
Lemma read_whole_spec : forall s L, expression s L -> forall n, 3 * String.length s + 3 <= n -> exists r, read_whole n s = Some r /\ good r L.
Proof.
  assert (A : forall s L, anchored s L -> forall n rest, 3 * String.length s + 3 <= n -> rest = "" \/ starts_in "|" rest ->
    exists r u, read_seq (pred n) (skip_mark "^" (s ++ rest)) = Some (r, u) /\ skip_mark "$" u = rest /\ good r L).
  { intros s L H n rest F R. destruct H as [front s L back Hf Hb H]. rewrite !length_app_s in F. rewrite !app_assoc_s.
    assert (ST : stops ")|$" (back ++ rest)).
    { destruct Hb as [->| ->]; [|right; exists "$"%char, rest; auto]. destruct R as [->|[c [t [-> Q]]]]; [left; reflexivity|]. right. exists c, t. split; auto. cbn [smem] in Q |- *. destruct (Ascii.eqb c "|"); [apply Bool.orb_true_r|discriminate]. }
    rewrite (skip_front front s L); auto. destruct (proj1 (proj2 read_spec) s L H (pred n) (back ++ rest)%string) as [r [E G]]; [lia|auto|].
    exists r, (back ++ rest)%string. split; auto. split; auto. destruct Hb as [->| ->]; [|reflexivity]. cbn [append]. destruct R as [->|[c [t [-> Q]]]]; [reflexivity|]. cbn [skip_mark]. cbn [smem] in Q.
    destruct (Ascii.eqb_spec c "|") as [->|]; [reflexivity|discriminate]. }
  intros s L H. induction H as [s L H|s L t M H H' IH]; intros n F; destruct n as [|n]; try lia.
  - destruct (A s L H (S n) "") as [r [u [E [K G]]]]; auto. rewrite app_nil_r_s in E. exists r. split; auto. cbn [read_whole]. cbn [pred] in E. rewrite E, K. reflexivity.
  - rewrite !length_app_s in F. cbn [String.length] in F. destruct (A s L H (S n) ("|" ++ t)%string) as [r [u [E [K G]]]]; [lia|right; exists "|"%char, t; auto|].
    destruct (IH n) as [q [E' G']]; [lia|]. exists (RAlt r q). split; [|apply good_alt; auto]. cbn [read_whole]. cbn [pred] in E. rewrite E, K. cbn [append]. change (Ascii.eqb "|" "|") with true. cbv iota. rewrite E'. reflexivity.
Qed.
Corollary read_regex_spec : forall s L, expression s L -> exists r, read_regex s = Some r /\ good r L.
Proof. intros s L H. apply (read_whole_spec s L H). lia. Qed.

(** ** Whatever is read is a regular expression *)
Lemma escape_sound : forall c l, escape_set c = Some l -> (exists Q, escape c Q) /\ l <> [].
Proof.
  intros c l H. unfold escape_set in H. destruct (look_up c escape_table) as [l'|] eqn:K.
  - injection H as <-. unfold escape_table in K. cbn [look_up] in K.
    repeat match type of K with
    | (if Ascii.eqb c ?d then _ else _) = _ => destruct (Ascii.eqb_spec c d) as [->|]; [injection K as <-; split; [eexists; solve [repeat constructor]|discriminate]|]
    end. discriminate.
  - destruct (special c || Ascii.eqb c "/" || Ascii.eqb c "-") eqn:E; [|discriminate]. injection H as <-. split; [|discriminate]. eexists. apply (esc_self c).
    apply Bool.orb_true_iff in E. rewrite Bool.orb_true_iff, !Ascii.eqb_eq in E. rewrite meaning_special. tauto.
Qed.
Lemma name_listed : forall tb s l t, read_name tb s = Some (l, t) -> exists n, In (n, l) tb /\ s = (":" ++ n ++ ":]" ++ t)%string.
Proof.
  induction tb as [|[n l'] tb IH]; intros s l t H; [discriminate|]. cbn [read_name] in H.
  destruct (without (":" ++ n ++ ":]") s) as [r|] eqn:E.
  - injection H as <- <-. exists n. split; [left; reflexivity|]. apply without_sound in E. rewrite E, !app_assoc_s. reflexivity.
  - destruct (IH _ _ _ H) as [n' [I ->]]. exists n'. split; [right; exact I|reflexivity].
Qed.
Lemma name_sound : forall s l t, read_name class_table s = Some (l, t) -> exists n Q, s = (":" ++ n ++ ":]" ++ t)%string /\ named n Q.
Proof.
  intros s l t H. destruct (name_listed _ _ _ _ H) as [n [I ->]]. exists n.
  assert (K : In n (map fst class_table)) by (apply (in_map fst) in I; exact I). clear I H.
  unfold class_table in K. cbn [map fst] in K.
  repeat (destruct K as [<-|K]; [eexists; split; [reflexivity|constructor]|]). destruct K.
Qed.
Lemma class_sound : forall n s l t, read_class n s = Some (l, t) -> exists a P, s = (a ++ String "]" t)%string /\ class_text a P /\ (a = "" -> l = []).
Proof.
  induction n as [|n IH]; intros s l t H; [discriminate|]. destruct s as [|c s]; [discriminate|]. cbn [read_class] in H.
  destruct (Ascii.eqb_spec c "]") as [->|NC]. { injection H as <- <-. exists "", (fun _ => False). split; [reflexivity|]. split; [constructor|auto]. }
  destruct (Ascii.eqb_spec c "-") as [->|ND].
  { destruct s as [|d s]; [discriminate|]. destruct (Ascii.eqb_spec d "]") as [->|]; [|discriminate]. injection H as <- <-. exists "-". eexists. split; [reflexivity|]. split; [apply class_dash|discriminate]. }
  destruct (Ascii.eqb_spec c "\") as [->|NB].
  { destruct s as [|d s]; [discriminate|]. destruct (escape_set d) as [e|] eqn:E; [|discriminate]. destruct (read_class n s) as [[l' t']|] eqn:E'; [|discriminate]. injection H as <- <-.
    destruct (escape_sound _ _ E) as [[Q Q'] _]. destruct (IH _ _ _ E') as [a [P [-> [A _]]]]. exists (String "\" (String d a)). eexists. split; [reflexivity|]. split; [eapply class_escape; eauto|discriminate]. }
  destruct (Ascii.eqb_spec c "[") as [->|NS].
  { destruct (read_name class_table s) as [[e u]|] eqn:E; [|discriminate]. destruct (read_class n u) as [[l' t']|] eqn:E'; [|discriminate]. injection H as <- <-.
    destruct (name_sound _ _ _ E) as [nm [Q [-> Q']]]. destruct (IH _ _ _ E') as [a [P [-> [A _]]]].
    exists ("[:" ++ nm ++ ":]" ++ a)%string. eexists. split; [|split; [eapply class_named; eauto|discriminate]].
    cbn [append]. rewrite !app_assoc_s. reflexivity. }
  destruct (class_special c) eqn:SC; [discriminate|].
  assert (NM : ~ has_class_meaning c) by (intros Q; apply class_meaning_special in Q; congruence).
  assert (ONE : (match read_class n s with Some (l, t) => Some ((c, c) :: l, t) | None => None end) = Some (l, t) ->
    exists a P, String c s = (a ++ String "]" t)%string /\ class_text a P /\ (a = "" -> l = [])).
  { destruct (read_class n s) as [[l' t']|] eqn:E; [|discriminate]. intros Q. injection Q as <- <-. destruct (IH _ _ _ E) as [a [P [-> [A _]]]].
    exists (String c a), (fun x => x = c \/ P x). repeat split; [constructor; auto|discriminate]. }
  destruct s as [|x s]; [auto|]. destruct s as [|d s]; [auto|]. destruct (Ascii.eqb_spec x "-") as [->|]; cbn [andb] in H; [|auto]. destruct (Ascii.eqb_spec d "]") as [->|]; cbn [negb] in H; [auto|].
  destruct (class_special d) eqn:SD; [discriminate|]. cbn [orb] in H.
  destruct (Nat.ltb_spec (nat_of_ascii d) (nat_of_ascii c)); [discriminate|]. cbn [orb] in H. destruct (Nat.leb_spec 128 (nat_of_ascii d)); [discriminate|].
  destruct (read_class n s) as [[l' t']|] eqn:E; [|discriminate]. injection H as <- <-. destruct (IH _ _ _ E) as [a [P [-> [A _]]]].
  exists (String c (String "-" (String d a))), (fun x => range c d x \/ P x). split; [reflexivity|]. split; [|discriminate].
  apply class_range; auto; try lia. intros Q. apply class_meaning_special in Q. congruence.
Qed.
Lemma quant_sound : forall a s r t, read_quant a s = (r, t) -> forall x L, single x L -> exists m M, s = (m ++ t)%string /\ part (x ++ m) M.
Proof.
  intros a s r t H x L X.
  assert (LZ : forall u, exists mark, u = (mark ++ lazy_mark u)%string /\ (mark = "" \/ mark = "?")).
  { intros [|c u]; [exists ""; auto|]. destruct (Ascii.eqb_spec c "?") as [->|N]; [exists "?"; auto|]. exists "". split; auto.
    unfold lazy_mark. destruct c as [[] [] [] [] [] [] [] []]; try reflexivity. congruence. }
  destruct s as [|c s]. { injection H as <- <-. exists "", L. rewrite (app_nil_r_s x). split; auto. constructor; auto. }
  assert (NONE : (a, String c s) = (r, t) -> exists m M, String c s = (m ++ t)%string /\ part (x ++ m) M).
  { intros Q. injection Q as <- <-. exists "", L. rewrite (app_nil_r_s x). split; auto. constructor; auto. }
  cbn [read_quant] in H. destruct (LZ s) as [mark [E MK]].
  destruct (Ascii.eqb_spec c "*") as [->|]; [|destruct (Ascii.eqb_spec c "+") as [->|]; [|destruct (Ascii.eqb_spec c "?") as [->|]; [|destruct (Ascii.eqb_spec c "{") as [->|]]]].
  - injection H as <- <-. exists (String "*" mark), (repeated L). split; [cbn; congruence|]. apply part_star; auto.
  - injection H as <- <-. exists (String "+" mark), (followed L (repeated L)). split; [cbn; congruence|]. apply part_plus; auto.
  - injection H as <- <-. exists (String "?" mark), (either L nothing_else). split; [cbn; congruence|]. apply part_opt; auto.
  - destruct (read_count s) as [[[m hi] u]|] eqn:RC; [|auto]. injection H as <- <-. destruct (LZ u) as [mark' [E' MK']]. destruct (count_sound _ _ _ _ RC) as [d [D [[-> ->]|[[-> ->]|[d' [k [D' [LE [-> ->]]]]]]]]].
    + exists ("{" ++ d ++ "}" ++ mark')%string. eexists. split; [|apply part_times; eauto]. cbn [append]. rewrite !app_assoc_s. cbn [append]. rewrite <- E'. reflexivity.
    + exists ("{" ++ d ++ ",}" ++ mark')%string. eexists. split; [|apply part_at_least; eauto]. cbn [append]. rewrite !app_assoc_s. cbn [append]. rewrite <- E'. reflexivity.
    + exists ("{" ++ d ++ "," ++ d' ++ "}" ++ mark')%string. eexists. split; [|eapply part_between; eauto]. cbn [append]. rewrite !app_assoc_s. cbn [append]. rewrite !app_assoc_s. cbn [append]. rewrite <- E'. reflexivity.
  - auto.
Qed.
Lemma escaped_sound : forall c r, escaped c = Some r -> exists L, single (String "\" (String c "")) L.
Proof.
  intros c r H. unfold escaped in H. destruct (escape_set c) as [l|] eqn:E; [|discriminate]. destruct (escape_sound _ _ E) as [[Q Q'] _]. eexists. apply (single_escaped c Q Q').
Qed.
Lemma read_sound : forall n,
  (forall s r t, read_alts n s = Some (r, t) -> exists a L, s = (a ++ t)%string /\ alternatives a L) /\
  (forall s r t, read_seq n s = Some (r, t) -> exists a L, s = (a ++ t)%string /\ sequence a L) /\
  (forall s r t, read_atom n s = Some (r, t) -> exists a L, s = (a ++ t)%string /\ single a L).
Proof.
  induction n as [|n [IHa [IHs IHp]]]; [repeat split; discriminate|]. split; [|split].
  - intros s r t H. cbn [read_alts] in H. destruct (read_seq n s) as [[a u]|] eqn:E; [|discriminate].
    destruct (IHs _ _ _ E) as [x [L [-> X]]].
    destruct u as [|c u]. { injection H as <- <-. exists x, L. split; auto. constructor; auto. }
    destruct (Ascii.eqb_spec c "|") as [->|N].
    + destruct (read_alts n u) as [[b v]|] eqn:E'; [|discriminate]. injection H as <- <-. destruct (IHa _ _ _ E') as [y [M [-> Y]]].
      exists (x ++ "|" ++ y)%string, (either L M). split; [rewrite !app_assoc_s; reflexivity|]. apply alt_more; auto.
    + assert (K : Some (a, String c u) = Some (r, t)) by (destruct c as [[] [] [] [] [] [] [] []]; try exact H; congruence).
      injection K as <- <-. exists x, L. split; auto. constructor; auto.
  - intros s r t H. cbn [read_seq] in H. destruct s as [|c s]. { injection H as <- <-. exists "", nothing_else. split; auto. constructor. }
    destruct (Ascii.eqb c "|" || Ascii.eqb c ")" || Ascii.eqb c "$"). { injection H as <- <-. exists "", nothing_else. split; auto. constructor. }
    destruct (read_atom n (String c s)) as [[a u]|] eqn:E; [|discriminate]. destruct (read_quant a u) as [q v] eqn:Q.
    destruct (read_seq n v) as [[b w]|] eqn:E'; [|discriminate]. injection H as <- <-.
    destruct (IHp _ _ _ E) as [x [L [-> X]]]. destruct (quant_sound _ _ _ _ Q x L X) as [m [M [-> P]]]. destruct (IHs _ _ _ E') as [y [N [-> Y]]].
    exists ((x ++ m) ++ y)%string, (followed M N). split; [rewrite !app_assoc_s; reflexivity|]. apply seq_more; auto.
  - intros s r t H. cbn [read_atom] in H. destruct s as [|c s]; [discriminate|].
    destruct (Ascii.eqb_spec c ".") as [->|]. { injection H as <- <-. exists ".". eexists. split; [reflexivity|]. apply single_dot. }
    destruct (Ascii.eqb_spec c "\") as [->|].
    { destruct s as [|d s]; [discriminate|]. destruct (escaped d) eqn:E; [|discriminate]. injection H as <- <-. destruct (escaped_sound _ _ E) as [L X].
      exists (String "\" (String d "")), L. auto. }
    destruct (Ascii.eqb_spec c "[") as [->|].
    { assert (POS : match read_class n s with Some (x :: l, t) => Some (RSet false (x :: l), t) | _ => None end = Some (r, t) ->
        exists a L, String "[" s = (a ++ t)%string /\ single a L).
      { destruct (read_class n s) as [[[|x l] u]|] eqn:E; try discriminate. intros Q. injection Q as <- <-. destruct (class_sound _ _ _ _ E) as [a [P [-> [A B]]]].
        exists ("[" ++ a ++ "]")%string, (one_char P). split; [rewrite !app_assoc_s; reflexivity|]. apply single_class; auto. intros ->. discriminate (B eq_refl). }
      destruct s as [|d s]; [auto|]. destruct (Ascii.eqb_spec d "^") as [->|N].
      - destruct (read_class n s) as [[[|x l] u]|] eqn:E; try discriminate. injection H as <- <-. destruct (class_sound _ _ _ _ E) as [a [P [-> [A B]]]].
        exists ("[^" ++ a ++ "]")%string. eexists. split; [|apply (single_not_class a P)]; auto; [|intros ->; discriminate (B eq_refl)].
        cbn [append]. rewrite !app_assoc_s. reflexivity.
      - apply POS. destruct d as [[] [] [] [] [] [] [] []]; try exact H. congruence. }
    destruct (Ascii.eqb_spec c "(") as [->|].
    { assert (POS : match read_alts n s with Some (r, String ")" t) => Some (r, t) | _ => None end = Some (r, t) ->
        exists a L, String "(" s = (a ++ t)%string /\ single a L).
      { destruct (read_alts n s) as [[a [|d u]]|] eqn:E; try discriminate. intros Q.
        assert (K : d = ")"%char /\ Some (a, u) = Some (r, t)) by (destruct d as [[] [] [] [] [] [] [] []]; try discriminate Q; auto).
        destruct K as [-> K]. injection K as <- <-. destruct (IHa _ _ _ E) as [x [L [-> X]]].
        exists ("(" ++ x ++ ")")%string, L. split; [rewrite !app_assoc_s; reflexivity|]. apply single_group; auto. }
      cbv zeta in H. destruct s as [|d s]; [auto|]. destruct (Ascii.eqb_spec d "?") as [->|N].
      - destruct s as [|d s]; [auto|]. destruct (Ascii.eqb_spec d ":") as [->|N].
        + destruct (read_alts n s) as [[a [|d u]]|] eqn:E; try discriminate.
          assert (K : d = ")"%char /\ Some (a, u) = Some (r, t)) by (destruct d as [[] [] [] [] [] [] [] []]; try discriminate H; auto).
          destruct K as [-> K]. injection K as <- <-. destruct (IHa _ _ _ E) as [x [L [-> X]]].
          exists ("(?:" ++ x ++ ")")%string, L. split; [cbn [append]; rewrite !app_assoc_s; reflexivity|]. apply single_silent_group; auto.
        + apply POS. destruct d as [[] [] [] [] [] [] [] []]; try exact H. congruence.
      - apply POS. destruct d as [[] [] [] [] [] [] [] []]; try exact H. congruence. }
    destruct (special c) eqn:E; [discriminate|]. injection H as <- <-. exists (String c ""). eexists. split; [reflexivity|].
    apply single_char. intros Q. apply meaning_special in Q. congruence.
Qed.
Lemma skip_sound : forall c s, exists front, s = (front ++ skip_mark c s)%string /\ (front = "" \/ front = String c "").
Proof. intros c [|d s]; [exists ""; auto|]. cbn [skip_mark]. destruct (Ascii.eqb_spec d c) as [->|]; [exists (String c ""); auto|exists ""; auto]. Qed.
Corollary read_regex_sound : forall s r, read_regex s = Some r -> exists L, expression s L.
Proof.
  intros s r. unfold read_regex. generalize (3 * String.length s + 3) as n. intros n. revert s r. induction n as [|n IH]; intros s r H; [discriminate|]. cbn [read_whole] in H.
  destruct (skip_sound "^" s) as [front [Es Hf]]. destruct (read_seq n (skip_mark "^" s)) as [[a t]|] eqn:E; [|discriminate]. destruct (proj1 (proj2 (read_sound n)) _ _ _ E) as [x [L [Ex X]]].
  destruct (skip_sound "$" t) as [back [Et Hb]]. destruct (skip_mark "$" t) as [|c u] eqn:K.
  - rewrite Es, Ex, Et, app_nil_r_s. exists L. apply exp_last. constructor; auto.
  - destruct (Ascii.eqb_spec c "|") as [->|]; [|discriminate]. destruct (read_whole n u) as [b|] eqn:E'; [|discriminate]. destruct (IH _ _ E') as [M Y].
    exists (either L M). rewrite Es, Ex, Et. replace (front ++ x ++ back ++ String "|" u)%string with ((front ++ x ++ back) ++ "|" ++ u)%string by (rewrite !app_assoc_s; reflexivity). apply exp_more; auto. constructor; auto.
Qed.
(** Expressions without marks at the ends. *)
Lemma alternatives_expression : forall s L, alternatives s L -> expression s L.
Proof.
  intros s L H. assert (A : forall s L, sequence s L -> anchored s L). { intros x M X. replace x with ("" ++ x ++ "")%string by (cbn; apply app_nil_r_s). constructor; auto. }
  induction H; [apply exp_last|apply exp_more]; auto.
Qed.
