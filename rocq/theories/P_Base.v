(** General lemmas on association lists, membership tests and outcomes. *)
From Verif Require Import Base M_Util.

Lemma eqb_refl_s : forall s, String.eqb s s = true.
Proof. apply String.eqb_refl. Qed.

Lemma eqb_sym_s : forall a b, String.eqb a b = String.eqb b a.
Proof. apply String.eqb_sym. Qed.

Ltac seqb a b :=
  let H := fresh "E" in
  destruct (String.eqb a b) eqn:H; [apply String.eqb_eq in H | apply String.eqb_neq in H].

Lemma rule_eqb_true : forall a b, rule_eqb a b = true <-> a = b.
Proof. intros. unfold rule_eqb. destruct (list_eq_dec string_dec a b); split; congruence. Qed.

Lemma rule_eqb_refl : forall a, rule_eqb a a = true.
Proof. intros. apply rule_eqb_true. reflexivity. Qed.

Lemma rule_eqb_cons : forall x a y b, rule_eqb (x :: a) (y :: b) = String.eqb x y && rule_eqb a b.
Proof.
  intros. unfold rule_eqb. seqb x y; destruct (list_eq_dec string_dec a b);
    destruct (list_eq_dec string_dec (x :: a) (y :: b)); simpl; congruence.
Qed.
Lemma rule_eqb_nil : rule_eqb [] [] = true.
Proof. reflexivity. Qed.

Lemma NoDup_app : forall A (l1 l2 : list A),
  NoDup l1 -> NoDup l2 -> (forall x, In x l1 -> In x l2 -> False) -> NoDup (l1 ++ l2).
Proof.
  induction l1; simpl; intros; auto. inversion H; subst. constructor.
  - rewrite in_app_iff. intros [C|C]; [tauto|]. eapply H1; eauto.
  - apply IHl1; auto. intros. eapply H1; eauto.
Qed.

Section A.
  Context {V : Type}.
  Implicit Types (l : list (string * V)) (k : string) (v : V).

  Lemma aget_aset : forall k k' v l,
    aget k (aset k' v l) = if String.eqb k k' then Some v else aget k l.
  Proof.
    induction l as [|[a b] l IH]; simpl.
    - reflexivity.
    - seqb k' a; simpl.
      + subst. seqb k a; reflexivity.
      + rewrite IH. seqb k a; [|reflexivity].
        seqb k k'; congruence.
  Qed.

  Lemma aget_aset_same : forall k v l, aget k (aset k v l) = Some v.
  Proof. intros. rewrite aget_aset, eqb_refl_s. reflexivity. Qed.

  Lemma aget_aset_other : forall k k' v l, k <> k' -> aget k (aset k' v l) = aget k l.
  Proof. intros. rewrite aget_aset. apply String.eqb_neq in H. rewrite H. reflexivity. Qed.

  Lemma aget_app : forall k l1 l2,
    aget k (l1 ++ l2) = match aget k l1 with Some v => Some v | None => aget k l2 end.
  Proof.
    induction l1 as [|[a b] l1 IH]; intros; simpl; [reflexivity|].
    destruct (String.eqb k a); auto.
  Qed.

  Lemma aget_In : forall k v l, aget k l = Some v -> In (k, v) l.
  Proof.
    induction l as [|[a b] l IH]; simpl; intros; [discriminate|].
    seqb k a; [left; congruence | right; auto].
  Qed.

  Lemma aget_None : forall k l, aget k l = None <-> ~ In k (map fst l).
  Proof.
    induction l as [|[a b] l IH]; simpl; [tauto|].
    seqb k a; split; intro H; try discriminate.
    - subst; exfalso; apply H; auto.
    - apply IH in H. intros [C|C]; congruence || auto.
    - apply IH. tauto.
  Qed.

  Lemma ahas_true : forall k l, ahas k l = true <-> In k (map fst l).
  Proof.
    intros. unfold ahas. destruct (aget k l) eqn:E.
    - apply aget_In in E. apply (in_map fst) in E. simpl in E. tauto.
    - apply aget_None in E. split; intro; [discriminate|tauto].
  Qed.

  Lemma ahas_false : forall k l, ahas k l = false <-> ~ In k (map fst l).
  Proof. intros. rewrite <- ahas_true. destruct (ahas k l); split; congruence. Qed.

  Lemma In_aget : forall k v l, NoDup (map fst l) -> In (k, v) l -> aget k l = Some v.
  Proof.
    induction l as [|[a b] l IH]; simpl; intros ND H; [tauto|].
    inversion ND; subst. destruct H as [H|H].
    - inversion H; subst. rewrite eqb_refl_s. reflexivity.
    - seqb k a; auto. subst. exfalso. apply H2. apply (in_map fst) in H. exact H.
  Qed.

  Lemma keys_aset : forall k v l,
    map fst (aset k v l) = if ahas k l then map fst l else map fst l ++ [k].
  Proof.
    induction l as [|[a b] l IH]; simpl; [reflexivity|].
    unfold ahas in *. simpl. seqb k a; simpl; [reflexivity|].
    rewrite IH. destruct (aget k l); reflexivity.
  Qed.

  Lemma keys_aset_in : forall k k' v l, In k (map fst (aset k' v l)) <-> k = k' \/ In k (map fst l).
  Proof.
    intros. rewrite keys_aset. destruct (ahas k' l) eqn:E.
    - apply ahas_true in E. split; [tauto|intros [->|]; auto].
    - rewrite in_app_iff. simpl. intuition.
  Qed.

  Lemma NoDup_keys_aset : forall k v l, NoDup (map fst l) -> NoDup (map fst (aset k v l)).
  Proof.
    intros. rewrite keys_aset. destruct (ahas k l) eqn:E; auto.
    apply ahas_false in E. apply NoDup_app; auto.
    - repeat constructor. simpl. tauto.
    - intros x Hx [<-|[]]. tauto.
  Qed.

  Lemma aget_ainsert : forall k k' v l,
    aget k (ainsert k' v l) =
    if String.eqb k k' then (match aget k' l with Some w => Some w | None => Some v end) else aget k l.
  Proof.
    intros. unfold ainsert, ahas. destruct (aget k' l) eqn:E.
    - seqb k k'; subst; congruence.
    - rewrite aget_app. simpl. seqb k k'.
      + subst. rewrite E. reflexivity.
      + destruct (aget k l); reflexivity.
  Qed.

  Lemma keys_ainsert : forall k v l,
    map fst (ainsert k v l) = if ahas k l then map fst l else map fst l ++ [k].
  Proof.
    intros. unfold ainsert. destruct (ahas k l); [reflexivity|]. rewrite map_app. reflexivity.
  Qed.

  Lemma NoDup_keys_ainsert : forall k v l, NoDup (map fst l) -> NoDup (map fst (ainsert k v l)).
  Proof.
    intros. rewrite keys_ainsert. destruct (ahas k l) eqn:E; auto.
    apply ahas_false in E. apply NoDup_app; auto.
    - repeat constructor. simpl. tauto.
    - intros x Hx [<-|[]]. tauto.
  Qed.

  Lemma ahas_aset : forall k k' v l, ahas k (aset k' v l) = String.eqb k k' || ahas k l.
  Proof. intros. unfold ahas. rewrite aget_aset. destruct (String.eqb k k'); reflexivity. Qed.

  Lemma aset_same : forall k v l, aget k l = Some v -> aset k v l = l.
  Proof.
    induction l as [|[a b] l IH]; simpl; intros; [discriminate|].
    seqb k a; [congruence|]. rewrite IH; auto.
  Qed.

  Lemma aset_aset : forall k v w l, aset k v (aset k w l) = aset k v l.
  Proof.
    induction l as [|[a b] l IH]; simpl.
    - rewrite eqb_refl_s. reflexivity.
    - destruct (String.eqb k a) eqn:E; simpl; rewrite E; congruence.
  Qed.

  Lemma ainsert_has : forall k v l, ahas k l = true -> ainsert k v l = l.
  Proof. intros. unfold ainsert. rewrite H. reflexivity. Qed.
End A.

Lemma inb_true : forall x l, inb x l = true <-> In x l.
Proof.
  intros. unfold inb. rewrite existsb_exists. split.
  - intros [y [H E]]. apply String.eqb_eq in E. congruence.
  - intros. exists x. split; auto. apply eqb_refl_s.
Qed.

Lemma inb_false : forall x l, inb x l = false <-> ~ In x l.
Proof. intros. rewrite <- inb_true. destruct (inb x l); split; congruence. Qed.

Lemma existsb_eqb_true : forall x l, existsb (fun y => String.eqb y x) l = true <-> In x l.
Proof.
  intros. rewrite existsb_exists. split.
  - intros [y [H E]]. apply String.eqb_eq in E. congruence.
  - intros. exists x. split; auto. apply eqb_refl_s.
Qed.

Lemma existsb_rule_true : forall x l, existsb (rule_eqb x) l = true <-> In x l.
Proof.
  intros. rewrite existsb_exists. split.
  - intros [y [H E]]. apply rule_eqb_true in E. congruence.
  - intros. exists x. split; auto. apply rule_eqb_refl.
Qed.

Lemma mapr_ok : forall A B (f : A -> res B) g l,
  (forall x, In x l -> f x = Ok (g x)) -> mapr f l = Ok (map g l).
Proof.
  induction l; simpl; intros; [reflexivity|].
  rewrite H by auto. simpl. rewrite IHl by auto. reflexivity.
Qed.

Lemma mapr_Ok_inv : forall A B (f : A -> res B) l ys,
  mapr f l = Ok ys -> Forall2 (fun x y => f x = Ok y) l ys.
Proof.
  induction l; simpl; intros.
  - inversion H. constructor.
  - destruct (f a) eqn:E; try discriminate. simpl in H.
    destruct (mapr f l) eqn:E2; try discriminate. simpl in H. inversion H; subst.
    constructor; auto.
Qed.

Lemma length_app_s : forall a b, String.length (a ++ b)%string = String.length a + String.length b.
Proof. induction a; simpl; intros; auto. Qed.

Lemma app_assoc_s : forall a b c, ((a ++ b) ++ c)%string = (a ++ (b ++ c))%string.
Proof. induction a; simpl; intros; congruence. Qed.

Lemma app_nil_r_s : forall a, (a ++ "")%string = a.
Proof. induction a; simpl; congruence. Qed.

Lemma app_inj_s : forall a b c, (a ++ b)%string = (a ++ c)%string -> b = c.
Proof. induction a; simpl; intros; auto. inversion H; auto. Qed.

Lemma sdrop_app : forall a b, sdrop (String.length a) (a ++ b)%string = b.
Proof. induction a; simpl; auto. Qed.

Lemma stake_app : forall a b, stake (String.length a) (a ++ b)%string = a.
Proof. induction a; simpl; intros; auto. rewrite IHa; auto. Qed.

Lemma stake_sdrop : forall n s, (stake n s ++ sdrop n s)%string = s.
Proof. induction n; destruct s; simpl; try reflexivity. rewrite IHn. reflexivity. Qed.
