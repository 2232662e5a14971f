(** What adding or removing one rule does to the results of the rules consulted. *)
From Coq Require Import Permutation.
From Verif Require Import Base P_Base M_Util M_RoleManager M_Effector M_Model M_Persist M_Eval M_Evaluator M_Enforcer S_Effect S_Policy S_Enforce P_Effect P_Enforce P_Decide P_Store P_Api.

(** ** One more result in the list *)
Lemma insert_in : forall A (x y : A) pre post, In y (pre ++ x :: post) <-> y = x \/ In y (pre ++ post).
Proof. intros. rewrite !in_app_iff. simpl. split; intros; intuition congruence. Qed.

Lemma first_decisive : forall os, permits Priority os <->
  exists pre post, os = pre ++ (true, Allow) :: post /\ Forall (fun o => ~ decisive o) pre.
Proof. reflexivity. Qed.

Lemma insert_allow : forall pe pre post b, permits pe (pre ++ post) -> permits pe (pre ++ (b, Allow) :: post).
Proof.
  intros [] pre post b H; simpl in *; rewrite ?insert_in; auto.
  - intros [C|C]; auto. inversion C.
  - destruct H as [H1 H2]. split; auto. intros [C|C]; auto. inversion C.
  - destruct H as [p1 [p2 [E F]]]. revert p1 E F. induction pre as [|x pre IH]; intros p1 E F.
    + destruct b.
      * exists [], post. auto.
      * exists ((false, Allow) :: p1), p2. cbn [app] in *. rewrite E. split; auto.
        constructor; auto. intros [C _]. discriminate.
    + destruct p1 as [|y p1]; cbn [app] in E; inversion E; subst.
      * exists [], (pre ++ (b, Allow) :: post). auto.
      * inversion F; subst. destruct (IH p1 H1 H3) as [q1 [q2 [Q1 Q2]]].
        exists (y :: q1), q2. cbn [app]. rewrite Q1. auto.
Qed.

Lemma insert_deny : forall pe pre post b, permits pe (pre ++ (b, Deny) :: post) -> permits pe (pre ++ post).
Proof.
  intros [] pre post b H; simpl in *; rewrite ?insert_in in *.
  - destruct H as [C|C]; auto. inversion C.
  - intro C. apply H. auto.
  - destruct H as [[C|H1] H2]; [inversion C|]. split; auto.
  - destruct H as [p1 [p2 [E F]]]. revert p1 E F. induction pre as [|x pre IH]; intros p1 E F.
    + destruct p1 as [|y p1]; cbn [app] in E; inversion E; subst. inversion F; subst. cbn [app]. eauto.
    + destruct p1 as [|y p1]; cbn [app] in E; inversion E; subst.
      * exists [], (pre ++ post). auto.
      * inversion F; subst. destruct (IH p1 H1 H3) as [q1 [q2 [Q1 Q2]]].
        exists (y :: q1), q2. cbn [app]. rewrite Q1. auto.
Qed.

Lemma insert_idle : forall pe pre post x, ~ decisive x ->
  (permits pe (pre ++ x :: post) <-> permits pe (pre ++ post)).
Proof.
  intros pe pre post x N.
  assert (NA : x <> (true, Allow)) by (intros ->; apply N; split; simpl; congruence).
  assert (ND : x <> (true, Deny)) by (intros ->; apply N; split; simpl; congruence).
  destruct pe; simpl; rewrite ?insert_in.
  - intuition congruence.
  - intuition congruence.
  - intuition congruence.
  - split; intros [p1 [p2 [E F]]]; revert p1 E F; (induction pre as [|y pre IH]; intros p1 E F).
    + destruct p1 as [|z p1]; cbn [app] in E; inversion E; subst; [congruence|]. inversion F; subst. cbn [app]. eauto.
    + destruct p1 as [|z p1]; cbn [app] in E; inversion E; subst.
      * exists [], (pre ++ post). auto.
      * inversion F; subst. destruct (IH p1 H1 H3) as [q1 [q2 [Q1 Q2]]].
        exists (z :: q1), q2. cbn [app]. rewrite Q1. auto.
    + cbn [app] in *. exists (x :: p1), p2. rewrite E. split; auto.
    + destruct p1 as [|z p1]; cbn [app] in E; inversion E; subst.
      * exists [], (pre ++ x :: post). auto.
      * inversion F; subst. destruct (IH p1 H1 H3) as [q1 [q2 [Q1 Q2]]].
        exists (z :: q1), q2. cbn [app]. rewrite Q1. auto.
Qed.

(** ** The enforcer after a change of the rules of type p *)
Lemma changed_answerable : forall o e e' rf pf eft mat matcher req a p r,
  answerable o e rf pf eft mat matcher req ->
  get_ast (e_model e) "p" "p" = Ok a ->
  same_core (set_model (put_policy (e_model e) "p" "p" a p) e) e' ->
  candidates (e_model e') req <> [] ->
  (forall x, In x (candidates (e_model e') req) -> In x (candidates (e_model e) req) \/ x = r) ->
  matcher_text (chosen matcher mat) pf r <> Ok "" ->
  (exists b, verdict o (e_model e) (e_heap e) rf pf (chosen matcher mat) req r = Ok b) ->
  answerable o e' rf pf eft mat matcher req /\
  forall x, outc o e' rf pf mat matcher req x = outc o e rf pf mat matcher req x.
Proof.
  intros o e e' rf pf eft mat matcher req a p r [[R EN L NE [T1 T2]] V] A S C I TR VR.
  destruct S as [S1 [S2 [_ [_ [S3 [S4 _]]]]]]. cbn in S1, S2, S3, S4.
  split; [split|].
  - constructor; auto; try congruence.
    + destruct R as [D F]. split. { rewrite S1. apply declares_put_p; auto. }
      rewrite S1, S3. destruct (e_ev e); auto. apply fits_put_p. auto.
    + split; auto. intros x Ix. destruct (I x Ix) as [Q| ->]; auto.
  - intros x Ix. rewrite S1, S2, verdict_put_p. destruct (I x Ix) as [Q| ->]; auto.
  - intros x. unfold outc, holds. rewrite S1, S2, verdict_put_p. reflexivity.
Qed.

(** The larger of two sets of consulted rules has one more rule, or they are equal. *)
Definition one_more (r : rule) (small big : list rule) : Prop :=
  big = small \/ exists pre post, small = pre ++ post /\ big = pre ++ r :: post.

Lemma one_more_in : forall r s b x, one_more r s b -> (In x b -> In x s \/ x = r) /\ (In x s -> In x b).
Proof.
  intros r s b x [->|[pre [post [-> ->]]]]; auto. rewrite insert_in. split; intuition.
Qed.

(** What [permits] says of the two lists. *)
Lemma one_more_permits : forall pe (f : rule -> outcome) r s b, one_more r s b ->
  (snd (f r) = Allow -> permits pe (map f s) -> permits pe (map f b)) /\
  (snd (f r) = Deny -> permits pe (map f b) -> permits pe (map f s)) /\
  (~ decisive (f r) -> (permits pe (map f b) <-> permits pe (map f s))).
Proof.
  intros pe f r s b [->|[pre [post [-> ->]]]]; [tauto|].
  rewrite !map_app. cbn [map]. destruct (f r) as [m ef] eqn:F. cbn [snd].
  split; [|split].
  - intros ->. apply insert_allow.
  - intros ->. apply insert_deny.
  - apply insert_idle.
Qed.

(** The consulted rules before and after, for a list of stored rules with one more. *)
Lemma candidates_one_more : forall m a p req r,
  get_ast m "p" "p" = Ok a -> is_hash p = is_hash (a_policy a) ->
  (is_hash p = true -> candidates m req <> [] /\ candidates (put_policy m "p" "p" a p) req <> []) ->
  (one_more r (rules_of (a_policy a)) (rules_of p) ->
     one_more r (candidates m req) (candidates (put_policy m "p" "p" a p) req)) /\
  (one_more r (rules_of p) (rules_of (a_policy a)) ->
     one_more r (candidates (put_policy m "p" "p" a p) req) (candidates m req)).
Proof.
  intros m a p req r A H NE. unfold candidates, p_indexed, p_rules in *.
  rewrite get_put_same in *. rewrite A in *. cbn [a_policy with_policy] in *. rewrite H in *.
  destruct (is_hash (a_policy a)); [|auto]. destruct (NE eq_refl) as [N1 N2].
  destruct (existsb (rule_eqb (map c_str req)) (rules_of (a_policy a))); [|congruence].
  destruct (existsb (rule_eqb (map c_str req)) (rules_of p)); [|congruence].
  split; intros _; left; reflexivity.
Qed.

Lemma is_hash_emplace : forall p r, is_hash (emplace p r) = is_hash p.
Proof. intros [l|l] r; simpl; auto. destruct (existsb _ _); auto. Qed.
Lemma is_hash_with : forall p l, is_hash (with_rules p l) = is_hash p.
Proof. intros p l; destruct p; reflexivity. Qed.

(** Results as booleans. *)
Lemma decisions_related : forall (pe : policy_effect) (f : rule -> outcome) r s b (vs vb : bool),
  one_more r s b -> (vs = true <-> permits pe (map f s)) -> (vb = true <-> permits pe (map f b)) ->
  (snd (f r) = Allow -> vs = true -> vb = true) /\ (snd (f r) = Deny -> vb = true -> vs = true) /\
  (~ decisive (f r) -> vb = vs).
Proof.
  intros pe f r s b vs vb O S B. destruct (one_more_permits pe f r s b O) as [P1 [P2 P3]].
  split; [tauto|]. split; [tauto|]. intros N. specialize (P3 N).
  destruct vs, vb; auto; exfalso; intuition congruence.
Qed.
