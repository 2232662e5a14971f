(** Renaming: links and chains of links. *)
From Verif Require Import Base P_Base M_RoleManager M_Model M_Enforcer S_Policy S_Roles S_Sync S_Rename.

Lemma map_one_to_one : forall rho l l', one_to_one rho -> map rho l = map rho l' -> l = l'.
Proof.
  intros rho l l' O. revert l'. induction l; destruct l'; simpl; intros E; try discriminate; auto.
  inversion E. f_equal; auto.
Qed.
Lemma renamed_rule : forall rho e1 e2 q, one_to_one rho -> renamed rho e1 e2 ->
  (In (map rho q) (stored e2 "p" "p") <-> In q (stored e1 "p" "p")).
Proof.
  intros rho e1 e2 q O [R _]. rewrite R. split.
  - intros [q' [I E]]. apply map_one_to_one in E; auto. subst. auto.
  - intros I. eauto.
Qed.
Lemma link_renamed : forall rho q, link_of (map rho q) =
  option_map (fun l : link => let '(d, a, b) := l in (option_map rho d, rho a, rho b)) (link_of q).
Proof. intros rho q. destruct q as [|a [|b [|c [|]]]]; reflexivity. Qed.
Lemma assigned_renamed : forall rho e1 e2 d a c, renamed rho e1 e2 -> one_to_one rho ->
  (assigned e2 (option_map rho d, rho a, c) <-> exists b, c = rho b /\ assigned e1 (d, a, b)).
Proof.
  intros rho e1 e2 d a c [_ R] O. unfold assigned. split.
  - intros [pt [r [I L]]]. apply R in I. destruct I as [q [I ->]]. rewrite link_renamed in L.
    destruct (link_of q) as [[[d' a'] b']|] eqn:E; [|discriminate]. cbn [option_map] in L.
    exists b'. inversion L as [[D A B]]. split; auto. apply O in A. subst a'.
    assert (d' = d).
    { destruct d', d; cbn [option_map] in D; try discriminate; auto. inversion D as [D']. apply O in D'. subst. auto. }
    subst d'. eauto.
  - intros [b [-> [pt [q [I L]]]]]. exists pt, (map rho q). split; [apply R; eauto|]. rewrite link_renamed, L. reflexivity.
Qed.
Lemma within_renamed : forall rho e1 e2 d n a c, renamed rho e1 e2 -> one_to_one rho ->
  (within (assigned e2) (option_map rho d) n (rho a) c <-> exists b, c = rho b /\ within (assigned e1) d n a b).
Proof.
  intros rho e1 e2 d n a c R O. split.
  - revert a. induction n; intros a W; inversion W; subst.
    + exists a. split; auto. constructor.
    + exists a. split; auto. constructor.
    + match goal with H : assigned _ _ |- _ => apply (assigned_renamed rho e1 e2 d a _ R O) in H; destruct H as [b' [-> A]] end.
      match goal with H : within _ _ _ _ _ |- _ => apply IHn in H; destruct H as [b [-> V]] end.
      exists b. split; auto. econstructor; eauto.
  - intros [b [-> W]]. induction W; [constructor|]. econstructor; [|apply IHW].
    apply (assigned_renamed rho e1 e2 d a _ R O). eauto.
Qed.
Lemma within_rho : forall rho e1 e2 d n a b, renamed rho e1 e2 -> one_to_one rho ->
  (within (assigned e2) (option_map rho d) n (rho a) (rho b) <-> within (assigned e1) d n a b).
Proof.
  intros rho e1 e2 d n a b R O. rewrite (within_renamed rho e1 e2 d n a _ R O). split.
  - intros [b' [E W]]. apply O in E. subst. auto.
  - eauto.
Qed.
Lemma same_bool : forall b1 b2 : bool, (b1 = true <-> b2 = true) -> b1 = b2.
Proof. intros [] [] H; intuition congruence. Qed.
