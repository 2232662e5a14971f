(** Property C92: comparing two addresses; and masking one, for property C56. *)
From Verif Require Import Base P_Base M_Util M_Ip S_Text P_Text S_Ip P_Ip T_Ip.
From Coq Require Import Lia.
Open Scope N_scope.

(** The sixteen-byte form of an address of four or sixteen bytes. *)
Definition long_form (b : list N) : list N := if Nat.eqb (List.length b) 4 then [0; 0; 0; 0; 0; 0; 0; 0; 0; 0; 255; 255] ++ b else b.
Definition sized (p : ip) : Prop := List.length (bytes p) = 4%nat \/ List.length (bytes p) = 16%nat.

Lemma list_eqb_eq : forall a b, list_eqb a b = true <-> a = b.
Proof.
  unfold list_eqb. induction a as [|x a IH]; intros [|y b]; cbn; try (split; discriminate); [tauto|].
  specialize (IH b). split; intros H.
  - apply Bool.andb_true_iff in H. destruct H as [L H]. apply Bool.andb_true_iff in H. destruct H as [E H]. apply N.eqb_eq in E. subst. f_equal. apply IH.
    rewrite L. exact H.
  - injection H as -> ->. rewrite N.eqb_refl. cbn. apply IH. reflexivity.
Qed.
Lemma prefix_split : forall b, List.length b = 16%nat -> forall a, [0; 0; 0; 0; 0; 0; 0; 0; 0; 0; 255; 255] ++ a = b <->
  firstn 12 b = v4InV6Prefix /\ a = skipn 12 b.
Proof.
  intros b L a. split.
  - intros <-. split; reflexivity.
  - intros [F ->]. rewrite <- (firstn_skipn 12 b) at 2. rewrite F. reflexivity.
Qed.
(** Equal says whether two addresses have the same sixteen-byte form. *)
Theorem C92_equal : forall p x, sized p -> sized x -> (Equal p x = true <-> long_form (bytes p) = long_form (bytes x)).
Proof.
  intros p x P Q. unfold Equal, long_form. destruct P as [P|P], Q as [Q|Q]; rewrite P, Q; cbn [Nat.eqb andb].
  - rewrite list_eqb_eq. split; [congruence|apply app_inv_head].
  - rewrite Bool.andb_true_iff, !list_eqb_eq. rewrite (prefix_split _ Q). tauto.
  - rewrite Bool.andb_true_iff, !list_eqb_eq. split.
    + intros [A B]. symmetry. apply (prefix_split _ P). auto.
    + intros H. symmetry in H. apply (prefix_split _ P) in H. destruct H. auto.
  - apply list_eqb_eq.
Qed.
(** So it is an equivalence. *)
Theorem C92_equivalence : forall p x y, sized p -> sized x -> sized y ->
  Equal p p = true /\ Equal p x = Equal x p /\ (Equal p x = true -> Equal x y = true -> Equal p y = true).
Proof.
  intros p x y P X Y. split; [apply C92_equal; auto|]. split.
  - destruct (Equal p x) eqn:A, (Equal x p) eqn:B; auto.
    + rewrite C92_equal in A by auto. symmetry in A. rewrite <- C92_equal in A by auto. congruence.
    + rewrite C92_equal in B by auto. symmetry in B. rewrite <- C92_equal in B by auto. congruence.
  - rewrite !C92_equal by auto. congruence.
Qed.
(** For texts: two IPv4 addresses are equal when their four numbers are. *)
Theorem C92_v4 : forall s a t b, ipv4_text s a -> ipv4_text t b -> (Equal (parseIP s) (parseIP t) = true <-> a = b).
Proof.
  intros s a t b A B. rewrite (parseIP_v4 _ _ A), (parseIP_v4 _ _ B). destruct (ipv4_bytes _ _ A) as [La _]. destruct (ipv4_bytes _ _ B) as [Lb _].
  rewrite C92_equal; [|right; cbn [bytes IPv4]; rewrite app_length, ?La, ?Lb; reflexivity..]. unfold long_form. cbn [bytes IPv4].
  rewrite !app_length, La, Lb. cbn [Nat.eqb List.length v4InV6Prefix Nat.add]. split; [apply app_inv_head|congruence].
Qed.
(** Two IPv6 addresses written alike are equal when their sixteen bytes are, although the
    parser does not store these bytes (C58). *)
Lemma group_inj : forall v w, bytes_of (Group v) = bytes_of (Group w) -> v = w.
Proof.
  intros v w H. cbn [bytes_of] in H.
  pose proof (f_equal (fun l => nth 0 l 0) H) as H1. pose proof (f_equal (fun l => nth 1 l 0) H) as H2. cbn [nth] in H1, H2. change 255 with (N.ones 8) in H2. rewrite !N.land_ones in H2. rewrite !N.shiftr_div_pow2 in H1.
  rewrite (N.div_mod v (2 ^ 8)), (N.div_mod w (2 ^ 8)) by discriminate. congruence.
Qed.
Lemma alike_inj : forall l r, fine l -> fine r -> written_alike l r -> address l = address r -> l = r.
Proof.
  unfold written_alike, address. induction l as [|c l IH]; intros [|d r] F G K E; try discriminate; auto.
  cbn [map] in K. injection K as K1 K2. cbn [flat_map] in E.
  assert (X : bytes_of c = bytes_of d /\ flat_map bytes_of l = flat_map bytes_of r).
  { destruct c as [v|a], d as [w|b]; try discriminate K1.
    - split; [exact (f_equal (firstn 2) E)|exact (f_equal (skipn 2) E)].
    - cbn [bytes_of] in E |- *. assert (L : List.length a = List.length b) by (rewrite (F a), (G b); auto; left; auto). revert L E. clear. revert b.
      induction a as [|x a IH]; intros [|y b] L E; try discriminate; [auto|]. cbn in L, E. injection E as -> E. injection L as L. destruct (IH b L E) as [-> Q]. auto. }
  destruct X as [X1 X2]. f_equal; [|apply IH; auto; intros a I; [apply F|apply G]; right; exact I].
  destruct c as [v|a], d as [w|b]; try discriminate K1; [f_equal; apply group_inj; exact X1|cbn [bytes_of] in X1; congruence].
Qed.
Theorem C92_v6_partial : forall s l t r, ipv6_text s l -> ipv6_text t r -> written_alike l r ->
  (Equal (parseIP s) (parseIP t) = true <-> address l = address r).
Proof.
  intros s l t r A B W. rewrite (parseIP_v6 _ _ A), (parseIP_v6 _ _ B). pose proof (entries_16 _ _ A) as La. pose proof (entries_16 _ _ B) as Lb.
  rewrite C92_equal by (right; assumption). unfold long_form. cbn [bytes]. rewrite La, Lb. cbn [Nat.eqb].
  destruct (ipv6_size _ _ A) as [_ Fa]. destruct (ipv6_size _ _ B) as [_ Fb]. split; intros E.
  - f_equal. clear - E W Fa Fb. unfold written_alike, entries in *. revert r W Fb E. induction l as [|c l IH]; intros [|d r] K G E; try discriminate; auto.
    cbn [map] in K. injection K as K1 K2. cbn [flat_map] in E.
    assert (X : c = d /\ flat_map entries_of l = flat_map entries_of r).
    { destruct c as [v|a], d as [w|b]; try discriminate K1.
      - split; [f_equal; exact (f_equal (fun l => nth 1 l 0) E)|exact (f_equal (skipn 2) E)].
      - cbn [entries_of] in E. assert (L : List.length a = List.length b) by (rewrite (Fa a), (G b); auto; left; auto).
        assert (Y : a = b /\ flat_map entries_of l = flat_map entries_of r).
        { revert L E. clear. revert b. induction a as [|x a IH]; intros [|y b] L E; try discriminate; [auto|]. cbn in L, E. injection E as -> E. injection L as L. destruct (IH b L E) as [-> Q]. auto. }
        destruct Y as [-> Y]. auto. }
    destruct X as [-> X2]. f_equal. apply IH; auto; intros a I; [apply Fa|apply G]; right; exact I.
  - f_equal. apply alike_inj; auto.
Qed.
(** Missing: addresses written differently.  There it is false: an address whose last two
    groups are written as an IPv4 address never equals the one in groups ... *)
Theorem C92_written_refuted : exists s l t r, ipv6_text s l /\ ipv6_text t r /\ address l = address r /\ Equal (parseIP s) (parseIP t) = false.
Proof.
  exists "::1.2.3.4", (repeat (Group 0) 6 ++ [Quad [1; 2; 3; 4]]), "::102:304", (repeat (Group 0) 6 ++ [Group 258; Group 772]).
  split; [|split; [|split; vm_compute; reflexivity]].
  - apply (ipv6_short "" "1.2.3.4" [] [Quad [1; 2; 3; 4]]); [left; auto|intros c []| |cbn; lia]. right. apply colons_quad. apply v4_of; reflexivity.
  - apply (ipv6_short "" "102:304" [] [Group 258; Group 772]); [left; auto|intros c []| |cbn; lia]. right. apply (colons_more "102" 258 "304" [Group 772]); [grp|apply colons_group; grp].
Qed.
(** ... and an IPv4 address never equals its IPv4-mapped form, although the code compares
    with that prefix. *)
Theorem C92_mapped_refuted : forall s a, ipv4_text s a -> Equal (parseIP s) (parseIP ("::ffff:" ++ s)) = false.
Proof.
  intros s a A. rewrite (parseIP_v4 _ _ A), (parseIP_v6 _ _ (v6_mapped s a A)). destruct (Equal _ _) eqn:E; auto. exfalso.
  destruct (ipv4_bytes _ _ A) as [La _].
  apply C92_equal in E; [|right; cbn [bytes IPv4]; rewrite app_length, La; reflexivity|right; exact (entries_16 _ _ (v6_mapped s a A))].
  unfold long_form in E. cbn [bytes IPv4] in E. rewrite app_length, La in E. rewrite (entries_16 _ _ (v6_mapped s a A)) in E. cbn [Nat.eqb List.length v4InV6Prefix Nat.add] in E.
  unfold v4InV6Prefix, entries in E. cbn [map app flat_map entries_of] in E. discriminate E.
Qed.
Example C92_case : ipv4_text "10.0.0.1" [10; 0; 0; 1] /\ ipv4_text "010.0.00.1" [10; 0; 0; 1] /\
  Equal (parseIP "10.0.0.1") (parseIP "010.0.00.1") = true /\ Equal (parseIP "10.0.0.1") (parseIP "10.0.0.2") = false /\
  ipv6_text "2001:db8::1" (map Group [8193; 3512; 0; 0; 0; 0; 0; 1]) /\ Equal (parseIP "2001:db8::1") (parseIP "2001:0DB8:0:0::1") = true /\
  sized (mkIp [10; 0; 0; 1] true) /\ Equal (mkIp [10; 0; 0; 1] true) (parseIP "10.0.0.1") = true.
Proof.
  split; [apply v4_of; reflexivity|]. split; [apply v4_of; reflexivity|]. split; [reflexivity|]. split; [reflexivity|]. split; [exact v6_db8|]. split; [vm_compute; reflexivity|].
  split; [left; reflexivity|reflexivity].
Qed.

(** ** Masking *)
(** Element by element. *)
Definition ands (b m r : list N) : Prop := List.length r = List.length b /\ forall i, nth i r 0 = N.land (nth i b 0) (nth i m 0).
(** An address under a mask of the same length; an address of four bytes under the last four of a
    mask of sixteen that starts with twelve times 255; an IPv4 address in sixteen bytes under a mask of four. *)
Inductive under_mask : list N -> list N -> list N -> Prop :=
| um_same : forall b m r, List.length b = List.length m -> ands b m r -> under_mask b m r
| um_long_mask : forall b m r, List.length b = 4%nat -> List.length m = 4%nat -> ands b m r ->
    under_mask b ([255; 255; 255; 255; 255; 255; 255; 255; 255; 255; 255; 255] ++ m) r
| um_mapped : forall b m r, List.length b = 4%nat -> List.length m = 4%nat -> ands b m r ->
    under_mask ([0; 0; 0; 0; 0; 0; 0; 0; 0; 0; 255; 255] ++ b) m r.
Lemma ands_masked : forall b m, List.length b = List.length m -> ands b m (masked b m).
Proof.
  induction b as [|x b IH]; intros [|y m] L; try discriminate L. { split; [reflexivity|]. intros [|i]; reflexivity. }
  destruct (IH m) as [A B]. { cbn in L. lia. } unfold masked in *. cbn [combine map fst snd]. split; [cbn; lia|]. intros [|i]; cbn [nth]; auto.
Qed.
Lemma ands_unique : forall b m r r', ands b m r -> ands b m r' -> r = r'.
Proof. intros b m r r' [A B] [A' B']. apply (nth_ext r r' 0 0); [congruence|]. intros i _. congruence. Qed.
Lemma allFF_eq : forall l, allFF l = true <-> l = repeat 255 (List.length l).
Proof.
  induction l as [|x l IH]; cbn; [tauto|]. rewrite Bool.andb_true_iff, N.eqb_eq. split.
  - intros [-> H]. f_equal. apply IH. exact H.
  - intros H. injection H as -> H. split; auto. apply IH. exact H.
Qed.
(** Mask gives this, and the illegal address where none of the three applies. *)
Theorem C56_mask : forall p m, sized p -> List.length m = 4%nat \/ List.length m = 16%nat ->
  (forall r, Mask p m = mkIp r true <-> under_mask (bytes p) m r) /\
  ((forall r, ~ under_mask (bytes p) m r) <-> Mask p m = illegal).
Proof.
  intros p m P L. destruct p as [b lg]. unfold sized in P. cbn [bytes] in *.
  assert (X : (exists r, Mask (mkIp b lg) m = mkIp r true /\ under_mask b m r) \/ (Mask (mkIp b lg) m = illegal /\ forall r, ~ under_mask b m r)).
  { unfold Mask. cbn [bytes]. destruct P as [P|P], L as [L|L]; rewrite P, L; cbn [Nat.eqb andb].
    - rewrite L. cbn [Nat.eqb andb]. rewrite P. cbn [Nat.eqb negb]. left. eexists. split; [reflexivity|]. apply um_same; [congruence|]. apply ands_masked. congruence.
    - destruct (allFF (firstn 12 m)) eqn:F.
      + apply allFF_eq in F. rewrite firstn_length, L in F. change (Nat.min 12 16) with 12%nat in F. assert (E : m = [255; 255; 255; 255; 255; 255; 255; 255; 255; 255; 255; 255] ++ skipn 12 m).
        { rewrite <- (firstn_skipn 12 m) at 1. rewrite F. reflexivity. }
        assert (L4 : List.length (skipn 12 m) = 4%nat) by (rewrite skipn_length, L; reflexivity).
        rewrite L4. cbn [Nat.eqb andb]. rewrite P. cbn [Nat.eqb negb]. left. eexists. split; [reflexivity|]. rewrite E at 1. apply um_long_mask; auto. apply ands_masked. congruence.
      + rewrite L. cbn [Nat.eqb andb]. rewrite P. cbn [Nat.eqb negb]. right. split; [reflexivity|]. intros r U. inversion U; subst.
        * congruence.
        * cbn in F. discriminate.
        * rewrite app_length in P. cbn in P. lia.
    - rewrite L. cbn [Nat.eqb andb]. destruct (list_eqb (firstn 12 b) v4InV6Prefix) eqn:F.
      + apply list_eqb_eq in F. assert (L4 : List.length (skipn 12 b) = 4%nat) by (rewrite skipn_length, P; reflexivity).
        rewrite L4. cbn [Nat.eqb negb]. left. eexists. split; [reflexivity|].
        rewrite <- (proj2 (prefix_split b P (skipn 12 b))) at 1 by auto. apply um_mapped; auto. apply ands_masked. congruence.
      + rewrite P. cbn [Nat.eqb negb]. right. split; [reflexivity|]. intros r U. inversion U; subst.
        * congruence.
        * congruence.
        * cbn in F. discriminate.
    - rewrite L. cbn [Nat.eqb andb]. rewrite P. cbn [Nat.eqb negb]. left. eexists. split; [reflexivity|]. apply um_same; [congruence|]. apply ands_masked. congruence. }
  assert (U : forall r r', under_mask b m r -> under_mask b m r' -> r = r').
  { intros r r' A B. assert (Q : forall x y : list N, List.length y = 4%nat -> List.length (x ++ y) = (List.length x + 4)%nat) by (intros; rewrite app_length; lia).
    destruct A; inversion B; subst; try (eapply ands_unique; eassumption); exfalso;
      repeat match goal with H : context [List.length (?x ++ ?y)] |- _ => rewrite (Q x y) in H by assumption end; cbn [List.length Nat.add] in *; try congruence;
      try (rewrite Q in * by assumption; cbn in *; congruence). }
  destruct X as [[r [E UM]]|[E N]]; rewrite E; split.
  - intros r'. split; intros H; [injection H as <-; exact UM|]. f_equal. eapply U; eauto.
  - split; [intros N; elim (N r UM)|intros H; discriminate H].
  - intros r'. split; intros H; [discriminate H|elim (N r' H)].
  - split; auto.
Qed.
Example C56_mask_case : Mask (mkIp [10; 1; 2; 3] true) [255; 255; 0; 0] = mkIp [10; 1; 0; 0] true /\
  Mask (parseIP "10.1.2.3") [255; 255; 0; 0] = mkIp [10; 1; 0; 0] true /\
  Mask (mkIp [10; 1; 2; 3] true) (repeat 255 13 ++ [0; 0; 0]) = mkIp [10; 0; 0; 0] true /\
  Mask (mkIp [10; 1; 2; 3] true) (repeat 255 11 ++ repeat 0 5) = illegal.
Proof. repeat split. Qed.
Print Assumptions C92_equal.
Print Assumptions C92_equivalence.
Print Assumptions C92_v4.
Print Assumptions C92_v6_partial.
Print Assumptions C92_written_refuted.
Print Assumptions C92_mapped_refuted.
Print Assumptions C56_mask.
