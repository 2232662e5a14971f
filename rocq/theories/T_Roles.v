(** Properties C24-C27: the role manager. *)
From Verif Require Import Base P_Base M_RoleManager S_Roles P_Roles.
Local Arguments spell : simpl never.

(** A history used by the examples: a cycle, a deleted link, two domains. *)
Definition hist : list rcall :=
  [RAdd None "alice" "admin"; RAdd None "admin" "root"; RAdd None "root" "alice"; RAdd None "bob" "admin";
   RDel None "bob" "admin"; RAdd (Some "d1") "alice" "guest"; RAdd (Some "d2") "bob" "guest"; RHasLink None "carol" "root"].
Lemma hist_apart : forall c, (forall n, mentions c n -> smem ":" (snd n) = false) -> apart (hist ++ [c]).
Proof.
  intros c H. apply no_colons_apart. intros c' n I M. apply in_app_iff in I. destruct I as [I|[<-|[]]]; auto.
  simpl in I. repeat destruct I as [<-|I]; try tauto; simpl in M; repeat destruct M as [->|M]; try tauto; subst; reflexivity.
Qed.

(** ** C24 *)
Theorem C24_has_link_is_bounded_reachability : forall level cs d a b,
  apart (cs ++ [RHasLink d a b]) ->
  exists v, snd (HasLink (rm_after level cs) a b (dom_arg d)) = Ok v /\ (v = true <-> within (links cs) d level a b).
Proof.
  intros level cs d a b A. pose proof (after_represents level cs _ A) as R.
  pose proof (rep_HasLink _ (named_inj _ A) _ _ d a b R) as H. rewrite rm_after_level in H.
  apply H; apply named_extra; simpl; auto.
Qed.
(** The names of a history without colons, or without domains, are never confused. *)
Theorem C24_names_without_colons : forall cs, no_colons cs -> apart cs.
Proof. exact no_colons_apart. Qed.
Theorem C24_names_without_domains : forall cs, no_domains cs -> apart cs.
Proof. exact no_domains_apart. Qed.
Example C24_cases :
  apart (hist ++ [RHasLink None "alice" "root"]) /\
  snd (HasLink (rm_after 10 hist) "alice" "root" []) = Ok true /\
  snd (HasLink (rm_after 10 hist) "admin" "alice" []) = Ok true /\
  snd (HasLink (rm_after 10 hist) "bob" "admin" []) = Ok false /\
  snd (HasLink (rm_after 1 hist) "alice" "root" []) = Ok false /\
  within (links hist) None 2 "alice" "root" /\ links hist (None, "alice", "admin") /\ ~ links hist (None, "bob", "admin").
Proof.
  split. { apply hist_apart. simpl. intros n [->| ->]; reflexivity. }
  repeat (split; [reflexivity|]).
  assert (H : forall l, links hist l <-> In l [(None, "alice", "admin"); (None, "admin", "root"); (None, "root", "alice");
    (Some "d1", "alice", "guest"); (Some "d2", "bob", "guest")]).
  { intros l. unfold links, hist. simpl. intuition (subst; try discriminate; auto). all: intuition congruence. }
  split. { eapply within_next; [apply H; simpl; auto|]. eapply within_next; [apply H; simpl; auto|]. constructor. }
  rewrite !H. simpl. split; auto. intuition congruence.
Qed.
(** More than two arguments of domain are refused, in every state. *)
Theorem C24_two_domains_rejected : forall r a b d1 d2 ds,
  snd (HasLink r a b (d1 :: d2 :: ds)) = Throw CasbinRBAC /\ fst (HasLink r a b (d1 :: d2 :: ds)) = r /\
  snd (AddLink r a b (d1 :: d2 :: ds)) = Throw CasbinRBAC /\ fst (AddLink r a b (d1 :: d2 :: ds)) = r /\
  snd (DeleteLink r a b (d1 :: d2 :: ds)) = Throw CasbinRBAC /\ fst (DeleteLink r a b (d1 :: d2 :: ds)) = r /\
  GetRoles r a (d1 :: d2 :: ds) = (r, Throw CasbinRBAC) /\ GetUsers r a (d1 :: d2 :: ds) = Throw CasbinRBAC.
Proof. intros. repeat split. Qed.
(** With a matching function, every answer "true" is explained by links and matches. *)
Theorem C24_matching_sound_partial : forall f level cs a b,
  (forall x, f x x = true) -> no_domains cs ->
  snd (HasLink (rm_after_matching f level cs) a b []) = Ok true -> within_matching f (links cs) level a b.
Proof.
  intros f level cs a b F N H. rewrite <- (rm_after_matching_level f level cs). eapply sw_HasLink; eauto. apply sw_after; auto.
Qed.
(** What is missing above: the converse fails, the answer depends on the order in
    which the links were added. *)
Definition starred (x k : string) : bool := String.eqb x k || String.eqb k "/book/*" && String.prefix "/book/" x.
Theorem C24_matching_order_refuted : exists f level c1 c2 a b, (forall x, f x x = true) /\
  snd (HasLink (rm_after_matching f level [c1; c2]) a b []) = Ok false /\
  snd (HasLink (rm_after_matching f level [c2; c1]) a b []) = Ok true /\
  within_matching f (links [c1; c2]) level a b.
Proof.
  exists starred, 10, (RAdd None "shelf" "/book/1"), (RAdd None "/book/*" "group"), "shelf", "group".
  split. { intros x. unfold starred. rewrite eqb_refl_s. auto. }
  split; [reflexivity|]. split; [reflexivity|].
  eapply matching_link. { right. left. reflexivity. }
  eapply matching_step with (b := "/book/*"); [reflexivity|].
  eapply matching_link. { left. reflexivity. } constructor.
Qed.
Example C24_matching_case : no_domains [RAdd None "/book/*" "group"] /\
  snd (HasLink (rm_after_matching starred 10 [RAdd None "/book/*" "group"]) "/book/7" "group" []) = Ok true.
Proof. split; [|reflexivity]. intros c n [<-|[]]. simpl. intros [->| ->]; auto. Qed.

(** ** C25 *)
(** What GetRoles lists before and after, for every name and domain. *)
Theorem C25_add_link : forall level cs d a b d' a',
  apart (cs ++ [RAdd d a b; RGetRoles d' a']) ->
  snd (AddLink (rm_after level cs) a b (dom_arg d)) = Ok tt /\
  exists before after,
    snd (GetRoles (rm_after level cs) a' (dom_arg d')) = Ok before /\
    snd (GetRoles (fst (AddLink (rm_after level cs) a b (dom_arg d))) a' (dom_arg d')) = Ok after /\
    NoDup before /\ NoDup after /\
    forall x, In x after <-> In x before \/ (d', a', x) = (d, a, b).
Proof.
  intros level cs d a b d' a' A. pose proof (after_represents level cs _ A) as R. pose proof (named_inj _ A) as I.
  assert (N1 : named (cs ++ [RAdd d a b; RGetRoles d' a']) (d, a)) by (exists (RAdd d a b); rewrite in_app_iff; simpl; auto).
  assert (N2 : named (cs ++ [RAdd d a b; RGetRoles d' a']) (d, b)) by (exists (RAdd d a b); rewrite in_app_iff; simpl; auto).
  assert (N3 : named (cs ++ [RAdd d a b; RGetRoles d' a']) (d', a')) by (exists (RGetRoles d' a'); rewrite in_app_iff; simpl; auto).
  destruct (rep_add _ I _ _ d a b R N1 N2) as [R' O]. split; auto.
  destruct (rep_GetRoles _ I _ _ d' a' R N3) as [l [E [N H]]]. destruct (rep_GetRoles _ I _ _ d' a' R' N3) as [l' [E' [N' H']]].
  exists l, l'. do 4 (split; auto). intros x. rewrite H', H. simpl. tauto.
Qed.
Theorem C25_delete_link : forall level cs d a b d' a',
  apart (cs ++ [RDel d a b; RGetRoles d' a']) ->
  exists before after,
    snd (GetRoles (rm_after level cs) a' (dom_arg d')) = Ok before /\
    snd (GetRoles (fst (DeleteLink (rm_after level cs) a b (dom_arg d))) a' (dom_arg d')) = Ok after /\
    NoDup before /\ NoDup after /\
    forall x, In x after <-> In x before /\ (d', a', x) <> (d, a, b).
Proof.
  intros level cs d a b d' a' A. pose proof (after_represents level cs _ A) as R. pose proof (named_inj _ A) as I.
  assert (N1 : named (cs ++ [RDel d a b; RGetRoles d' a']) (d, a)) by (exists (RDel d a b); rewrite in_app_iff; simpl; auto).
  assert (N2 : named (cs ++ [RDel d a b; RGetRoles d' a']) (d, b)) by (exists (RDel d a b); rewrite in_app_iff; simpl; auto).
  assert (N3 : named (cs ++ [RDel d a b; RGetRoles d' a']) (d', a')) by (exists (RGetRoles d' a'); rewrite in_app_iff; simpl; auto).
  destruct (rep_delete _ I _ _ d a b R N1 N2) as [R' O].
  destruct (rep_GetRoles _ I _ _ d' a' R N3) as [l [E [N H]]]. destruct (rep_GetRoles _ I _ _ d' a' R' N3) as [l' [E' [N' H']]].
  exists l, l'. do 4 (split; auto). intros x. rewrite H', H. simpl. tauto.
Qed.
(** A present link can be deleted; DeleteLink fails only for an absent one, and then changes nothing. *)
Theorem C25_delete_outcome : forall level cs d a b,
  apart (cs ++ [RDel d a b]) ->
  (links cs (d, a, b) -> snd (DeleteLink (rm_after level cs) a b (dom_arg d)) = Ok tt) /\
  (snd (DeleteLink (rm_after level cs) a b (dom_arg d)) = Ok tt \/
   snd (DeleteLink (rm_after level cs) a b (dom_arg d)) = Throw CasbinRBAC /\
   fst (DeleteLink (rm_after level cs) a b (dom_arg d)) = rm_after level cs).
Proof.
  intros level cs d a b A. pose proof (after_represents level cs _ A) as R. pose proof (named_inj _ A) as I.
  assert (N1 : named (cs ++ [RDel d a b]) (d, a)) by (apply named_extra; simpl; auto).
  assert (N2 : named (cs ++ [RDel d a b]) (d, b)) by (apply named_extra; simpl; auto).
  destruct (rep_delete _ I _ _ d a b R N1 N2) as [R' [O|[O [N E]]]]; split; auto. intros H. tauto.
Qed.
Theorem C25_clear : forall r d a, matching r = None ->
  snd (GetRoles (Clear r) a (dom_arg d)) = Ok [] /\ snd (HasLink (Clear r) a a (dom_arg d)) = Ok true /\
  forall b, b <> a -> snd (HasLink (Clear r) a b (dom_arg d)) = Ok false.
Proof.
  intros r d a P. unfold GetRoles, HasLink. rewrite dom_short, !prefixed_spell, eqb_refl_s.
  unfold HasRole. simpl. rewrite P. simpl. split; [reflexivity|split; [reflexivity|]]. intros b N.
  destruct (String.eqb_spec (spell (d, a)) (prefixed (dom_arg d) b)) as [E|E]; auto. rewrite prefixed_spell in E.
  apply spell_same_dom in E. congruence.
Qed.
Example C25_cases :
  apart (hist ++ [RAdd (Some "d1") "alice" "owner"; RGetRoles (Some "d1") "alice"]) /\
  snd (GetRoles (rm_after 10 (hist ++ [RAdd (Some "d1") "alice" "owner"])) "alice" ["d1"]) = Ok ["guest"; "owner"] /\
  apart (hist ++ [RDel None "alice" "admin"]) /\ links hist (None, "alice", "admin") /\
  snd (GetRoles (rm_after 10 (hist ++ [RDel None "alice" "admin"])) "alice" []) = Ok [] /\
  snd (DeleteLink (rm_after 10 hist) "alice" "nobody" []) = Throw CasbinRBAC.
Proof.
  split.
  { apply no_colons_apart. intros c n I M. simpl in I. repeat destruct I as [<-|I]; try tauto; simpl in M; repeat destruct M as [->|M]; try tauto; subst; reflexivity. }
  split; [reflexivity|]. split. { apply hist_apart. simpl. intros n [->| ->]; reflexivity. }
  split. { unfold links, hist. simpl. intuition congruence. } split; reflexivity.
Qed.
(** With a matching function that does not match a name with itself (as a regular
    expression need not), a link can be impossible to delete. *)
Definition many_u (x k : string) : bool :=
  String.eqb k "u+" && (String.eqb x "u" || String.eqb x "uu") || String.eqb x k && negb (String.eqb x "u+").
Theorem C25_delete_with_matching_refuted : exists f level cs a b c,
  links cs (None, a, b) /\ snd (DeleteLink (rm_after_matching f level cs) a b []) = Throw CasbinRBAC /\
  snd (HasLink (fst (DeleteLink (rm_after_matching f level cs) a b [])) c b []) = Ok true.
Proof. exists many_u, 10, [RAdd None "u+" "r"], "u+", "r", "uu". split; [left; reflexivity|]. split; reflexivity. Qed.

(** ** C26 *)
(** Dropping the calls on all other domains does not change what is seen in a domain. *)
Theorem C26_has_link : forall level cs d a b,
  apart (cs ++ [RHasLink d a b]) ->
  snd (HasLink (rm_after level cs) a b (dom_arg d)) =
  snd (HasLink (rm_after level (filter (concerns d) cs)) a b (dom_arg d)).
Proof.
  intros level cs d a b A.
  destruct (C24_has_link_is_bounded_reachability level _ _ _ _ A) as [v [-> V]].
  destruct (C24_has_link_is_bounded_reachability level _ _ _ _ (apart_filter (concerns d) _ _ A)) as [v' [-> V']].
  f_equal. apply eq_iff_eq_true. rewrite V, V'. apply within_ext. apply links_of_domain.
Qed.
Theorem C26_get_roles : forall level cs d a,
  apart (cs ++ [RGetRoles d a]) ->
  exists l l', snd (GetRoles (rm_after level cs) a (dom_arg d)) = Ok l /\
    snd (GetRoles (rm_after level (filter (concerns d) cs)) a (dom_arg d)) = Ok l' /\
    NoDup l /\ NoDup l' /\ forall x, In x l <-> In x l'.
Proof.
  intros level cs d a A. pose proof (apart_filter (concerns d) _ _ A) as A'.
  destruct (rep_GetRoles _ (named_inj _ A) _ _ d a (after_represents level cs _ A)) as [l [E [N H]]].
  { apply named_extra. simpl. auto. }
  destruct (rep_GetRoles _ (named_inj _ A') _ _ d a (after_represents level _ _ A')) as [l' [E' [N' H']]].
  { apply named_extra. simpl. auto. }
  exists l, l'. do 4 (split; auto). intros x. rewrite H, H'. apply links_of_domain.
Qed.
Example C26_case : apart (hist ++ [RHasLink (Some "d2") "alice" "guest"]) /\
  snd (HasLink (rm_after 10 hist) "alice" "guest" ["d2"]) = Ok false /\
  snd (HasLink (rm_after 10 hist) "alice" "guest" ["d1"]) = Ok true /\
  List.length (filter (concerns (Some "d2")) hist) = 1.
Proof. split; [|repeat split]. apply hist_apart. simpl. intros n [->| ->]; reflexivity. Qed.
(** Names with "::" leak between domains. *)
Theorem C26_colons_refuted : exists level cs d a b,
  snd (HasLink (rm_after level cs) a b (dom_arg d)) <>
  snd (HasLink (rm_after level (filter (concerns d) cs)) a b (dom_arg d)).
Proof. exists 10, [RAdd (Some "d") "alice" "admin"], None, "d::alice", "d::admin". vm_compute. discriminate. Qed.
Theorem C26_two_domains_refuted : exists level cs d1 d2 a b,
  d1 <> d2 /\ cs = [RAdd (Some d1) a b] /\
  exists a' b', snd (HasLink (rm_after level cs) a' b' [d2]) = Ok true /\ a' <> b'.
Proof. exists 10, [RAdd (Some "x") "y::u" "y::r"], "x", "x::y", "y::u", "y::r". repeat split; try discriminate. exists "u", "r". split; [reflexivity|discriminate]. Qed.

(** ** C27 *)
Theorem C27_converse : forall level cs d u r,
  apart (cs ++ [RGetRoles d u; RGetUsers d r]) ->
  exists roles, snd (GetRoles (rm_after level cs) u (dom_arg d)) = Ok roles /\
    NoDup roles /\ (In r roles <-> links cs (d, u, r)) /\
    match GetUsers (rm_after level cs) r (dom_arg d) with
    | Ok users => NoDup users /\ (In u users <-> In r roles)
    | Throw e => e = CasbinRBAC /\ ~ In r roles
    | UB _ => False
    end.
Proof.
  intros level cs d u r A. pose proof (after_represents level cs _ A) as R. pose proof (named_inj _ A) as I.
  assert (N1 : named (cs ++ [RGetRoles d u; RGetUsers d r]) (d, u)) by (exists (RGetRoles d u); rewrite in_app_iff; simpl; auto).
  assert (N2 : named (cs ++ [RGetRoles d u; RGetUsers d r]) (d, r)) by (exists (RGetUsers d r); rewrite in_app_iff; simpl; auto).
  destruct (rep_GetRoles _ I _ _ d u R N1) as [l [E [N H]]]. exists l. split; auto. split; auto. split; auto.
  pose proof (rep_GetUsers _ I _ _ d r R N2) as G. destruct (GetUsers (rm_after level cs) r (dom_arg d)); auto.
  - destruct G as [G1 G2]. split; auto. rewrite G2, H. tauto.
  - destruct G as [G1 G2]. split; auto. rewrite H. auto.
Qed.
Example C27_case : apart (hist ++ [RGetRoles (Some "d1") "alice"; RGetUsers (Some "d1") "guest"]) /\
  snd (GetRoles (rm_after 10 hist) "alice" ["d1"]) = Ok ["guest"] /\
  GetUsers (rm_after 10 hist) "guest" ["d1"] = Ok ["alice"] /\
  GetUsers (rm_after 10 hist) "guest" [] = Throw CasbinRBAC.
Proof.
  split; [|repeat split]. apply no_colons_apart. intros c n I M. simpl in I.
  repeat destruct I as [<-|I]; try tauto; simpl in M; repeat destruct M as [->|M]; try tauto; subst; reflexivity.
Qed.
(** GetRoles answers the empty list for an unknown name where GetUsers throws. *)
Theorem C27_unknown_name_refuted : exists r name, snd (GetRoles r name []) = Ok [] /\ GetUsers r name [] = Throw CasbinRBAC.
Proof. exists (new_rm 10), "nobody". split; reflexivity. Qed.
(** Names with "::" break the converse: GetUsers meets a name too short for the domain. *)
Theorem C27_colons_refuted : exists cs d r, GetUsers (rm_after 10 cs) r [d] = Throw StdOutOfRange.
Proof. exists [RAdd None "u" "d::r"], "d", "r". reflexivity. Qed.

Print Assumptions C24_has_link_is_bounded_reachability.
Print Assumptions C24_matching_sound_partial.
Print Assumptions C25_add_link.
Print Assumptions C25_delete_link.
Print Assumptions C26_has_link.
Print Assumptions C27_converse.
