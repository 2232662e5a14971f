(** Property C81: roles of names that match a pattern. *)
From Verif Require Import Base P_Base M_RoleManager S_Roles P_Roles S_Pattern P_Pattern T_Roles.
Local Arguments spell : simpl never.

(** A history used by the examples: patterns put into groups, questions about concrete
    names before, between and after, a link taken away, and two domains. *)
Definition shop : list rcall :=
  [RHasLink None "/book/1" "book_group"; RAdd None "/book/*" "book_group"; RGetRoles None "/book/1";
   RAdd None "book_group" "goods"; RHasLink None "/book/2" "goods"; RAdd None "alice" "book_admin";
   RAdd None "/book/*" "paper"; RHasLink None "/book/1" "paper"; RDel None "/book/*" "paper";
   RAdd (Some "d1") "carol" "guest"; RGetUsers None "book_group"].

(** ** C81 *)
Theorem C81_has_link : forall f level cs d a b,
  apart (cs ++ [RHasLink d a b]) -> patterns_apart f (cs ++ [RHasLink d a b]) ->
  exists v, snd (HasLink (rm_after_matching f level cs) a b (dom_arg d)) = Ok v /\
    (v = true <-> inherits f cs d level a b).
Proof.
  intros f level cs d a b A P. pose proof (pattern_after f cs _ A P level) as S.
  assert (N : forall n, mentions (RHasLink d a b) n -> named_in (cs ++ [RHasLink d a b]) n).
  { intros n H. exists (RHasLink d a b). rewrite in_app_iff. simpl. auto. }
  pose proof (kl_HasLink f _ _ (named_inj _ A) (link_name_dec _) (link_named _ _)
    (fun n H => proj1 (P n n H H)) (fun n1 n2 H1 H2 => proj2 (P n1 n2 H1 H2)) _ _ _ d a b S) as H.
  rewrite rm_after_matching_level in H. apply H; apply N; simpl; auto.
Qed.
Example C81_has_link_case :
  apart (shop ++ [RHasLink None "/book/3" "goods"]) /\ patterns_apart starred (shop ++ [RHasLink None "/book/3" "goods"]) /\
  inherits starred shop None 3 "/book/3" "goods" /\ ~ inherits starred shop None 2 "/book/3" "goods" /\
  snd (HasLink (rm_after_matching starred 3 shop) "/book/3" "goods" []) = Ok true /\
  snd (HasLink (rm_after_matching starred 2 shop) "/book/3" "goods" []) = Ok false /\
  snd (HasLink (rm_after_matching starred 3 shop) "/book/1" "paper" []) = Ok false /\
  snd (HasLink (rm_after_matching starred 3 shop) "alice" "goods" []) = Ok false.
Proof.
  assert (C : check starred (shop ++ [RHasLink None "/book/3" "goods"]) = true) by (vm_compute; reflexivity).
  destruct (check_sound _ _ C) as [A [P _]]. split; auto. split; auto.
  split.
  { destruct (C81_has_link starred 3 shop None "/book/3" "goods" A P) as [v [E H]]. vm_compute in E. inversion E; subst. apply H. auto. }
  split.
  { destruct (C81_has_link starred 2 shop None "/book/3" "goods" A P) as [v [E H]]. vm_compute in E. inversion E; subst.
    intros X. apply H in X. discriminate. }
  vm_compute. auto.
Qed.

(** Questions leave no trace in the answers of HasLink: they can be left out. *)
Definition is_question (c : rcall) : bool :=
  match c with RHasLink _ _ _ | RGetRoles _ _ | RGetUsers _ _ => true | _ => false end.
Definition told (cs : list rcall) : list rcall := List.filter (fun c => negb (is_question c)) cs.
Lemma told_links : forall cs, links (told cs) = links cs /\ introduced (told cs) = introduced cs.
Proof.
  intros cs. unfold links, introduced. generalize (fun _ : link => False). generalize (fun _ : node => False).
  induction cs as [|c cs IH]; intros K L; simpl; auto. destruct c; simpl; apply IH.
Qed.
Lemma told_sub : forall cs q c, In c (told cs ++ [q]) -> In c (cs ++ [q]).
Proof. intros cs q c. rewrite !in_app_iff. unfold told. rewrite filter_In. tauto. Qed.
Lemma told_link_name : forall cs q n, is_question q = true -> (link_name (told cs ++ [q]) n <-> link_name (cs ++ [q]) n).
Proof.
  intros cs q n Q. split; intros [c [I H]]; exists c; split; auto. { apply told_sub. auto. }
  rewrite in_app_iff in *. destruct I as [I|I]; auto. left. apply filter_In. split; auto. destruct c; simpl in H; try reflexivity; destruct H.
Qed.
Theorem C81_questions_leave_no_trace : forall f level cs d a b,
  apart (cs ++ [RHasLink d a b]) -> patterns_apart f (cs ++ [RHasLink d a b]) ->
  snd (HasLink (rm_after_matching f level cs) a b (dom_arg d)) =
  snd (HasLink (rm_after_matching f level (told cs)) a b (dom_arg d)).
Proof.
  intros f level cs d a b A P.
  assert (A' : apart (told cs ++ [RHasLink d a b])).
  { intros c1 c2 n1 n2 I1 I2. apply A; apply told_sub; auto. }
  assert (N : forall n, named_in (told cs ++ [RHasLink d a b]) n -> named_in (cs ++ [RHasLink d a b]) n).
  { intros n [c [I H]]. exists c. split; auto. apply told_sub. auto. }
  assert (P' : patterns_apart f (told cs ++ [RHasLink d a b])).
  { intros n1 n2 H1 H2. rewrite !told_link_name by reflexivity. apply P; apply N; auto. }
  destruct (C81_has_link f level cs d a b A P) as [v [E H]]. destruct (C81_has_link f level (told cs) d a b A' P') as [v' [E' H']].
  rewrite E, E'. unfold inherits, inherits_by in *. destruct (told_links cs) as [L K]. rewrite L, K in H'.
  f_equal. destruct v, v'; auto; intuition.
Qed.
Example C81_questions_case : told shop <> shop /\ exists q, check starred (shop ++ [q]) = true /\ is_question q = true.
Proof. split; [discriminate|]. exists (RHasLink None "/book/3" "goods"). vm_compute. auto. Qed.

(** What GetRoles lists: the links of a name of a link; for a concrete name, the names it matches. *)
Theorem C81_roles_of_link_names : forall f level cs d a,
  apart (cs ++ [RGetRoles d a]) -> patterns_apart f (cs ++ [RGetRoles d a]) -> link_name cs (d, a) ->
  exists bs, snd (GetRoles (rm_after_matching f level cs) a (dom_arg d)) = Ok bs /\ NoDup bs /\
    forall b, In b bs <-> links cs (d, a, b).
Proof.
  intros f level cs d a A P N. pose proof (pattern_after f cs _ A P level) as S.
  apply (kl_GetRoles_link f _ _ (named_inj _ A) (link_named _ _)
    (fun n H => proj1 (P n n H H)) (fun n1 n2 H1 H2 => proj2 (P n1 n2 H1 H2)) _ _ _ d a S).
  destruct N as [c [I H]]. exists c. rewrite in_app_iff. auto.
Qed.
Theorem C81_roles_of_concrete_names : forall f level cs d a,
  apart (cs ++ [RGetRoles d a]) -> patterns_apart f (cs ++ [RGetRoles d a]) -> within_domain f (cs ++ [RGetRoles d a]) ->
  ~ link_name cs (d, a) ->
  exists bs, snd (GetRoles (rm_after_matching f level cs) a (dom_arg d)) = Ok bs /\ NoDup bs /\
    forall b, In b bs <-> introduced cs (d, b) /\ f (spell (d, a)) (spell (d, b)) = true.
Proof.
  intros f level cs d a A P W N. pose proof (pattern_after f cs _ A P level) as S.
  assert (Na : named_in (cs ++ [RGetRoles d a]) (d, a)). { exists (RGetRoles d a). rewrite in_app_iff. simpl. auto. }
  apply (kl_GetRoles_name f _ _ (named_inj _ A) (link_named _ _)
    (fun n H => proj1 (P n n H H)) (fun n1 n2 H1 H2 => proj2 (P n1 n2 H1 H2)) _ _ _ d a S); auto.
  - intros [c [I H]]. apply in_app_iff in I. destruct I as [I|[<-|[]]]; [|destruct H]. apply N. exists c. auto.
  - intros n Kn F. symmetry. apply (W (d, a) n); auto. apply link_named. apply S. auto.
Qed.
Example C81_roles_case :
  check starred (shop ++ [RGetRoles None "/book/9"]) = true /\ ~ link_name shop (None, "/book/9") /\
  check starred (shop ++ [RGetRoles None "book_group"]) = true /\ link_name shop (None, "book_group") /\
  snd (GetRoles (rm_after_matching starred 3 shop) "/book/9" []) = Ok ["/book/*"] /\
  snd (GetRoles (rm_after_matching starred 3 shop) "book_group" []) = Ok ["goods"].
Proof.
  split; [vm_compute; reflexivity|]. split.
  { destruct (link_name_dec shop (None, "/book/9")) as [L|]; auto. exfalso. destruct L as [c [I H]].
    unfold shop in I. simpl in I. repeat destruct I as [<-|I]; simpl in H; intuition congruence. }
  split; [vm_compute; reflexivity|]. split.
  { exists (RAdd None "/book/*" "book_group"). simpl. auto. }
  vm_compute. auto.
Qed.

(** GetUsers is different: whether a concrete name is listed depends on the questions
    asked before. *)
Theorem C81_users_depend_on_questions_refuted : exists f level cs d b us us',
  apart (cs ++ [RGetUsers d b]) /\ patterns_apart f (cs ++ [RGetUsers d b]) /\
  GetUsers (rm_after_matching f level cs) b (dom_arg d) = Ok us /\
  GetUsers (rm_after_matching f level (told cs)) b (dom_arg d) = Ok us' /\ us <> us'.
Proof.
  exists starred, 3, [RAdd None "/book/*" "group"; RGetRoles None "/book/1"], None, "/book/*", ["/book/1"], [].
  assert (C : check starred ([RAdd None "/book/*" "group"; RGetRoles None "/book/1"] ++ [RGetUsers None "/book/*"]) = true) by (vm_compute; reflexivity).
  destruct (check_sound _ _ C) as [A [P _]]. do 2 (split; auto). do 2 (split; [vm_compute; reflexivity|]). discriminate.
Qed.
(** When a pattern is itself given concrete members, the names are not apart and the
    answers depend on the order of the calls: C24_matching_order_refuted. *)
Example C81_apart_needed : ~ patterns_apart starred [RAdd None "shelf" "/book/1"; RAdd None "/book/*" "group"; RHasLink None "shelf" "group"].
Proof.
  intros P. destruct (P (None, "/book/1") (None, "/book/*")) as [_ H].
  - exists (RAdd None "shelf" "/book/1"). simpl. auto.
  - exists (RAdd None "/book/*" "group"). simpl. auto.
  - destruct (H eq_refl) as [E|[N _]]; [congruence|]. apply N. exists (RAdd None "shelf" "/book/1"). simpl. auto.
Qed.

Print Assumptions C81_has_link.
Print Assumptions C81_questions_leave_no_trace.
Print Assumptions C81_roles_of_link_names.
Print Assumptions C81_roles_of_concrete_names.
Print Assumptions C81_users_depend_on_questions_refuted.
