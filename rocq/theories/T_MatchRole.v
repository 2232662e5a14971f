(** Property C82: decisions of enforcers whose role names are patterns. *)
From Verif Require Import Base P_Base M_Util M_RoleManager M_Effector M_Model M_Persist M_Eval M_Evaluator M_Enforcer M_Matcher
  S_Effect S_Enforce S_Policy S_History S_Roles S_Sync S_Rbac S_Standard S_Pattern P_Enforce P_Decide P_Store P_Api P_History P_Roles P_Sync P_Ready P_Standard
  P_Pattern P_SyncPattern E_Examples T_Roles T_Rbac T_Standard.
Local Arguments spell : simpl never.

Section Matching.
  Variables (o : oracle) (f : string -> string -> bool) (names : node -> Prop) (n : nat) (R : list rule).
  Hypothesis T : tidy names n (fun r => In r R).
  Hypothesis PO : patterns_ok f names R.

  Lemma matching_answer : forall e g args, matched o f names n R e -> declared e "g" g -> in_use names args ->
    exists b, role_fun (e_model e) (e_heap e) g args = Some (Ok b) /\ (b = true <-> linked_matching f e g args).
  Proof.
    intros e g args M [a A] N.
    pose proof (lm_wired _ _ _ _ _ _ _ _ (matched_mirror f names n R T PO o e M)) as W.
    pose proof (get_asts _ _ _ A) as G. pose proof (W _ _ G) as Q. unfold asts in G. unfold role_fun. rewrite G, Q.
    destruct args as [|x [|y [|z [|]]]]; simpl in N; try tauto; destruct N as [N1 N2]; cbn [call_g linked_matching].
    - destruct (matched_answer f names n R T PO o e None x y M N1 N2) as [r [v [H [Hv V]]]]. rewrite H. cbn [bind dom_arg] in *.
      exists v. rewrite Hv. auto.
    - destruct (matched_answer f names n R T PO o e (Some z) x y M N1 N2) as [r [v [H [Hv V]]]]. rewrite H. cbn [bind dom_arg] in *.
      exists v. rewrite Hv. auto.
  Qed.
  Lemma matching_arity : forall e g, matched o f names n R e -> declared e "g" g -> role_arity (e_model e) g = Some n.
  Proof.
    intros e g M [a A]. pose proof (get_asts _ _ _ A) as G. unfold asts in G. unfold role_arity. rewrite G. f_equal.
    destruct (lm_ok _ _ _ _ _ _ _ _ (matched_mirror f names n R T PO o e M)) as [_ GO]. apply (GO _ _ G).
  Qed.
  Lemma matching_reaches : forall hashed rf pf pe mat cs e e', oracle_ext o -> mat <> "" -> HasEval mat = false ->
    Forall (safe_call (fun r => In r R)) cs -> Forall (asks_names names) cs -> Forall (shaped_call (List.length pf)) cs -> reaches o e cs e' ->
    matched o f names n R e -> standard o hashed rf pf (effect_text pe) mat e ->
    matched o f names n R e' /\ standard o hashed rf pf (effect_text pe) mat e' /\ (forall g, declared e "g" g -> declared e' "g" g).
  Proof.
    intros hashed rf pf pe mat cs e e' X NM NE F1 F2 F3 RE. induction RE; auto. intros M S. inversion F1; inversion F2; inversion F3; subst.
    assert (M1 : matched o f names n R e1) by (eapply matched_call; eauto).
    assert (S1 : standard o hashed rf pf (effect_text pe) mat e1).
    { replace e1 with (fst (run o c e)) in * by (rewrite H; reflexivity).
      eapply standard_step with (rules := fun r => In r R); eauto; eapply lm_wired; eapply matched_mirror; eauto. }
    destruct IHRE as [A [B C]]; auto. split; auto. split; auto. intros g D. apply C.
    replace e1 with (fst (run o c e)) by (rewrite H; reflexivity). eapply declared_run; eauto.
  Qed.
End Matching.

(** ** C82 *)
(** For every model and matcher: the role functions answer by [linked_matching], in every state
    that calls in order lead to. *)
Theorem C82_decision : forall o f names n R hashed rf pf pe mat d cs e0 e req,
  oracle_ext o -> reads o n mat d -> mat <> "" -> HasEval mat = false ->
  (forall x, In x (rd_vars d) -> In x (r_names rf ++ p_names pf)) ->
  tidy names n (fun r => In r R) -> patterns_ok f names R ->
  matched o f names n R e0 -> standard o hashed rf pf (effect_text pe) mat e0 -> defines_all e0 d ->
  Forall (safe_call (fun r => In r R)) cs -> Forall (asks_names names) cs -> Forall (shaped_call (List.length pf)) cs -> reaches o e0 cs e ->
  List.length req = List.length rf ->
  (forall r, In r (candidates (e_model e) req) -> calls_ok names d (value_of rf req pf r)) ->
  (candidates (e_model e) req <> [] \/
   calls_ok names d (value_of rf req pf (blank pf)) /\ ~ rd_sem d (value_of rf req pf (blank pf)) (linked_matching f e)) ->
  exists b, snd (Enforce o (map DStr req) e) = Ok b /\
    (b = true <-> granted pe (fun r => rd_sem d (value_of rf req pf r) (linked_matching f e)) (effect_of pf) (candidates (e_model e) req)).
Proof.
  intros o f names n R hashed rf pf pe mat d cs e0 e req X RD NM NE VARS T PO M0 S0 D0 F1 F2 F3 RE L C B.
  destruct (matching_reaches o f names n R T PO hashed rf pf pe mat cs e0 e X NM NE F1 F2 F3 RE M0 S0) as [M [S D]].
  apply (any_decision o names n hashed rf pf pe mat d X RD NM NE VARS e (linked_matching f e)); auto.
  - intros g I. eapply matching_arity; eauto.
  - intros g args I N. eapply matching_answer; eauto.
Qed.

(** rbac_with_resource_roles_model.conf with patterns for the objects: a request is allowed
    exactly if some rule grants the action to a role of the subject, on a group of the object;
    a subject or an object that matches a pattern of the grouping policy has its roles. *)
Theorem C82_resource_decision : forall o f names R cs e0 e sub obj act,
  oracle_ext o -> reads o 2 resource_text resource_reading ->
  tidy names 2 (fun r => In r R) -> patterns_ok f names R -> matched o f names 2 R e0 ->
  standard o false f3 f3 (effect_text AllowOverride) resource_text e0 -> declared e0 "g" "g" -> declared e0 "g" "g2" ->
  Forall (safe_call (fun r => In r R)) cs -> Forall (asks_names names) cs -> Forall (shaped_call 3) cs -> reaches o e0 cs e ->
  names (None, sub) -> names (None, obj) ->
  (forall s o' r, In (s :: o' :: r) (stored e "p" "p") -> names (None, s) /\ names (None, o')) ->
  (stored e "p" "p" <> [] \/ names (None, "") /\ act <> "") ->
  exists b, snd (Enforce o (map DStr [sub; obj; act]) e) = Ok b /\
    (b = true <-> exists s o', In [s; o'; act] (stored e "p" "p") /\
       inherits_by f (listed_name e) (assigned e) None (level_of e) sub s /\
       inherits_by f (listed_name e) (assigned e) None (level_of e) obj o').
Proof.
  intros o f names R cs e0 e sub obj act X RD T PO M0 S0 G0 G2 F1 F2 F3 RE Nsub Nobj Np NE.
  destruct (matching_reaches o f names 2 R T PO false f3 f3 AllowOverride resource_text cs e0 e X) as [M [S D]]; auto; try discriminate.
  pose proof (std_candidates o f3 f3 AllowOverride resource_text e [sub; obj; act] S) as SC.
  assert (C : forall s o' a, names (None, s) -> names (None, o') -> calls_ok names resource_reading (value_of f3 [sub; obj; act] f3 [s; o'; a])).
  { intros s o' a Ns No. split; [exact Logic.I|]. intros g args [Q|[Q|[]]]; inversion Q; subst; (split; [simpl; auto|]); split; auto. }
  destruct (C82_decision o f names 2 R false f3 f3 AllowOverride resource_text resource_reading cs e0 e [sub; obj; act]) as [b [E B]];
    auto; try discriminate.
  { intros x I. simpl in I. repeat destruct I as [<-|I]; try destruct I; simpl; tauto. }
  { intros g [<-|[<-|[]]]; auto. }
  { rewrite SC. intros r I. destruct (three r) as [s [o' [a ->]]]. { apply (st_fields _ _ _ _ _ _ _ S). auto. }
    destruct (Np _ _ _ I). apply C; auto. }
  { rewrite SC. destruct NE as [NE|[N0 NE]]; auto. right. split; [exact (C "" "" "" N0 N0)|].
    intros Q. apply NE. destruct (proj1 (resource_sem sub obj act "" "" "" _) Q) as [_ [_ ->]]. reflexivity. }
  exists b. split; auto. rewrite B, SC. unfold granted. split.
  - intros [r [I [Q _]]]. destruct (three r) as [s [o' [a ->]]]. { apply (st_fields _ _ _ _ _ _ _ S). auto. }
    destruct (proj1 (resource_sem sub obj act s o' a _) Q) as [L1 [L2 ->]]. exists s, o'. auto.
  - intros [s [o' [I [L1 L2]]]]. exists [s; o'; act]. repeat split; auto.
Qed.

(** An enforcer in use: patterns of objects in groups, told to the enforcer before the links
    are built; afterwards grouping rules come and go. *)
Definition lib_ps : list rule := [["admin"; "book_group"; "read"]; ["alice"; "/book/*"; "write"]].
Definition lib_all : list rule := [["alice"; "admin"]; ["bob"; "admin"]; ["/book/*"; "book_group"]; ["/book/*"; "paper"]].
Definition lib_model : model := resource_model lib_ps [["alice"; "admin"]] [["/book/*"; "book_group"]].
Definition lib : enforcer := fst (e_BuildRoleLinks (fst (AddNamedMatchingFunc starred (boot lib_model)))).
Definition lib_names (x : node) : Prop := In x (map (fun s => (None, s)) ["alice"; "bob"; "admin"; "/book/*"; "book_group"; "paper"; "/book/1"; "/book/2"; "/pen/1"]).
Definition lib_history : list call :=
  [KEnforce "" (reqs ["bob"; "/book/1"; "read"]); KAddGrouping "g" ["bob"; "admin"]; KGetRolesForUser "/book/1" [];
   KAddGrouping "g2" ["/book/*"; "paper"]; KRemoveGrouping "g" ["alice"; "admin"]].
Lemma lib_tidy : tidy lib_names 2 (fun r => In r lib_all).
Proof.
  constructor; auto.
  - intros x y Hx Hy E. unfold lib_names in *. cases_in Hx; cases_in Hy; try reflexivity; discriminate E.
  - intros r H. unfold lib_all in H. cases_in H; (split; [reflexivity|]); do 3 eexists; (split; [reflexivity|]); split; unfold lib_names; simpl; tauto.
  - intros r r' H H' P. unfold lib_all in *. cases_in H; cases_in H'; try reflexivity; not_perm P.
Qed.
Lemma lib_patterns : patterns_ok starred lib_names lib_all.
Proof.
  assert (G : forall s, In s ["alice"; "bob"; "admin"; "/book/*"; "book_group"; "paper"] -> grouped lib_all (None, s)).
  { intros s I. cases_in I;
      [exists ["alice"; "admin"]|exists ["bob"; "admin"]|exists ["bob"; "admin"]|exists ["/book/*"; "paper"]|exists ["/book/*"; "book_group"]|exists ["/book/*"; "paper"]];
      do 3 eexists; (split; [unfold lib_all; simpl; tauto|]); (split; [reflexivity|]); tauto. }
  assert (NG : forall s, In s ["/book/1"; "/book/2"; "/pen/1"] -> ~ grouped lib_all (None, s)).
  { intros s I [r [d [a [b [J [E Q]]]]]]. unfold lib_all in J. cases_in J; inversion E; subst; cases_in I; destruct Q as [Q|Q]; discriminate Q. }
  intros x y Hx Hy. split. { unfold starred. rewrite String.eqb_refl. reflexivity. }
  unfold lib_names in *. cases_in Hx; cases_in Hy; intros F; try (left; reflexivity); try discriminate F;
    right; (split; [apply NG|apply G]); simpl; tauto.
Qed.
Lemma lib_matched : forall o, matched o starred lib_names 2 lib_all lib.
Proof.
  intros o. apply (matched_built o starred lib_names 2 lib_all (fst (AddNamedMatchingFunc starred (boot lib_model)))); try reflexivity.
  - eexists. split; reflexivity.
  - split.
    + repeat constructor; simpl; intuition discriminate.
    + intros pt a H. simpl in H. destruct (String.eqb pt "g") eqn:E; [|destruct (String.eqb pt "g2"); [|discriminate]];
        inversion H; subst; (split; [reflexivity|]); simpl; repeat constructor; unfold lib_all; simpl; tauto.
Qed.
Lemma lib_standard : forall o, standard o false f3 f3 (effect_text AllowOverride) resource_text lib.
Proof.
  intros o. constructor; try reflexivity; try discriminate.
  - split; [|exact Logic.I]. prove_declares.
  - intros r I. vm_compute in I. cases_in I; reflexivity.
Qed.
Example C82_case : exists e, reaches mini lib lib_history e /\ Forall (safe_call (fun r => In r lib_all)) lib_history /\
  Forall (asks_names lib_names) lib_history /\ Forall (shaped_call 3) lib_history /\ declared lib "g" "g" /\ declared lib "g" "g2" /\
  (forall s o' r, In (s :: o' :: r) (stored e "p" "p") -> lib_names (None, s) /\ lib_names (None, o')) /\
  snd (Enforce mini (reqs ["bob"; "/book/1"; "read"]) lib) = Ok false /\ snd (Enforce mini (reqs ["bob"; "/book/1"; "read"]) e) = Ok true /\
  snd (Enforce mini (reqs ["bob"; "/pen/1"; "read"]) e) = Ok false /\
  snd (Enforce mini (reqs ["alice"; "/book/2"; "read"]) lib) = Ok true /\ snd (Enforce mini (reqs ["alice"; "/book/2"; "read"]) e) = Ok false /\
  snd (Enforce mini (reqs ["alice"; "/book/2"; "write"]) e) = Ok true.
Proof.
  eexists. split.
  { unfold lib_history. repeat (eapply reach_step; [vm_compute; reflexivity|discriminate|]). apply reach_nil. }
  split. { unfold lib_history. repeat (apply Forall_cons; [simpl; tauto|]). apply Forall_nil. }
  split. { unfold lib_history, lib_names. repeat (apply Forall_cons; [simpl; tauto|]). apply Forall_nil. }
  split. { unfold lib_history. apply Forall_cons; [|repeat (apply Forall_cons; [simpl; auto|]); apply Forall_nil].
    split; [reflexivity|]. exists ["bob"; "/book/1"; "read"]. reflexivity. }
  split; [eexists; reflexivity|]. split; [eexists; reflexivity|].
  split. { intros s o' r I. vm_compute in I. unfold lib_names. cases_in I; inversion I; subst; simpl; tauto. }
  repeat split; vm_compute; reflexivity.
Qed.

Print Assumptions C82_decision.
Print Assumptions C82_resource_decision.
