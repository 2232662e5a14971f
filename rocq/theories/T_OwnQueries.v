(** Property C103: decisions and queries with a role manager of the caller. *)
From Verif Require Import Base P_Base M_Util M_RoleManager M_Effector M_Model M_Persist M_Eval M_Evaluator M_Enforcer M_Matcher M_OwnEvaluator
  M_OwnRoles M_OwnQueries S_Policy S_History S_Roles S_Effect S_Enforce S_OwnQueries P_Effect P_Enforce P_Decide P_Ready P_OwnEvaluator P_Store P_Api P_Implicit P_Sync P_OwnQueries T_Rbac T_Users E_Examples.

(** With the default managers this is the enforcement of the other properties. *)
Theorem C103_default : forall o float e matcher params, oracle_ext o ->
  own_EnforceExWithMatcher (default_answers (e_heap e)) o float matcher params e = EnforceExWithMatcher o matcher (map plain params) e.
Proof. intros. apply default_enforce. auto. Qed.
Theorem C103_default_queries : forall e name domain i, g_rm e = Ok i ->
  snd (own_GetRolesForUser (default_answers (e_heap e)) name domain e) = snd (GetRolesForUser name domain e) /\
  own_GetUsersForRole (default_answers (e_heap e)) name domain e = GetUsersForRole name domain e.
Proof.
  intros e name domain i G. unfold own_GetRolesForUser, GetRolesForUser, own_GetUsersForRole, GetUsersForRole, rm_GetRoles. rewrite G. cbn [bind default_answers q_GetRoles q_GetUsers snd].
  split; auto. destruct (hget (e_heap e) i) as [r|t|u]; cbn [bind]; auto. destruct (GetRoles r name domain); auto.
Qed.

(** The decision is the one the policy effect gives to the rules for which the matcher holds,
    g in the matcher being what the manager of the role definition answers. *)
Theorem C103_decides : forall o float ms e rf pf pe mat matcher req os,
  oracle_ext o -> asked o e rf pf (effect_text pe) mat matcher req ->
  own_outcomes o ms (e_model e) rf pf (chosen matcher mat) req (candidates (e_model e) req) os ->
  exists e' b x, own_EnforceExWithMatcher ms o float matcher (map OStr req) e = (e', Ok (b, x)) /\
    (b = true <-> permits pe os) /\
    ((x = [] /\ Forall (fun oc => ~ reason pe os oc) os) \/
     (exists pre post os1 oc os2, candidates (e_model e) req = pre ++ x :: post /\ os = os1 ++ oc :: os2 /\
        List.length os1 = List.length pre /\ reason pe os oc /\ Forall (fun oc => ~ reason pe os oc) os1)) /\
    (exists ev, e' = set_ev (Some ev) e) /\ asked o e' rf pf (effect_text pe) mat matcher req.
Proof.
  intros o float ms e rf pf pe mat matcher req os X [R EN L NE T] H.
  pose proof (told_ext o ms (e_model e) X) as X'. pose proof (proj1 (told_ready o ms (e_model e) e rf pf (effect_text pe) mat) R) as R'.
  assert (OS : os = map (outc (told_by o ms (e_model e)) e rf pf mat matcher req) (candidates (e_model e) req)).
  { clear - H. unfold own_outcomes in H. induction H as [|r oc rs os [V E] _ IH]; cbn [map]; auto. f_equal; auto.
    unfold outc, holds. rewrite told_verdict, V. destruct oc as [b ef]. cbn [fst snd] in *. subst. destruct b; reflexivity. }
  destruct (decision_good (told_by o ms (e_model e)) e rf pf mat matcher req pe X' R' EN L T NE) as [b [x [E [P Q]]]].
  { intros r I. rewrite told_verdict. clear - H I. unfold own_outcomes in H. induction H as [|r' oc rs os [V _] _ IH]; [destruct I|]. destruct I as [->|I]; eauto. }
  destruct (enforce_spec (told_by o ms (e_model e)) e rf pf (effect_text pe) mat matcher req X' R' L T) as [ev [EE F]].
  rewrite (own_enforce o float ms e rf pf (effect_text pe) mat matcher req X R).
  rewrite EE in E. rewrite EE. cbn [snd] in E. rewrite E. exists (set_ev (Some ev) e), b, x. split; [reflexivity|].
  rewrite OS. split; auto. split; [|split; [eauto|]].
  - destruct Q as [[-> Q]|[pre [post [C [RE Q]]]]].
    + left. split; auto. rewrite Forall_map. exact Q.
    + right. exists pre, post, (map (outc (told_by o ms (e_model e)) e rf pf mat matcher req) pre), (outc (told_by o ms (e_model e)) e rf pf mat matcher req x),
        (map (outc (told_by o ms (e_model e)) e rf pf mat matcher req) post).
      split; [exact C|]. split; [rewrite C, map_app; reflexivity|]. split; [apply map_length|]. split; [exact RE|].
      rewrite Forall_map. exact Q.
  - constructor; auto. split; [apply R|]. simpl. apply (told_fits o ms (e_model e)). exact F.
Qed.

(** What the manager throws (or any other failure) for a rule, the caller gets, unless an
    earlier rule settles the matter. *)
Theorem C103_throws : forall o float ms e rf pf pe mat matcher req pre r post os t,
  oracle_ext o -> asked o e rf pf (effect_text pe) mat matcher req ->
  candidates (e_model e) req = pre ++ r :: post ->
  own_outcomes o ms (e_model e) rf pf (chosen matcher mat) req pre os ->
  own_verdict o ms (e_model e) rf pf (chosen matcher mat) req r = Throw t ->
  (Forall (fun oc => ~ settles pe oc) os -> snd (own_EnforceExWithMatcher ms o float matcher (map OStr req) e) = Throw t) /\
  (Exists (settles pe) os -> exists b x, snd (own_EnforceExWithMatcher ms o float matcher (map OStr req) e) = Ok (b, x)).
Proof.
  intros o float ms e rf pf pe mat matcher req pre r post os t X [R EN L NE T] C H B.
  pose proof (told_ext o ms (e_model e) X) as X'. pose proof (proj1 (told_ready o ms (e_model e) e rf pf (effect_text pe) mat) R) as R'.
  assert (OS : os = map (outc (told_by o ms (e_model e)) e rf pf mat matcher req) pre).
  { clear - H. unfold own_outcomes in H. induction H as [|r' oc rs os [V E] _ IH]; cbn [map]; auto. f_equal; auto.
    unfold outc, holds. rewrite told_verdict, V. destruct oc as [b ef]. cbn [fst snd] in *. subst. destruct b; reflexivity. }
  rewrite (own_enforce o float ms e rf pf (effect_text pe) mat matcher req X R).
  destruct (decision_bad (told_by o ms (e_model e)) e rf pf mat matcher req pe pre r post X' R' EN L T C) as [[r' [I [S [x E]]]]|[N [E _]]].
  - intros r' I. rewrite told_verdict. clear - H I. unfold own_outcomes in H. induction H as [|r0 oc rs os [V _] _ IH]; [destruct I|]. destruct I as [->|I]; eauto.
  - intros b. rewrite told_verdict, B. discriminate.
  - split; [|eauto]. intros F. exfalso. rewrite OS, Forall_map, Forall_forall in F. apply (F r' I S).
  - split; [intros _; apply E; rewrite told_verdict; auto|]. intros F. exfalso. apply Exists_exists in F. destruct F as [oc [I S]].
    rewrite OS in I. apply in_map_iff in I. destruct I as [r' [<- I]]. apply (N r' I S).
Qed.

(** GetRolesForUser, GetUsersForRole, their forms for a domain and HasRoleForUser answer what
    the manager of role definition g answers, and change nothing. *)
Theorem C103_queries : forall ms e a i, get_ast (e_model e) "g" "g" = Ok a -> a_rm a = Some i ->
  (forall name d, own_GetRolesForUser ms name d e = (e, q_GetRoles (ms i) name d)) /\
  (forall name d, own_GetUsersForRole ms name d e = (e, q_GetUsers (ms i) name d)) /\
  (forall name d, own_GetRolesForUserInDomain ms name d e = (e, q_GetRoles (ms i) name [d])) /\
  (forall name d, own_GetUsersForRoleInDomain ms name d e = (e, q_GetUsers (ms i) name [d])) /\
  (forall name role l, q_GetRoles (ms i) name [] = Ok l ->
     exists b, own_HasRoleForUser ms name role e = (e, Ok b) /\ (b = true <-> In role l)) /\
  (forall name role t, q_GetRoles (ms i) name [] = Throw t -> own_HasRoleForUser ms name role e = (e, Throw t)).
Proof.
  intros ms e a i G A. assert (GR : g_rm e = Ok i) by (unfold g_rm; rewrite G; cbn [bind]; rewrite A; reflexivity).
  unfold own_GetRolesForUserInDomain, own_GetUsersForRoleInDomain, own_HasRoleForUser, own_GetRolesForUser, own_GetUsersForRole.
  rewrite GR. cbn [bind]. do 4 (split; [auto|]). split; [intros name role l H|intros name role t H].
  - unfold mbind. rewrite GR. cbn [bind]. rewrite H. exists (existsb (fun x => String.eqb x role) l). split; [reflexivity|]. rewrite existsb_exists. split.
    + intros [x [I E]]. apply String.eqb_eq in E. subst. auto.
    + intros I. exists role. split; auto. apply String.eqb_refl.
  - unfold mbind. rewrite GR. cbn [bind]. rewrite H. reflexivity.
Qed.
(** Before the links are built there is no manager to ask. *)
Theorem C103_unlinked_ub : forall ms e a name d, get_ast (e_model e) "g" "g" = Ok a -> a_rm a = None ->
  snd (own_GetRolesForUser ms name d e) = UB NullDeref /\ snd (own_GetUsersForRole ms name d e) = UB NullDeref.
Proof.
  intros ms e a name d G A. assert (GR : g_rm e = UB NullDeref) by (unfold g_rm; rewrite G; cbn [bind]; rewrite A; reflexivity).
  unfold own_GetRolesForUser, own_GetUsersForRole. rewrite GR. auto.
Qed.

(** Once the links are built every role definition has the manager of the enforcer. *)
Lemma build_asts_rm : forall St mg rm todo (s : own St) am s', own_build_asts St mg rm todo s = (am, (s', Ok tt)) ->
  forall f a, aget f am = Some a -> a_rm a = Some rm.
Proof.
  induction todo as [|[k a] todo IH]; intros s am s' H f b B; cbn [own_build_asts] in H.
  - inversion H; subst. discriminate.
  - destruct (own_ast_links St mg policy_add (a_value a) (rules_of (a_policy a)) s) as [s1 [[]|t|u]]; [|inversion H|inversion H].
    destruct (own_build_asts St mg rm todo s1) as [am1 r1] eqn:E. inversion H; subst. cbn [aget] in B. destruct (String.eqb f k).
    + inversion B; subst. reflexivity.
    + eapply IH; eauto.
Qed.
Theorem C103_after_build : forall St mg (s s' : own St) ms f a,
  own_BuildRoleLinks St mg s = (s', Ok tt) -> aget f (sec_of (e_model (o_e s')) "g") = Some a ->
  e_rm (o_e s') = e_rm (o_e s) /\
  (forall x y, role_answer ms (e_model (o_e s')) f [x; y] = Some (q_HasLink (ms (e_rm (o_e s))) x y [])) /\
  (forall x y d, role_answer ms (e_model (o_e s')) f [x; y; d] = Some (q_HasLink (ms (e_rm (o_e s))) x y [d])) /\
  (f = "g" -> forall name d, own_GetRolesForUser ms name d (o_e s') = (o_e s', q_GetRoles (ms (e_rm (o_e s))) name d)).
Proof.
  intros St mg s s' ms f a H A. unfold own_BuildRoleLinks, obind, tell in H.
  destruct (mg (o_st s) HClear) as [st1 [[]|t|u]]; [|discriminate|discriminate]. cbn [o_e o_st o_heard] in H.
  destruct (own_build_asts St mg (e_rm (o_e s)) (sec_of (touch (e_model (o_e s)) "g") "g") _) as [am [s2 out]] eqn:B.
  inversion H; subst. clear H. cbn [o_e] in *.
  assert (SG : sec_of (aset "g" am (touch (e_model (o_e s)) "g")) "g" = am) by (unfold sec_of; rewrite aget_aset_same; auto).
  simpl in A. rewrite SG in A. pose proof (build_asts_rm St mg (e_rm (o_e s)) _ _ _ _ B f a A) as RM.
  split; [reflexivity|]. split; [|split].
  - intros x y. unfold role_answer. simpl. rewrite SG, A, RM. reflexivity.
  - intros x y d. unfold role_answer. simpl. rewrite SG, A, RM. reflexivity.
  - intros -> name d. unfold own_GetRolesForUser, g_rm, get_ast. cbn [e_model set_model]. rewrite SG, A. cbn [bind]. rewrite RM. reflexivity.
Qed.

(** GetImplicitRolesForUser: when it ends it returns each name that can be reached by one or
    more steps of GetRoles once, except the user; it passes on what GetRoles throws; it ends if
    finitely many names can be reached, and otherwise never. *)
Theorem C103_implicit_roles : forall ms e u d,
  let mg := ms (e_rm e) in
  (forall steps l, own_GetImplicitRolesForUser ms steps u d e = Some (Ok l) ->
     NoDup l /\ (forall x, In x l <-> x <> u /\ reaches_role mg d u x) /\
     (forall x, x = u \/ reaches_role mg d u x -> exists rs, q_GetRoles mg x d = Ok rs)) /\
  (forall steps t, own_GetImplicitRolesForUser ms steps u d e = Some (Throw t) ->
     exists x, (x = u \/ reaches_role mg d u x) /\ q_GetRoles mg x d = Throw t) /\
  (forall U, (forall x, reaches_role mg d u x -> In x U) ->
     exists r, own_GetImplicitRolesForUser ms (S (List.length U)) u d e = Some r) /\
  ((forall U, exists x, reaches_role mg d u x /\ ~ In x U) ->
   (forall x, x = u \/ reaches_role mg d u x -> exists rs, q_GetRoles mg x d = Ok rs) ->
   forall steps, own_GetImplicitRolesForUser ms steps u d e = None).
Proof.
  intros ms e u d mg. pose proof (sound_start mg d u) as S. unfold own_GetImplicitRolesForUser. fold mg. split; [|split; [|split]].
  - intros steps l H. eapply loop_ok; eauto.
  - intros steps t H. eapply loop_throw; eauto.
  - intros U F. eapply loop_ends; [exact F|exact S|simpl; lia].
  - intros INF ANS steps. destruct (own_implicit_loop steps mg d [u] [u] []) as [[l|t|w]|] eqn:E; auto; exfalso.
    + destruct (loop_ok mg d u _ _ _ _ _ S E) as [_ [I _]]. destruct (INF (u :: l)) as [x [R N]]. apply N.
      destruct (string_dec x u) as [->|D]; [left; auto|right; apply I; auto].
    + destruct (loop_throw mg d u _ _ _ _ _ S E) as [x [K G]]. destruct (ANS x K) as [rs Q]. rewrite Q in G. discriminate.
    + destruct (loop_ub mg d u _ _ _ _ _ S E) as [x [K G]]. destruct (ANS x K) as [rs Q]. rewrite Q in G. discriminate.
Qed.

(** GetImplicitPermissionsForUser: the stored rules of the user and of every name that can be
    reached, in the domain when there is one. *)
Theorem C103_implicit_permissions : forall ms e u d steps roles, declared e "p" "p" ->
  own_GetImplicitRolesForUser ms steps u (dom_arg d) e = Some (Ok roles) ->
  (forall x, x = u \/ In x roles -> x <> "") -> (forall x, d = Some x -> x <> "") ->
  (forall r, In r (stored e "p" "p") -> S (List.length (dom_arg d)) <= List.length r) ->
  exists l, own_GetImplicitPermissionsForUser ms steps u (dom_arg d) e = Some (e, Ok l) /\
    forall r, In r l <-> In r (stored e "p" "p") /\ (forall x, d = Some x -> nth_error r 1 = Some x) /\
      exists s, (s = u \/ reaches_role (ms (e_rm e)) (dom_arg d) u s) /\ nth_error r 0 = Some s.
Proof.
  intros ms e u d steps roles [a A] H NE ND LE.
  destruct (proj1 (C103_implicit_roles ms e u (dom_arg d)) steps roles H) as [_ [I _]].
  destruct (perms_of_spec e a A d (u :: roles)) as [l [P [J K]]]; auto.
  { intros s [<-|S]; apply NE; auto. }
  exists l. unfold own_GetImplicitPermissionsForUser. rewrite H.
  assert (Q : Nat.ltb 1 (List.length (dom_arg d)) = false) by (destruct d; reflexivity). rewrite Q, P. split; auto.
  intros r. rewrite J. split; intros [H1 H2]; (split; [auto|]).
  - destruct H2 as [s [[<-|H2] [H3 H4]]]; (split; [intros x ->; auto|]).
    + exists u. auto.
    + exists s. split; auto. right. apply I. auto.
  - destruct H2 as [H3 [s [H4 H5]]]. exists s. split; [|split; auto; destruct d; auto].
    destruct (string_dec s u) as [->|D]; [left; auto|]. right. apply I. split; auto. destruct H4; [congruence|auto].
Qed.

(** GetImplicitUsersForPermission: the subjects, no roles, for whom Enforce says yes. *)
Lemma own_allowed_eq : forall o float ms rf pf eft mat p0 p1, oracle_ext o -> mat <> "" -> HasEval mat = false ->
  forall subs e, ready o e rf pf eft mat ->
  own_allowed ms o float [p0; p1] subs e = allowed_subjects (told_by o ms (e_model e)) [p0; p1] subs e.
Proof.
  intros o float ms rf pf eft mat p0 p1 X MAT NE. induction subs as [|s subs IH]; intros e R; [reflexivity|].
  cbn [own_allowed allowed_subjects]. unfold mbind at 1, lift at 1. cbn [vget nth_error]. unfold mbind at 1, lift at 1. cbn [vget nth_error].
  symmetry. unfold mbind at 1, lift at 1. cbn [vget nth_error]. unfold mbind at 1, lift at 1. cbn [vget nth_error]. symmetry.
  change [DStr s; DStr p0; DStr p1] with (map DStr [s; p0; p1]). change [OStr s; OStr p0; OStr p1] with (map OStr [s; p0; p1]).
  pose proof (proj1 (told_ready o ms (e_model e) e rf pf eft mat) R) as R'.
  destruct (asked_enforce _ (told_ext o ms (e_model e) X) rf pf eft mat MAT NE "" (map DStr [s; p0; p1]) (conj eq_refl (ex_intro _ _ eq_refl)) e R') as [SE R2].
  assert (EQ : own_Enforce ms o float (map OStr [s; p0; p1]) e = Enforce (told_by o ms (e_model e)) (map DStr [s; p0; p1]) e).
  { unfold own_Enforce, Enforce, EnforceWithMatcher, mbind. rewrite (own_enforce o float ms e rf pf eft mat "" [s; p0; p1] X R). reflexivity. }
  unfold mbind at 1. symmetry. unfold mbind at 1. rewrite EQ. unfold Enforce in *.
  remember (map DStr [s; p0; p1]) as params. destruct (EnforceWithMatcher (told_by o ms (e_model e)) "" params e) as [e1 [b|t|u]]; cbn [fst] in *; auto.
  assert (M : e_model e1 = e_model e) by (destruct SE as [ev ->]; reflexivity).
  unfold mbind. rewrite IH, M; [reflexivity|]. apply (told_ready o ms (e_model e)). exact R2.
Qed.
Theorem C103_implicit_users : forall o float ms e rf pf eft mat p0 p1,
  oracle_ext o -> ready o e rf pf eft mat -> mat <> "" -> HasEval mat = false -> listable e ->
  (forall s, is_subject e s -> exists b, snd (own_Enforce ms o float (map OStr [s; p0; p1]) e) = Ok b) ->
  exists l, snd (own_GetImplicitUsersForPermission ms o float [p0; p1] e) = Ok l /\ NoDup l /\
    forall s, In s l <-> is_subject e s /\ ~ is_role e s /\ snd (own_Enforce ms o float (map OStr [s; p0; p1]) e) = Ok true.
Proof.
  intros o float ms e rf pf eft mat p0 p1 X R MAT NE LI AN.
  assert (EQ : forall s, snd (own_Enforce ms o float (map OStr [s; p0; p1]) e) = snd (Enforce (told_by o ms (e_model e)) (map DStr [s; p0; p1]) e)).
  { intros s. unfold own_Enforce, Enforce, EnforceWithMatcher, mbind. rewrite (own_enforce o float ms e rf pf eft mat "" [s; p0; p1] X R). reflexivity. }
  destruct (C34_implicit_users_partial (told_by o ms (e_model e)) e rf pf eft mat p0 p1 (told_ext o ms (e_model e) X)
              (proj1 (told_ready o ms (e_model e) e rf pf eft mat) R) MAT NE LI) as [l [E [ND I]]].
  { intros s S. rewrite <- EQ. apply AN. auto. }
  assert (GE : own_GetImplicitUsersForPermission ms o float [p0; p1] e = GetImplicitUsersForPermission (told_by o ms (e_model e)) [p0; p1] e).
  { unfold own_GetImplicitUsersForPermission, GetImplicitUsersForPermission, GetAllSubjects.
    assert (ST : forall sec i e0, ready o e0 rf pf eft mat -> told_by o ms (e_model e0) = told_by o ms (e_model e) ->
      ready o (fst (all_types sec i e0)) rf pf eft mat /\ told_by o ms (e_model (fst (all_types sec i e0))) = told_by o ms (e_model e)).
    { intros sec i e0 R0 T0. split; [apply ready_all_types; auto|]. rewrite <- T0. unfold all_types. simpl. unfold told_by, role_answer. rewrite sec_touch. reflexivity. }
    unfold mbind at 1. symmetry. unfold mbind at 1. destruct (ST "p" 0 e R eq_refl) as [R1 T1]. destruct (all_types "p" 0 e) as [e1 [ps|t|w]]; auto. cbn [fst] in *.
    unfold mbind at 1. symmetry. unfold mbind at 1. destruct (ST "g" 1 e1 R1 T1) as [R2 T2]. destruct (all_types "g" 1 e1) as [e2 [gi|t|w]]; auto. cbn [fst] in *.
    unfold mbind at 1. symmetry. unfold mbind at 1. destruct (ST "g" 0 e2 R2 T2) as [R3 T3]. destruct (all_types "g" 0 e2) as [e3 [gs|t|w]]; auto. cbn [fst] in *.
    unfold mbind at 1. symmetry. unfold mbind at 1. rewrite (own_allowed_eq o float ms rf pf eft mat p0 p1 X MAT NE _ e3 R3), T3. reflexivity. }
  rewrite GE. exists l. split; auto. split; auto. intros s. rewrite EQ. apply I.
Qed.

(** A manager of the caller: staff are below admin, admin below alice again, and for mallory it
    throws. *)
Definition hall : answers := mkAnswers
  (fun x y _ => if String.eqb x "mallory" then Throw OtherException else Ok (String.eqb x y || (String.eqb x "alice" && String.eqb y "admin")))
  (fun x _ => if String.eqb x "alice" then Ok ["staff"] else if String.eqb x "staff" then Ok ["admin"; "staff"] else if String.eqb x "admin" then Ok ["alice"] else Ok [])
  (fun x _ => if String.eqb x "admin" then Ok ["staff"] else Ok []).
(** ... and one that knows no links, and one with more and more roles. *)
Definition nobody : answers := mkAnswers (fun x y _ => Ok (String.eqb x y)) (fun _ _ => Ok []) (fun _ _ => Ok []).
Definition tower : answers := mkAnswers (fun x y _ => Ok (String.eqb x y)) (fun x _ => Ok [("x" ++ x)%string]) (fun _ _ => Ok []).
Definition halls : managers := fun i => if Nat.eqb i 7 then hall else if Nat.eqb i 8 then tower else nobody.

Definition no_float : evaluator -> bool := fun _ => false.
Definition quiet (n : nat) (c : heard) : nat * res unit := (S n, Ok tt).
Definition team : enforcer := boot (rbac_model [["admin"; "data1"; "read"]; ["bob"; "data2"; "read"]] [["zoe"; "admin"]]).
(** The enforcer after SetRoleManager and BuildRoleLinks. *)
Definition led_by (i : nat) (e : enforcer) : enforcer := o_e (fst (own_BuildRoleLinks _ quiet (mkOwn (fst (own_SetRoleManager i e)) 0 []))).
Definition run_by : enforcer := led_by 7 team.
Lemma run_by_declares : declares (e_model run_by) f3 f3 (effect_text AllowOverride) rbac_matcher.
Proof. let m := eval vm_compute in (e_model run_by) in assert (E : e_model run_by = m) by (vm_compute; reflexivity). rewrite E. prove_declares. Qed.
Lemma run_by_ready : ready mini run_by f3 f3 (effect_text AllowOverride) rbac_matcher.
Proof. split; [apply run_by_declares|exact Logic.I]. Qed.
Lemma run_by_asked : forall sub obj act, asked mini run_by f3 f3 (effect_text AllowOverride) rbac_matcher "" [sub; obj; act].
Proof.
  intros. constructor; [apply run_by_ready|reflexivity|reflexivity|discriminate|]. split; [discriminate|].
  change (candidates (e_model run_by) [sub; obj; act]) with [["admin"; "data1"; "read"]; ["bob"; "data2"; "read"]].
  intros r [<-|[<-|[]]]; vm_compute; discriminate.
Qed.
Example C103_case_built : exists s', own_BuildRoleLinks _ quiet (mkOwn (fst (own_SetRoleManager 7 team)) 0 []) = (s', Ok tt) /\ o_e s' = run_by /\ 
  e_rm (o_e s') = 7 /\ o_heard s' = [HClear; HAdd "zoe" "admin" []] /\ exists a, aget "g" (sec_of (e_model (o_e s')) "g") = Some a /\ a_rm a = Some 7.
Proof. eexists. split; [vm_compute; reflexivity|]. split; [vm_compute; reflexivity|]. split; [reflexivity|]. split; [reflexivity|]. eexists. split; reflexivity. Qed.
Example C103_case : oracle_ext mini /\ asked mini run_by f3 f3 (effect_text AllowOverride) rbac_matcher "" ["alice"; "data1"; "read"] /\
  own_outcomes mini halls (e_model run_by) f3 f3 (chosen "" rbac_matcher) ["alice"; "data1"; "read"] (candidates (e_model run_by) ["alice"; "data1"; "read"])
    [(true, Allow); (false, Allow)] /\
  snd (own_EnforceExWithMatcher halls mini no_float "" (map OStr ["alice"; "data1"; "read"]) run_by) = Ok (true, ["admin"; "data1"; "read"]) /\
  snd (own_EnforceExWithMatcher halls mini no_float "" (map OStr ["zoe"; "data1"; "read"]) run_by) = Ok (false, []) /\
  snd (Enforce mini (reqs ["zoe"; "data1"; "read"]) (linked_boot (e_model team))) = Ok true.
Proof.
  split; [apply mini_ext|]. split; [apply run_by_asked|].
  split; [vm_compute; repeat (constructor; [split; reflexivity|]); constructor|].
  split; [vm_compute; reflexivity|]. split; vm_compute; reflexivity.
Qed.
(** The manager throws for mallory, and the caller of Enforce gets the exception. *)
Example C103_case_throws : asked mini run_by f3 f3 (effect_text AllowOverride) rbac_matcher "" ["mallory"; "data1"; "read"] /\
  own_verdict mini halls (e_model run_by) f3 f3 rbac_matcher ["mallory"; "data1"; "read"] ["admin"; "data1"; "read"] = Throw OtherException /\
  snd (own_EnforceExWithMatcher halls mini no_float "" (map OStr ["mallory"; "data1"; "read"]) run_by) = Throw OtherException.
Proof. split; [apply run_by_asked|]. split; vm_compute; reflexivity. Qed.
Example C103_case_queries : exists a, get_ast (e_model run_by) "g" "g" = Ok a /\ a_rm a = Some 7 /\
  snd (own_GetRolesForUser halls "staff" [] run_by) = Ok ["admin"; "staff"] /\ snd (own_GetUsersForRole halls "admin" [] run_by) = Ok ["staff"] /\
  snd (own_HasRoleForUser halls "alice" "staff" run_by) = Ok true /\ snd (own_HasRoleForUser halls "zoe" "admin" run_by) = Ok false.
Proof. eexists. split; [vm_compute; reflexivity|]. repeat split; vm_compute; reflexivity. Qed.
Example C103_case_unlinked : exists a, get_ast (e_model team) "g" "g" = Ok a /\ a_rm a = None.
Proof. eexists. split; [vm_compute; reflexivity|reflexivity]. Qed.
(** alice has the roles staff and admin; the manager says alice is above admin, which is left out. *)
Example C103_case_implicit :
  own_GetImplicitRolesForUser halls 3 "alice" [] run_by = Some (Ok ["staff"; "admin"]) /\
  own_GetImplicitPermissionsForUser halls 3 "alice" [] run_by = Some (run_by, Ok [["admin"; "data1"; "read"]]) /\ declared run_by "p" "p".
Proof. split; [vm_compute; reflexivity|]. split; [vm_compute; reflexivity|]. eexists. vm_compute. reflexivity. Qed.
Example C103_case_implicit_users : listable run_by /\ HasEval rbac_matcher = false /\
  (forall s, is_subject run_by s -> exists b, snd (own_Enforce halls mini no_float (map OStr [s; "data2"; "read"]) run_by) = Ok b) /\
  snd (own_GetImplicitUsersForPermission halls mini no_float ["data2"; "read"] run_by) = Ok ["bob"].
Proof.
  split; [split|split; [reflexivity|split; [|vm_compute; reflexivity]]].
  - intros pt r I. unfold stored, rules_in, get_ast in I. simpl in I. destruct (String.eqb pt "p"); simpl in I; cases_in I; simpl; lia.
  - intros pt r I. unfold stored, rules_in, get_ast in I. simpl in I. destruct (String.eqb pt "g"); simpl in I; cases_in I; simpl; lia.
  - intros s [sec [pt [r [[->| ->] [I N]]]]]; unfold stored, rules_in, get_ast in I; simpl in I.
    + destruct (String.eqb pt "p"); simpl in I; cases_in I; inversion N; subst; eexists; vm_compute; reflexivity.
    + destruct (String.eqb pt "g"); simpl in I; cases_in I; inversion N; subst; eexists; vm_compute; reflexivity.
Qed.

(** A manager with ever more roles: GetImplicitRolesForUser never returns. *)
Lemma new_roles_one : forall seen x, ~ In x seen -> new_roles seen [x] = [x].
Proof.
  intros seen x N. cbn [new_roles]. destruct (inb x seen) eqn:E; auto. exfalso. apply inb_true in E. auto.
Qed.
Theorem C103_endless_refuted : forall e, e_rm e = 8 -> forall steps, own_GetImplicitRolesForUser halls steps "alice" [] e = None.
Proof.
  intros e R steps. unfold own_GetImplicitRolesForUser. rewrite R. change (halls 8) with tower.
  assert (P : forall n x seen acc, (forall y, In y seen -> String.length y <= String.length x) -> own_implicit_loop n tower [] [x] seen acc = None).
  { induction n as [|n IH]; intros x seen acc B; auto. cbn [own_implicit_loop tower q_GetRoles].
    rewrite new_roles_one; [|intros I; apply B in I; simpl in I; lia]. cbn [app rev]. apply IH.
    intros y [<-|I]; auto. apply B in I. simpl. lia. }
  apply P. intros y [<-|[]]. auto.
Qed.
(** SetRoleManager alone: GetImplicitRolesForUser asks the new manager, while GetRolesForUser and
    Enforce go on asking the old one. *)
Theorem C103_half_refuted : exists e, asked mini e f3 f3 (effect_text AllowOverride) rbac_matcher "" ["alice"; "data1"; "read"] /\
  let e' := fst (own_SetRoleManager 9 e) in
  own_GetImplicitRolesForUser halls 3 "alice" [] e' = Some (Ok []) /\ snd (own_GetRolesForUser halls "alice" [] e') = Ok ["staff"] /\
  snd (own_Enforce halls mini no_float (map OStr ["alice"; "data1"; "read"]) e') = Ok true.
Proof. exists run_by. split; [apply run_by_asked|]. repeat split; vm_compute; reflexivity. Qed.
(** SetRoleManager and BuildRoleLinks on an enforcer that has already decided something: the
    queries ask the new manager, Enforce the old one. *)
Theorem C103_decided_refuted : exists e,
  e = fst (own_Enforce halls mini no_float (map OStr ["alice"; "data1"; "read"]) run_by) /\
  let e' := led_by 9 e in
  snd (own_GetRolesForUser halls "alice" [] e') = Ok [] /\ own_GetImplicitRolesForUser halls 3 "alice" [] e' = Some (Ok []) /\
  snd (own_Enforce halls mini no_float (map OStr ["alice"; "data1"; "read"]) e') = Ok true /\
  snd (own_Enforce halls mini no_float (map OStr ["alice"; "data1"; "read"]) (led_by 9 run_by)) = Ok false.
Proof. eexists. split; [reflexivity|]. repeat split; vm_compute; reflexivity. Qed.
Print Assumptions C103_default.
Print Assumptions C103_default_queries.
Print Assumptions C103_decides.
Print Assumptions C103_throws.
Print Assumptions C103_queries.
Print Assumptions C103_unlinked_ub.
Print Assumptions C103_after_build.
Print Assumptions C103_implicit_roles.
Print Assumptions C103_implicit_permissions.
Print Assumptions C103_implicit_users.
Print Assumptions C103_endless_refuted.
Print Assumptions C103_half_refuted.
Print Assumptions C103_decided_refuted.
