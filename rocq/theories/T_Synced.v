(** Properties of the synchronised enforcer: C49, C50. *)
From Verif Require M_Init.
From Verif Require Import Base P_Base M_Matcher M_Synced S_Policy S_Synced P_Synced P_SyncedState P_SyncedStuck E_Examples.

(** ** C49: every concurrent execution is one sequential execution *)

(** Any number of threads, any programs of calls that hold the policy mutex once around
    everything they do, any interleaving of the steps of the plain code: the calls and
    returns seen, and the state whenever no call holds the mutex exclusively, are those of
    the same calls made one after the other on a plain enforcer, in an order in which each
    call lies between its call and its return.

    The three listings over all types (GetAllSubjects, GetAllObjects, GetAllRoles) create
    a missing section while they hold the mutex in shared mode; they are covered when the
    model has both a policy type and a role definition.

    Missing: the calls that take the mutex several times or not at all, for which it is
    false (below), and the calls that take it twice, which never return (C50). *)
Theorem C49_linearisable_partial : forall o split e programs evs w,
  faithful_split split ->
  Forall (Forall (fun c => locked_once c <> None /\ ~ lists_all c)) programs ->
  schedule o split (start e programs) evs w ->
  exists e', linearisable o e evs e' /\ (w_writer w = None -> w_e w = e').
Proof.
  intros o split e programs evs w F P S.
  destruct (linear o split e (fun _ => True) (fun c => locked_once c <> None /\ ~ lists_all c) F) with (programs := programs) (evs := evs) (w := w)
    as [b [L [_ E]]]; auto; try tauto; [|eauto].
  intros c x [_ N] L _. apply shared_same; auto.
Qed.
Theorem C49_linearisable_with_listings_partial : forall o split e programs evs w,
  faithful_split split -> both_sections (e_model e) ->
  Forall (Forall (fun c => locked_once c <> None /\ loads_both c)) programs ->
  schedule o split (start e programs) evs w ->
  exists e', linearisable o e evs e' /\ (w_writer w = None -> w_e w = e').
Proof.
  intros o split e programs evs w F B P S.
  destruct (linear o split e (fun x => both_sections (e_model x)) (fun c => locked_once c <> None /\ loads_both c) F) with (programs := programs) (evs := evs) (w := w)
    as [b [L [_ E]]]; auto; try tauto; [| |eauto].
  - intros c x [L N] I. apply sections_kept; auto.
  - intros c x [_ N] L I. apply shared_same; auto.
Qed.
(** While one thread holds the mutex exclusively no other thread is inside plain code. *)
Theorem C49_exclusion_partial : forall o split e programs evs w i j,
  faithful_split split ->
  Forall (Forall (fun c => locked_once c <> None /\ ~ lists_all c)) programs ->
  schedule o split (start e programs) evs w ->
  w_writer w = Some i -> inside w j -> j = i.
Proof.
  intros o split e programs evs w i j F P S. apply (exclusion o split e (fun _ => True) (fun c => locked_once c <> None /\ ~ lists_all c) F) with (programs := programs) (evs := evs); auto; try tauto.
  intros c x [_ N] L _. apply shared_same; auto.
Qed.

(** A concrete case: a writer and a reader that overlaps it. *)
Definition shared_model : enforcer := linked_boot (rbac_model [["alice"; "data1"; "read"]; ["bob"; "data2"; "read"]] []).
Definition two_programs : list (list scall) :=
  [[SAddNamedPolicy "p" ["carol"; "data1"; "read"]; SGetAllSubjects]; [SHasNamedPolicy "p" ["carol"; "data1"; "read"]; SEnforce (reqs ["carol"; "data1"; "read"])]].
Example two_programs_covered : Forall (Forall (fun c => locked_once c <> None /\ loads_both c)) two_programs.
Proof. repeat constructor; discriminate. Qed.
Example shared_model_sections : both_sections (e_model shared_model).
Proof. split; [exists "p"|exists "g"]; eexists; vm_compute; reflexivity. Qed.
Definition two_order : list nat := [0; 1; 0; 0; 0; 0; 0; 0; 1; 1; 1; 0; 0; 0; 0; 0; 1; 1; 1; 0; 0; 1; 1; 1; 1; 1; 1; 1].
Definition outcome (is : list nat) (e : enforcer) (ps : list (list scall)) : list event * world :=
  match drive mini in_one_step is (start e ps) with Some r => r | None => ([], start e ps) end.
Lemma driven : forall is e ps evs, option_map fst (drive mini in_one_step is (start e ps)) = Some evs ->
  schedule mini in_one_step (start e ps) evs (snd (outcome is e ps)).
Proof.
  intros is e ps evs H. apply drive_schedule with (is := is). unfold outcome.
  destruct (drive mini in_one_step is (start e ps)) as [[x w]|]; [|discriminate]. injection H as <-. reflexivity.
Qed.
Example two_schedule : exists w, schedule mini in_one_step (start shared_model two_programs)
  [Call 0 (SAddNamedPolicy "p" ["carol"; "data1"; "read"]); Call 1 (SHasNamedPolicy "p" ["carol"; "data1"; "read"]);
   Return 0 (SAddNamedPolicy "p" ["carol"; "data1"; "read"]) (Ok (VBool true)); Call 0 SGetAllSubjects;
   Return 1 (SHasNamedPolicy "p" ["carol"; "data1"; "read"]) (Ok (VBool true));
   Return 0 SGetAllSubjects (Ok (VNames ["alice"; "bob"; "carol"]));
   Call 1 (SEnforce (reqs ["carol"; "data1"; "read"]));
   Return 1 (SEnforce (reqs ["carol"; "data1"; "read"])) (Ok (VBool true))] w /\ all_done w.
Proof.
  exists (snd (outcome two_order shared_model two_programs)). split; [apply driven; vm_compute; reflexivity|].
  unfold all_done. vm_compute. repeat constructor.
Qed.

(** False for GetImplicitUsersForPermission, which takes the mutex once per subject: while
    another thread moves alice's permission to bob, it finds both to have it, which was
    never the case. *)
Definition asked : scall := SGetImplicitUsersForPermission ["data1"; "read"].
Definition removed : scall := SRemoveNamedPolicy "p" ["alice"; "data1"; "read"].
Definition added : scall := SAddNamedPolicy "p" ["bob"; "data1"; "read"].
Definition both_found : list event :=
  [Call 0 asked; Call 1 removed; Return 1 removed (Ok (VBool true)); Call 1 added; Return 1 added (Ok (VBool true));
   Return 0 asked (Ok (VNames ["alice"; "bob"]))].
Definition mixed_order : list nat :=
  repeat 0 17 ++ repeat 1 14 ++ repeat 0 6.
Lemma both_found_happens : exists w, schedule mini in_one_step (start shared_model [[asked]; [removed; added]]) both_found w /\ all_done w.
Proof.
  exists (snd (outcome mixed_order shared_model [[asked]; [removed; added]])). split; [apply driven; vm_compute; reflexivity|].
  unfold all_done. vm_compute. repeat constructor.
Qed.
Ltac linearise :=
  match goal with
  | SE : seen ?l = _, F : all_follow _ ?l |- _ =>
      let P := fresh "P" in let t := fresh "t" in let c := fresh "c" in let out := fresh "out" in let l' := fresh "l" in
      destruct l as [|[t c|t c out|t c out] l']; cbn [seen] in SE;
      [ first [discriminate SE|match goal with EF : _ = results _ _ _ |- _ => cbn [effects map fst snd] in EF; vm_compute in EF; discriminate EF end]
      | first [discriminate SE
              |injection SE as -> -> SE; apply follow_call in F; destruct F as [P F]; unfold phases_step in P; cbn [Nat.eqb] in P; first [discriminate P|clear P; linearise]]
      | apply follow_effect in F; destruct F as [P F]; unfold phases_step in P;
        repeat match type of P with context [Nat.eqb t ?k] => destruct (Nat.eqb_spec t k) as [->|]; cbn [Nat.eqb] in P end;
        try discriminate P; injection P as <-; linearise
      | first [discriminate SE
              |injection SE as -> -> -> SE; apply follow_return in F; destruct F as [P F]; unfold phases_step in P; cbn [Nat.eqb] in P;
               first [discriminate P|injection P as ->; linearise]] ]
  end.
Lemma both_found_impossible : forall e', ~ linearisable mini shared_model both_found e'.
Proof.
  intros e' [l [SE [FO EF]]].
  assert (AF : all_follow (fun _ => Out) l) by exact FO. clear FO.
  apply one_by_one_results in EF. destruct EF as [EF _]. unfold both_found in SE.
  linearise.
Qed.
Theorem C49_several_sections_refuted : exists e programs evs w,
  both_sections (e_model e) /\ schedule mini in_one_step (start e programs) evs w /\ all_done w /\
  forall e', ~ linearisable mini e evs e'.
Proof.
  destruct both_found_happens as [w [S D]]. exists shared_model, [[asked]; [removed; added]], both_found, w.
  split; [exact shared_model_sections|]. split; [exact S|]. split; [exact D|]. exact both_found_impossible.
Qed.

(** False for the listings over all types when the model has no role definition: two
    threads hold the mutex in shared mode and one of them writes. *)
Theorem C49_shared_write_refuted : exists e programs evs w w',
  Forall (Forall (fun c => locked_once c = Some Shared)) programs /\
  schedule mini in_one_step (start e programs) evs w /\ inside w 0 /\ inside w 1 /\ w_writer w = None /\
  moves mini in_one_step w None w' /\ w_e w' <> w_e w.
Proof.
  set (e := boot (basic_model [["alice"; "data1"; "read"]])). set (ps := [[SGetAllRoles]; [SGetNamedPolicy "p"]]).
  set (is := [0; 0; 0; 1; 1; 1]).
  exists e, ps, (fst (outcome is e ps)), (snd (outcome is e ps)), (snd (outcome (is ++ [0]) e ps)).
  split. { repeat constructor. } split. { apply driven. vm_compute. reflexivity. }
  split. { do 4 eexists. vm_compute. reflexivity. } split. { do 4 eexists. vm_compute. reflexivity. }
  split. { vm_compute. reflexivity. }
  split. { apply move_of_moves with (i := 0). vm_compute. reflexivity. }
  intros H. apply (f_equal (fun x => List.length (e_model x))) in H. vm_compute in H. discriminate H.
Qed.

(** False for the functions SyncedEnforcer inherits without a lock (EnforceWithMatcher,
    EnforceEx, GetRolesForUser, GetUsersForRole, HasRoleForUser, GetImplicitRolesForUser):
    they run while another thread holds the mutex exclusively and is in the middle of a
    change. *)
Theorem C49_unlocked_refuted : forall o split e c d, takes_no_lock c -> locked_once d = Some Exclusive ->
  exists evs w, schedule o split (start e [[d]; [c]]) evs w /\ w_writer w = Some 0 /\ inside w 0 /\ inside w 1.
Proof.
  intros o split e c d U L.
  assert (CC : code o c = act (plain o c)) by (destruct c; try destruct U; reflexivity).
  pose proof (once_code o d Exclusive L) as CD. unfold under, locked in CD.
  set (k := fun out : res value => Done out) in *. unfold act in *. cbn [andthen] in CD.
  exists [Call 0 d; Call 1 c].
  eexists. split.
  { eapply (sch_step _ _ _ (Some (Call 0 d))); [apply m_call; reflexivity|].
    eapply (sch_step _ _ _ None); [rewrite CD; apply (m_lock _ _ _ _ 0); reflexivity|].
    eapply (sch_step _ _ _ None); [apply (m_enter _ _ _ _ _ _ 0); reflexivity|].
    eapply (sch_step _ _ _ (Some (Call 1 c))); [apply m_call; reflexivity|].
    eapply (sch_step _ _ _ None); [rewrite CC; apply (m_enter _ _ _ _ _ _ 1); reflexivity|].
    apply sch_nil. }
  split; [reflexivity|]. split; do 4 eexists; reflexivity.
Qed.

(** ** C50: no call asks for the mutex it already holds *)

(** For every call and state: a call that does not ask for the mutex twice does, alone,
    exactly what the plain enforcer does and gives the mutex back; the calls of
    [locks_itself] ask for the mutex while they hold it.  Missing: the claim itself for the
    latter, among them AddPolicy, RemovePolicy, HasPolicy and GetPolicy. *)
Theorem C50_same_as_plain_partial : forall o c e, ~ locks_itself c e ->
  exec false (code o c) e = Finished (fst (plain o c e)) (snd (plain o c e)).
Proof. intros o c e N. destruct (alone o c e) as [[H _]|[_ H]]; [destruct (N H)|exact H]. Qed.
(** LoadModel with a model file: what the file says, or the exception of reading it, as with the
    plain enforcer, whose own model of the call is in M_Init.v. *)
Theorem C50_load_model : forall o odd path e,
  let loaded := M_Init.NewModelFromFile odd (e_fs e) path in
  let plainly := M_Init.e_LoadModel odd path e in
  exec false (code o (SLoadModel loaded)) e =
    Finished (fst plainly) (match snd plainly with Ok _ => Ok VUnit | Throw t => Throw t | UB u => UB u end).
Proof.
  intros o odd path e loaded plainly. rewrite C50_same_as_plain_partial by (intros []).
  unfold plainly, M_Init.e_LoadModel, plain. fold loaded. destruct loaded as [m|t|u]; cbn [e_LoadModel]; try reflexivity.
Qed.
Theorem C50_locks_itself_refuted : forall o c e, locks_itself c e -> exec false (code o c) e = LocksItself.
Proof. intros o c e N. destruct (alone o c e) as [[_ H]|[H _]]; [exact H|destruct (H N)]. Qed.
(** The ordinary management calls, whatever the state. *)
Theorem C50_basic_calls_refuted : forall o e r i vals,
  exec false (code o (SAddPolicy r)) e = LocksItself /\ exec false (code o (SRemovePolicy r)) e = LocksItself /\
  exec false (code o (SHasPolicy r)) e = LocksItself /\ exec false (code o SGetPolicy) e = LocksItself /\
  exec false (code o (SRemoveFilteredPolicy i vals)) e = LocksItself /\ exec false (code o (SAddGroupingPolicy r)) e = LocksItself.
Proof. intros. repeat split; apply C50_locks_itself_refuted; exact I. Qed.
(** On a mutex that blocks, the calls that hold it exclusively at that point never return,
    in no execution of any programs ... *)
Theorem C50_never_returns_refuted : forall o split e programs evs w i c out,
  schedule o split (start e programs) evs w -> In (Return i c out) evs -> ~ never_returns c.
Proof. intros o split e programs evs w i c out S. exact (proj2 (held_schedule o split _ _ _ S _ (held_start o e programs)) i c out). Qed.
(** ... and keep the mutex from every other thread for ever. *)
Theorem C50_keeps_the_mutex_refuted : forall o split e programs evs w i todo c m q evs' w',
  schedule o split (start e programs) evs w ->
  nth_error (w_threads w) i = Some (mkT todo (At c (Acquire m q))) -> w_writer w = Some i ->
  schedule o split w evs' w' ->
  w_writer w' = Some i.
Proof.
  intros o split e programs evs w i todo c m q evs' w' S N W S'.
  destruct (held_schedule o split _ _ _ S _ (held_start o e programs)) as [[hs H] _].
  apply (stuck_schedule o split _ _ _ S' hs i H). split; eauto 6.
Qed.
(** Programs of calls that take the mutex once never wait for each other for ever. *)
Theorem C50_no_deadlock_partial : forall o split e programs evs w,
  faithful_split split ->
  Forall (Forall (fun c => locked_once c <> None /\ ~ lists_all c)) programs ->
  schedule o split (start e programs) evs w -> ~ all_done w ->
  exists ev w', moves o split w ev w'.
Proof.
  intros o split e programs evs w F P S. apply (progress o split e (fun _ => True) (fun c => locked_once c <> None /\ ~ lists_all c) F) with (programs := programs) (evs := evs); auto; try tauto.
  intros c x [_ N] L _. apply shared_same; auto.
Qed.
(** Concrete cases: a call that works, the removal of a grouping rule with and without
    automatic role links, and the call that hangs. *)
Example add_named_works : exec false (code mini (SAddNamedPolicy "p" ["carol"; "data1"; "read"])) shared_model =
  Finished (fst (AddNamedPolicy "p" ["carol"; "data1"; "read"] shared_model)) (Ok (VBool true)).
Proof. rewrite C50_same_as_plain_partial by (intros []). vm_compute. reflexivity. Qed.
Definition grouped : enforcer := linked_boot (rbac_model [["admin"; "data1"; "read"]] [["alice"; "admin"]]).
Example remove_grouping_auto : locks_itself (SRemoveNamedGroupingPolicy "g" ["alice"; "admin"]) grouped.
Proof. do 2 eexists. split; vm_compute; reflexivity. Qed.
Example remove_grouping_no_auto : ~ locks_itself (SRemoveNamedGroupingPolicy "g" ["alice"; "admin"]) (set_auto_build false grouped).
Proof. intros [e1 [b [E A]]]. vm_compute in E. injection E as <- <-. discriminate A. Qed.
Example add_policy_hangs : exists evs w, schedule mini in_one_step (start shared_model [[SAddPolicy ["carol"; "data1"; "read"]]; [SGetAllSubjects]]) evs w /\
  w_writer w = Some 0 /\ exists todo c m q, nth_error (w_threads w) 0 = Some (mkT todo (At c (Acquire m q))).
Proof.
  set (ps := [[SAddPolicy ["carol"; "data1"; "read"]]; [SGetAllSubjects]]).
  exists (fst (outcome [0; 0; 1] shared_model ps)), (snd (outcome [0; 0; 1] shared_model ps)).
  split; [apply driven; vm_compute; reflexivity|]. split; [vm_compute; reflexivity|]. do 4 eexists. vm_compute. reflexivity.
Qed.

Print Assumptions C49_linearisable_partial.
Print Assumptions C49_linearisable_with_listings_partial.
Print Assumptions C49_exclusion_partial.
Print Assumptions C49_several_sections_refuted.
Print Assumptions C49_shared_write_refuted.
Print Assumptions C49_unlocked_refuted.
Print Assumptions C50_same_as_plain_partial.
Print Assumptions C50_locks_itself_refuted.
Print Assumptions C50_basic_calls_refuted.
Print Assumptions C50_never_returns_refuted.
Print Assumptions C50_keeps_the_mutex_refuted.
Print Assumptions C50_no_deadlock_partial.
