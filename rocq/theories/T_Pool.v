(** Property C98: several enforcers in several threads. *)
From Coq Require Import Lia.
From Verif Require Import Base P_Base M_Matcher M_Pool S_Pool S_Effect S_Enforce P_Pool E_Examples.

(** ** What holds *)
(** As long as one thread at a time asks for functions, every thread is given its own ones. *)
Theorem C98_one_at_a_time : forall programs schedule w, by_turns (threads programs) schedule w -> all_given w ->
  map ft_got (p_threads w) = map (map (fun c => (c, Some (made c)))) programs.
Proof.
  intros programs schedule w S A. destruct (start_quiet programs) as [Q O]. destruct (turns_quiet _ _ _ S Q O) as [(_ & _ & Q3) _].
  assert (F : follows programs w). { eapply f_sched_inv; [apply follows_moves|apply turns_schedule; exact S|apply follows_threads]. }
  unfold follows in F. rewrite <- F, map_map. apply map_ext_in. intros t It. destruct (A t It) as [A1 A2]. unfold its_calls. rewrite A1, A2. cbn [app]. rewrite app_nil_r, map_map.
  rewrite <- (map_id (ft_got t)) at 1. apply map_ext_in. intros [c f] I. rewrite (Q3 t c f It I). reflexivity.
Qed.
(** A thread that has the process for itself is: this is why the rest of the model does
    without the pool. *)
Theorem C98_alone : forall program schedule w, f_schedule (threads [program]) schedule w -> all_given w ->
  map ft_got (p_threads w) = [map (fun c => (c, Some (made c))) program].
Proof. intros program schedule w S A. apply (C98_one_at_a_time [program] schedule); auto. apply alone_turns; auto. Qed.
(** Enforcements that take turns there give the answers the enforcers give alone. *)
Theorem C98_answers : forall o es schedule w i e t params, by_turns (enforcements es) schedule w -> all_given w ->
  nth_error es i = Some e -> nth_error (p_threads w) i = Some t -> EnforceGiven o (ft_got t) params e = Enforce o params e.
Proof.
  intros o es schedule w i e t params S A Ne Nt. pose proof (C98_one_at_a_time _ _ _ S A) as G.
  assert (E : ft_got t = map own (map snd (loads (e_model e)))).
  { pose proof (map_nth_error ft_got i _ Nt) as G1. rewrite G in G1. rewrite map_map in G1. rewrite (map_nth_error _ i _ Ne) in G1. injection G1 as <-. reflexivity. }
  rewrite E. apply EnforceGiven_own.
Qed.
(** In every schedule a function that is given is of the type and for the number of
    arguments that were asked for, and its role manager is one that some thread gave: a
    built-in function is always the right one. *)
Theorem C98_kinds : forall programs schedule w t c f, f_schedule (threads programs) schedule w ->
  In t (p_threads w) -> In (c, Some f) (ft_got t) ->
  f_type f = k_type c /\ f_narg f = k_narg c /\
  exists program d, In program programs /\ In d program /\ k_type d = k_type c /\ k_narg d = k_narg c /\ f_rm f = k_rm d.
Proof.
  intros programs schedule w t c f S It Ic.
  assert (K : follows programs w /\ kinds programs w).
  { apply (f_sched_inv (fun w => follows programs w /\ kinds programs w) (kinds_moves programs) _ _ _ S). split; [apply follows_threads|apply kinds_threads]. }
  destruct K as [_ [_ K]]. destruct (K t c (Some f) It Ic) as (d & Id & -> & Ek). apply pool_key_inj in Ek. destruct Ek as [E1 E2]. cbn [made f_type f_narg f_rm].
  repeat split; auto. apply in_concat in Id. destruct Id as [p [Ip Id]]. exists p, d. auto.
Qed.

(** ** What does not *)
(** False: two threads, each with an enforcer of its own, race for the pool, whatever the
    enforcers are. *)
Theorem C98_race_refuted : forall e e', exists schedule w, f_schedule (enforcements [e; e']) schedule w /\ pool_race w.
Proof.
  intros e e'. exists [0; 0; 1]. eexists. split.
  - apply f_run_schedule. reflexivity.
  - exists 0, 1. do 2 eexists. exists true, false. split; [discriminate|]. repeat split; auto.
Qed.
(** False even if the operations on the pool did not tear.  A thread may be given the role
    function of another enforcer, with its role manager ... *)
Theorem C98_other_manager_refuted : forall n a b, exists schedule w,
  f_schedule (threads [[mkCall TG n a]; [mkCall TG n b]]) schedule w /\ all_given w /\
  map ft_got (p_threads w) = [[(mkCall TG n a, Some (mkF TG n a))]; [(mkCall TG n b, Some (mkF TG n a))]].
Proof.
  intros n a b. exists [0; 0; 0; 1; 1; 1; 0]. eexists. split; [|split].
  - do 4 (eapply f_sched_step; [eapply f_moves_step; reflexivity|]).
    eapply f_sched_step; [eapply f_moves_step; [reflexivity|]|].
    { unfold f_step. cbn [threads ft_at p_pool fgoto made aset aget k_type k_narg]. unfold pool_key. cbn [k_type k_narg aget]. rewrite String.eqb_refl. reflexivity. }
    eapply f_sched_step; [eapply f_moves_step; [reflexivity|]|].
    { unfold f_step. cbn [threads ft_at p_pool fgoto made aset aget k_type k_narg]. unfold pool_key. cbn [k_type k_narg aget]. rewrite String.eqb_refl. reflexivity. }
    eapply f_sched_step; [eapply f_moves_step; reflexivity|]. apply f_sched_nil.
  - intros t [<-|[<-|[]]]; split; reflexivity.
  - reflexivity.
Qed.
(** ... or nothing at all. *)
Theorem C98_missing_refuted : forall c, exists schedule w,
  f_schedule (threads [[c]; [c]]) schedule w /\ all_given w /\
  map ft_got (p_threads w) = [[(c, Some (made c))]; [(c, None)]].
Proof.
  intros c. exists [0; 0; 0; 1; 1; 0; 1]. eexists. split; [|split].
  - do 4 (eapply f_sched_step; [eapply f_moves_step; reflexivity|]).
    eapply f_sched_step; [eapply f_moves_step; [reflexivity|]|].
    { unfold f_step. cbn [threads ft_at p_pool fgoto made aset aget]. rewrite String.eqb_refl. reflexivity. }
    do 2 (eapply f_sched_step; [eapply f_moves_step; reflexivity|]). apply f_sched_nil.
  - intros t [<-|[<-|[]]]; split; reflexivity.
  - reflexivity.
Qed.

(** Two enforcers of one process that share nothing the caller knows of: a second one is
    made beside the first (the role managers of a process have different addresses). *)
Definition beside (e : enforcer) (m : model) : enforcer :=
  fst (e_BuildRoleLinks (Initialize (mkE m (e_heap e) 0 None None no_files None true true true true))).
Definition red : enforcer := linked_boot (rbac_model [["admin"; "data"; "read"]] [["alice"; "admin"]]).
Definition blue : enforcer := beside red (rbac_model [["admin"; "data"; "read"]] [["bob"; "admin"]]).
Definition alice_reads : list data := reqs ["alice"; "data"; "read"].
Definition nines (i : nat) : list nat := repeat i 36.
Definition crossed : list nat := nines 1 ++ nines 0 ++ [0; 0; 0; 1; 1; 1; 0].
Definition missed : list nat := nines 1 ++ nines 0 ++ [0; 0; 0; 1; 1; 0; 1].
Definition second (w : option process) : list (fcall * option fobj) :=
  match w with Some w => match nth_error (p_threads w) 1 with Some t => ft_got t | None => [] end | None => [] end.

(** The answer can be that of the other enforcer's roles, and stays so. *)
Theorem C98_other_roles_refuted : exists schedule w t, f_schedule (enforcements [red; blue]) schedule w /\ all_given w /\
  nth_error (p_threads w) 1 = Some t /\
  snd (Enforce mini alice_reads blue) = Ok false /\
  snd (EnforceGiven mini (ft_got t) alice_reads blue) = Ok true /\
  snd (Enforce mini alice_reads (fst (EnforceGiven mini (ft_got t) alice_reads blue))) = Ok true.
Proof.
  exists crossed. destruct (f_run (enforcements [red; blue]) crossed) as [w|] eqn:R; [|vm_compute in R; discriminate].
  destruct (nth_error (p_threads w) 1) as [t|] eqn:N.
  - exists w, t. assert (G : ft_got t = second (f_run (enforcements [red; blue]) crossed)) by (rewrite R; cbn [second]; rewrite N; reflexivity).
    split; [apply f_run_schedule; exact R|]. split.
    { apply all_givenb_true. assert (B : option_map all_givenb (f_run (enforcements [red; blue]) crossed) = Some true) by (vm_compute; reflexivity). rewrite R in B. cbn in B. congruence. }
    split; [exact N|]. rewrite G. split; [vm_compute; reflexivity|]. split; vm_compute; reflexivity.
  - exfalso. assert (B : option_map (fun w => match nth_error (p_threads w) 1 with Some _ => true | None => false end) (f_run (enforcements [red; blue]) crossed) = Some true) by (vm_compute; reflexivity).
    rewrite R in B. cbn [option_map] in B. rewrite N in B. discriminate.
Qed.
(** Or the request fails. *)
Theorem C98_fails_refuted : exists schedule w t, f_schedule (enforcements [red; blue]) schedule w /\ all_given w /\
  nth_error (p_threads w) 1 = Some t /\
  snd (Enforce mini alice_reads blue) = Ok false /\ snd (EnforceGiven mini (ft_got t) alice_reads blue) = Throw ThrownString.
Proof.
  exists missed. destruct (f_run (enforcements [red; blue]) missed) as [w|] eqn:R; [|vm_compute in R; discriminate].
  destruct (nth_error (p_threads w) 1) as [t|] eqn:N.
  - exists w, t. assert (G : ft_got t = second (f_run (enforcements [red; blue]) missed)) by (rewrite R; cbn [second]; rewrite N; reflexivity).
    split; [apply f_run_schedule; exact R|]. split.
    { apply all_givenb_true. assert (B : option_map all_givenb (f_run (enforcements [red; blue]) missed) = Some true) by (vm_compute; reflexivity). rewrite R in B. cbn in B. congruence. }
    split; [exact N|]. rewrite G. split; vm_compute; reflexivity.
  - exfalso. assert (B : option_map (fun w => match nth_error (p_threads w) 1 with Some _ => true | None => false end) (f_run (enforcements [red; blue]) missed) = Some true) by (vm_compute; reflexivity).
    rewrite R in B. cbn [option_map] in B. rewrite N in B. discriminate.
Qed.

(** The hypotheses of the positive part: the two enforcements one after the other. *)
Example C98_case : exists w, by_turns (enforcements [red; blue]) (repeat 0 40 ++ repeat 1 40) w /\ all_given w.
Proof.
  destruct (f_run_turns (enforcements [red; blue]) (repeat 0 40 ++ repeat 1 40)) as [w|] eqn:R; [|vm_compute in R; discriminate].
  exists w. split; [apply f_run_by_turns; exact R|]. apply all_givenb_true.
  assert (B : option_map all_givenb (f_run_turns (enforcements [red; blue]) (repeat 0 40 ++ repeat 1 40)) = Some true) by (vm_compute; reflexivity). rewrite R in B. cbn in B. congruence.
Qed.
(** ... and calls that overlap without harm, as in the hypotheses of C98_kinds. *)
Example C98_case_kinds : exists w, f_schedule (enforcements [red; blue]) crossed w.
Proof.
  destruct (f_run (enforcements [red; blue]) crossed) as [w|] eqn:R; [|vm_compute in R; discriminate]. exists w. apply f_run_schedule. exact R.
Qed.

Print Assumptions C98_one_at_a_time.
Print Assumptions C98_alone.
Print Assumptions C98_answers.
Print Assumptions C98_kinds.
Print Assumptions C98_race_refuted.
Print Assumptions C98_other_manager_refuted.
Print Assumptions C98_missing_refuted.
Print Assumptions C98_other_roles_refuted.
Print Assumptions C98_fails_refuted.
