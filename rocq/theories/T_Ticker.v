(** Properties of automatic loading: C51. *)
From Verif Require Import Base P_Base M_Ticker S_Ticker P_Ticker.

(** ** C51: StopAutoLoadPolicy returns, and then nothing is loaded any more *)

(** The second half, for every program of starts and stops and every schedule: between the
    return of StopAutoLoadPolicy and the next StartAutoLoadPolicy no load starts, and none
    is still under way. *)
Theorem C51_no_load_after_stop : forall program n evs w before after,
  runs n (fresh program) evs w -> evs = before ++ AReturn Stop :: after -> ~ In (ACall Start) after ->
  ~ In ALoadStarts after /\ ~ In ALoadEnds after.
Proof.
  intros program n evs w before after R E N.
  destruct (runs_split _ _ _ _ R _ _ _ E) as [n1 [n2 [w1 [w2 [R1 [Mv R2]]]]]].
  apply (calm_runs _ _ _ _ R2); auto. eapply returned_calm; eauto. eapply runs_inv; eauto. apply fresh_inv.
Qed.

(** The first half, as far as it holds: once _running is cleared, every schedule of all
    threads makes a bounded number of steps until StopAutoLoadPolicy returns, unless it
    ends in the circular wait.  Missing: that the circular wait does not occur, which is
    false (below). *)
Theorem C51_stop_bounded_partial : forall program n evs w m evs' w',
  runs n (fresh program) evs w -> stopping Stop w ->
  runs m w evs' w' -> ~ In (AReturn Stop) evs' ->
  m <= 10 + running_loads (a_loads w) /\ ((forall ev w'', ~ amoves w' ev w'') -> circular_wait w').
Proof.
  intros program n evs w m evs' w' R S R' N.
  assert (V : ainv w) by (eapply runs_inv; eauto; apply fresh_inv).
  assert (I : in_stop w). { unfold in_stop, stopping in *. simpl in *. tauto. }
  destruct (in_stop_runs _ _ _ _ R' V I N) as [I' E]. split.
  - enough (effort w <= 10 + running_loads (a_loads w)) by lia. unfold effort. destruct (a_owner w), (a_timer w) as [[]|]; simpl; lia.
  - apply in_stop_blocked; auto. eapply runs_inv; eauto.
Qed.
(** It does not occur when the timer thread was not between its test of _running and its
    lock at the moment _running was cleared. *)
Theorem C51_stop_returns_partial : forall program n evs w m evs' w',
  runs n (fresh program) evs w -> stopping Stop w -> a_timer w <> Some TLock ->
  runs m w evs' w' -> ~ In (AReturn Stop) evs' ->
  exists ev w'', amoves w' ev w''.
Proof.
  intros program n evs w m evs' w' R S T R' N.
  assert (V : ainv w) by (eapply runs_inv; eauto; apply fresh_inv).
  assert (I : in_stop w). { unfold in_stop, stopping in *. simpl in *. tauto. }
  destruct (in_stop_runs _ _ _ _ R' V I N) as [I' _].
  pose proof (in_stop_runs_no_lock _ _ _ _ R' V I N T) as T'.
  assert (V' : ainv w') by (eapply runs_inv; eauto).
  destruct w' as [au tk r mu t l ow td]. unfold in_stop in I'. unfold ainv in V'. simpl in *.
  destruct I' as [<-|[<-|[<-|[<-|[<-|[]]]]]]; simpl in V'.
  - destruct V' as [[-> [-> _]] _]. destruct t as [[]|]; simpl; try (do 2 eexists; apply a_lock); do 2 eexists; [apply a_tick|apply a_wake].
  - destruct V' as [[-> [TH [-> _]]] _]. destruct t as [[]|]; try discriminate; try congruence; do 2 eexists.
    + apply a_check_off.
    + apply a_wait_timers. right. auto.
    + apply a_wait_timers. left. auto.
  - destruct (loads_cases l) as [D|[l1 [l2 ->]]]; do 2 eexists; [apply a_wait_loads; auto|apply a_load_ends].
  - do 2 eexists. apply a_stopped.
  - do 2 eexists. apply a_return.
Qed.

(** False in general: StartAutoLoadPolicy then StopAutoLoadPolicy reaches the circular
    wait, here before the first load ... *)
Definition hung : aworld := mkA true true false (Some Owner) (Some TLock) [] (OTimers Stop) [].
Theorem C51_stop_hangs_refuted : exists n, runs n (fresh [Start; Stop]) [ACall Start; AReturn Start; ACall Stop] hung /\ circular_wait hung.
Proof.
  exists 7. split; [|exists Stop; repeat split].
  eapply (r_step _ _ (Some (ACall Start))); [apply a_start_first|].
  eapply (r_step _ _ None); [apply a_started|].
  eapply (r_step _ _ (Some (AReturn Start))); [apply a_return|].
  eapply (r_step _ _ None); [apply a_check_on|].
  eapply (r_step _ _ (Some (ACall Stop))); [apply a_stop|].
  eapply (r_step _ _ None); [apply a_flag|].
  eapply (r_step _ _ None); [apply a_lock|].
  apply r_nil.
Qed.
(** ... and in no continuation of a circular wait does any call return. *)
Theorem C51_hangs_for_ever_refuted : forall w n evs w', circular_wait w -> runs n w evs w' ->
  circular_wait w' /\ forall c, ~ In (AReturn c) evs.
Proof. intros w n evs w' C R. exact (circular_runs _ _ _ _ R C). Qed.
(** StopAutoLoadPolicy without a StartAutoLoadPolicy before it dereferences null. *)
Theorem C51_stop_first_refuted : forall todo, exists n w, runs n (fresh (Stop :: todo)) [ACall Stop] w /\ a_owner w = OCrashed.
Proof. intros todo. do 2 eexists. split; [apply (r_step _ _ (Some (ACall Stop)) _ _ _ (a_stop_nothing _ _ _ _ _ _) (r_nil _))|reflexivity]. Qed.

(** A concrete case: one load, then a stop that waits for it and returns, then a new start. *)
Example one_load : exists n w, runs n (fresh [Start; Stop; Start])
  [ACall Start; AReturn Start; ALoadStarts; ACall Stop; ALoadEnds; AReturn Stop; ACall Start; AReturn Start; ALoadStarts] w.
Proof.
  do 2 eexists.
  eapply (r_step _ _ (Some (ACall Start))); [apply a_start_first|].
  eapply (r_step _ _ None); [apply a_started|].
  eapply (r_step _ _ (Some (AReturn Start))); [apply a_return|].
  eapply (r_step _ _ None); [apply a_check_on|].
  eapply (r_step _ _ None); [apply a_timer_lock|].
  eapply (r_step _ _ (Some ALoadStarts)); [apply a_tick|].
  eapply (r_step _ _ (Some (ACall Stop))); [apply a_stop|].
  eapply (r_step _ _ None); [apply a_flag|].
  eapply (r_step _ _ None); [apply a_wake|].
  eapply (r_step _ _ None); [apply a_check_off|].
  eapply (r_step _ _ None); [apply a_lock|].
  eapply (r_step _ _ None); [apply a_wait_timers; right; reflexivity|].
  eapply (r_step _ _ (Some ALoadEnds)); [apply (a_load_ends _ _ _ _ _ [] [])|].
  eapply (r_step _ _ None); [apply a_wait_loads; repeat constructor|].
  eapply (r_step _ _ None); [apply a_stopped|].
  eapply (r_step _ _ (Some (AReturn Stop))); [apply a_return|].
  eapply (r_step _ _ (Some (ACall Start))); [apply a_start_replace|].
  eapply (r_step _ _ None); [apply a_flag|].
  eapply (r_step _ _ None); [apply a_lock|].
  eapply (r_step _ _ None); [apply a_wait_timers; right; reflexivity|].
  eapply (r_step _ _ None); [apply a_wait_loads; repeat constructor|].
  eapply (r_step _ _ None); [apply a_replaced|].
  eapply (r_step _ _ None); [apply a_started|].
  eapply (r_step _ _ (Some (AReturn Start))); [apply a_return|].
  eapply (r_step _ _ None); [apply a_check_on|].
  eapply (r_step _ _ None); [apply a_timer_lock|].
  eapply (r_step _ _ (Some ALoadStarts)); [apply a_tick|].
  apply r_nil.
Qed.
(** A stop in progress meeting the hypotheses of the partial theorems. *)
Example stop_in_progress : exists n w, runs n (fresh [Start; Stop]) [ACall Start; AReturn Start; ALoadStarts; ACall Stop] w /\ stopping Stop w /\ a_timer w = Some TSleeps.
Proof.
  do 2 eexists. split; [|split].
  - eapply (r_step _ _ (Some (ACall Start))); [apply a_start_first|].
    eapply (r_step _ _ None); [apply a_started|].
    eapply (r_step _ _ (Some (AReturn Start))); [apply a_return|].
    eapply (r_step _ _ None); [apply a_check_on|].
    eapply (r_step _ _ None); [apply a_timer_lock|].
    eapply (r_step _ _ (Some ALoadStarts)); [apply a_tick|].
    eapply (r_step _ _ (Some (ACall Stop))); [apply a_stop|].
    eapply (r_step _ _ None); [apply a_flag|].
    apply r_nil.
  - left. reflexivity.
  - reflexivity.
Qed.

Print Assumptions C51_no_load_after_stop.
Print Assumptions C51_stop_bounded_partial.
Print Assumptions C51_stop_returns_partial.
Print Assumptions C51_stop_hangs_refuted.
Print Assumptions C51_hangs_for_ever_refuted.
Print Assumptions C51_stop_first_refuted.
