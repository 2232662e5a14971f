(** Proofs about automatic loading. *)
From Verif Require Import Base P_Base M_Ticker S_Ticker.

Definition settled (w : aworld) : Prop := timers_done (a_timer w) /\ loads_done (a_loads w) /\ a_running w = false.
Definition timer_holds (t : option timer_at) : bool := match t with Some THolds | Some TSleeps => true | _ => false end.
Definition ainv (w : aworld) : Prop :=
  match a_owner w with
  | OIdle => (a_mutex w = if timer_holds (a_timer w) then Some Timer else None) /\ (a_auto w = false -> settled w) /\
             (a_ticker w = false -> a_auto w = false)
  | OFlag Stop => (a_mutex w = if timer_holds (a_timer w) then Some Timer else None) /\ a_ticker w = true
  | OFlag Start => a_mutex w = None /\ settled w /\ a_auto w = true /\ a_ticker w = true
  | OLock Stop => (a_mutex w = if timer_holds (a_timer w) then Some Timer else None) /\ a_running w = false /\ a_ticker w = true
  | OLock Start => a_mutex w = None /\ settled w /\ a_auto w = true /\ a_ticker w = true
  | OTimers Stop => a_mutex w = Some Owner /\ timer_holds (a_timer w) = false /\ a_running w = false /\ a_ticker w = true
  | OLoads Stop => a_mutex w = Some Owner /\ timers_done (a_timer w) /\ a_running w = false /\ a_ticker w = true
  | OUnlock Stop => a_mutex w = Some Owner /\ settled w /\ a_ticker w = true
  | OTimers Start | OLoads Start | OUnlock Start => a_mutex w = Some Owner /\ settled w /\ a_auto w = true /\ a_ticker w = true
  | OStart => a_mutex w = None /\ a_running w = false /\ a_timer w = None /\ a_loads w = [] /\ a_auto w = true
  | OFinish Start => (a_mutex w = if timer_holds (a_timer w) then Some Timer else None) /\ a_auto w = true /\ a_ticker w = true
  | OFinish Stop => a_mutex w = None /\ settled w /\ a_auto w = false /\ a_ticker w = true
  | OCrashed => a_mutex w = None /\ settled w /\ a_ticker w = false
  end /\ (a_ticker w = false -> a_timer w = None /\ a_loads w = [] /\ a_running w = false).
Lemma fresh_inv : forall p, ainv (fresh p).
Proof. intros p. unfold ainv, settled, timers_done, loads_done. simpl. repeat split; auto. Qed.

Lemma no_running : forall l1 l2, ~ loads_done (l1 ++ LRuns :: l2).
Proof. intros l1 l2 H. unfold loads_done in H. rewrite Forall_app in H. destruct H as [_ H]. apply Forall_inv in H. discriminate. Qed.
Ltac cinv :=
  repeat match goal with b : bool |- _ => destruct b end;
  repeat match goal with
         | H : _ /\ _ |- _ => destruct H
         | H : ?a = ?a -> _ |- _ => specialize (H eq_refl)
         | H : true = false -> _ |- _ => clear H
         | H : _ \/ _ |- _ => destruct H
         | H : loads_done (_ ++ LRuns :: _) |- _ => destruct (no_running _ _ H)
         | H : _ ++ _ :: _ = [] |- _ => destruct (app_cons_not_nil _ _ _ (eq_sym H))
         end; subst; simpl in *; try discriminate.
Lemma amove_inv : forall w ev w', amoves w ev w' -> ainv w -> ainv w'.
Proof.
  intros w ev w' Mv. destruct Mv; unfold ainv, settled, timers_done in *; cbn [a_auto a_ticker a_running a_mutex a_timer a_loads a_owner a_todo timer_holds];
    intros [V N];
    try (destruct c); try (destruct ow as [|[]|[]|[]|[]|[]| |[]|]); cinv;
    try (repeat split; intros; try discriminate; auto; fail).
  all: try (repeat split; intros; try discriminate; auto; destruct t as [[]|]; simpl in *; auto; try discriminate; fail).

Qed.

Lemma runs_inv : forall n w evs w', runs n w evs w' -> ainv w -> ainv w'.
Proof. induction 1; auto. intros V. apply IHruns. eapply amove_inv; eauto. Qed.
Lemma runs_split : forall n w evs w', runs n w evs w' -> forall a x b, evs = a ++ x :: b ->
  exists n1 n2 w1 w2, runs n1 w a w1 /\ amoves w1 (Some x) w2 /\ runs n2 w2 b w'.
Proof.
  induction 1 as [w|n w ev w1 evs w2 Mv R IH]; intros a x b E.
  - destruct a; discriminate.
  - destruct ev as [y|].
    + destruct a as [|z a].
      * simpl in E. injection E as -> ->. exists 0, n, w, w1. split; [constructor|auto].
      * simpl in E. injection E as -> E. destruct (IH _ _ _ E) as [n1 [n2 [u1 [u2 [A [B C]]]]]].
        exists (S n1), n2, u1, u2. split; auto. apply (r_step _ _ (Some z) _ _ _ Mv A).
    + destruct (IH _ _ _ E) as [n1 [n2 [u1 [u2 [A [B C]]]]]].
      exists (S n1), n2, u1, u2. split; auto. apply (r_step _ _ None _ _ _ Mv A).
Qed.

(** ** After a stop *)
Definition calm (w : aworld) : Prop :=
  settled w /\
  match a_owner w with OIdle | OFlag Stop | OLock Stop | OTimers Stop | OLoads Stop | OUnlock Stop | OFinish Stop | OCrashed => True | _ => False end.
Lemma calm_move : forall w ev w', amoves w ev w' -> calm w -> ev <> Some (ACall Start) -> calm w' /\ ev <> Some ALoadStarts /\ ev <> Some ALoadEnds.
Proof.
  intros w ev w' Mv [S O] N. unfold calm, settled, timers_done in *.
  destruct Mv; simpl in *; try congruence; try (destruct c; try tauto); try tauto;
    try (repeat split; auto; try tauto; try discriminate; fail);
    exfalso; cinv.
Qed.
Lemma calm_runs : forall n w evs w', runs n w evs w' -> calm w -> ~ In (ACall Start) evs -> ~ In ALoadStarts evs /\ ~ In ALoadEnds evs.
Proof.
  induction 1 as [w|n w ev w1 evs w2 Mv R IH]; intros C N; [simpl; auto|].
  destruct (calm_move _ _ _ Mv C) as [C1 [E1 E2]]. { intros ->. apply N. left. auto. }
  destruct ev as [x|]; [|auto]. destruct (IH C1) as [A B]. { intros X. apply N. right. auto. }
  split; intros [->|X]; auto; congruence.
Qed.
Lemma returned_calm : forall w w', ainv w -> amoves w (Some (AReturn Stop)) w' -> calm w'.
Proof. intros w w' V Mv. inversion Mv; subst. unfold ainv in V. simpl in V. unfold calm. simpl. unfold settled in *. simpl in *. tauto. Qed.

(** ** While it stops *)
Definition timer_effort (t : option timer_at) : nat :=
  match t with None | Some TDone => 0 | Some TCheck => 1 | Some TSleeps => 2 | Some THolds => 4 | Some TLock => 5 end.
Definition owner_effort (o : owner_at) : nat :=
  match o with OLock _ => 5 | OTimers _ => 4 | OLoads _ => 3 | OUnlock _ => 2 | OFinish _ => 1 | _ => 0 end.
Definition effort (w : aworld) : nat := owner_effort (a_owner w) + timer_effort (a_timer w) + running_loads (a_loads w).
Definition in_stop (w : aworld) : Prop := In (a_owner w) [OLock Stop; OTimers Stop; OLoads Stop; OUnlock Stop; OFinish Stop].
Lemma running_app : forall a b, running_loads (a ++ b) = running_loads a + running_loads b.
Proof. intros. unfold running_loads. rewrite filter_app, app_length. reflexivity. Qed.
Lemma running_runs : forall l, running_loads (LRuns :: l) = S (running_loads l).
Proof. reflexivity. Qed.
Lemma running_done : forall l, running_loads (LDone :: l) = running_loads l.
Proof. reflexivity. Qed.
Lemma running_nil : running_loads [] = 0.
Proof. reflexivity. Qed.
Lemma in_stop_move : forall w ev w', amoves w ev w' -> ainv w -> in_stop w -> ev <> Some (AReturn Stop) ->
  in_stop w' /\ effort w' < effort w.
Proof.
  intros w ev w' Mv V I N. pose proof (amove_inv _ _ _ Mv V) as V'. unfold in_stop, ainv, effort in *.
  destruct Mv; cbn [a_auto a_ticker a_running a_mutex a_timer a_loads a_owner a_todo] in *;
    try (exfalso; simpl in I; intuition discriminate);
    try (destruct c); try (destruct ow as [|[]|[]|[]|[]|[]| |[]|]);
    try (exfalso; simpl in I; intuition discriminate); try congruence;
    try (split; [simpl; tauto|]); rewrite ?running_app, ?running_runs, ?running_done, ?running_nil; cbn [owner_effort timer_effort]; try lia;
    exfalso; unfold settled, timers_done in *; cinv.
Qed.
Lemma in_stop_runs : forall n w evs w', runs n w evs w' -> ainv w -> in_stop w -> ~ In (AReturn Stop) evs ->
  in_stop w' /\ effort w' + n <= effort w.
Proof.
  induction 1 as [w|n w ev w1 evs w2 Mv R IH]; intros V I N; [split; auto; lia|].
  destruct (in_stop_move _ _ _ Mv V I) as [I1 E1]. { intros ->. apply N. left. auto. }
  destruct IH as [I2 E2]; auto. { eapply amove_inv; eauto. } { destruct ev; auto. intros X. apply N. right. auto. }
  split; auto. lia.
Qed.
Lemma loads_cases : forall l, loads_done l \/ exists l1 l2, l = l1 ++ LRuns :: l2.
Proof.
  induction l as [|[] l [IH|[l1 [l2 ->]]]].
  - left. constructor.
  - right. exists [], l. reflexivity.
  - right. exists [], (l1 ++ LRuns :: l2). reflexivity.
  - left. constructor; auto.
  - right. exists (LDone :: l1), l2. reflexivity.
Qed.
Lemma in_stop_blocked : forall w, ainv w -> in_stop w -> (forall ev w', ~ amoves w ev w') -> circular_wait w.
Proof.
  intros [au tk r m t l ow td] V I NM. unfold in_stop in I. simpl in I. unfold ainv in V. simpl in V.
  destruct I as [<-|[<-|[<-|[<-|[<-|[]]]]]]; simpl in V.
  - exfalso. destruct V as [[-> [-> _]] _]. destruct t as [[]|]; simpl in NM; eapply NM; try (apply a_lock); [apply a_tick|apply a_wake].
  - destruct V as [[-> [TH [-> _]]] _]. destruct t as [[]|]; try discriminate.
    + exfalso. eapply NM. apply a_check_off.
    + exists Stop. auto.
    + exfalso. eapply NM. apply a_wait_timers. right. auto.
    + exfalso. eapply NM. apply a_wait_timers. left. auto.
  - exfalso. destruct (loads_cases l) as [D|[l1 [l2 ->]]]; eapply NM; [apply a_wait_loads; auto|apply a_load_ends].
  - exfalso. eapply NM. apply a_stopped.
  - exfalso. eapply NM. apply a_return.
Qed.
(** The timer does not go to the lock any more once the flag is cleared. *)
Lemma in_stop_no_lock : forall w ev w', amoves w ev w' -> ainv w -> in_stop w -> ev <> Some (AReturn Stop) ->
  a_timer w <> Some TLock -> a_timer w' <> Some TLock.
Proof.
  intros w ev w' Mv V I N T. unfold in_stop, ainv in *.
  destruct Mv; cbn [a_auto a_ticker a_running a_mutex a_timer a_loads a_owner a_todo] in *; auto; try discriminate.
  exfalso. simpl in I. destruct I as [<-|[<-|[<-|[<-|[<-|[]]]]]]; unfold settled in V; simpl in V; intuition discriminate.
Qed.
Lemma in_stop_runs_no_lock : forall n w evs w', runs n w evs w' -> ainv w -> in_stop w -> ~ In (AReturn Stop) evs ->
  a_timer w <> Some TLock -> a_timer w' <> Some TLock.
Proof.
  induction 1 as [w|n w ev w1 evs w2 Mv R IH]; intros V I N T; auto.
  assert (NE : ev <> Some (AReturn Stop)). { intros ->. apply N. left. auto. }
  destruct (in_stop_move _ _ _ Mv V I NE) as [I1 _]. apply IH; auto.
  - eapply amove_inv; eauto.
  - destruct ev; auto. intros X. apply N. right. auto.
  - eapply in_stop_no_lock; eauto.
Qed.

(** ** The circular wait *)
Lemma circular_move : forall w ev w', amoves w ev w' -> circular_wait w -> circular_wait w' /\ (forall c, ev <> Some (AReturn c)).
Proof.
  intros w ev w' Mv [c [O [M T]]]. destruct Mv; simpl in *; try discriminate;
    try (split; [exists c; auto|intros c1; discriminate]).
  destruct H; congruence.
Qed.
Lemma circular_runs : forall n w evs w', runs n w evs w' -> circular_wait w -> circular_wait w' /\ (forall c, ~ In (AReturn c) evs).
Proof.
  induction 1 as [w|n w ev w1 evs w2 Mv R IH]; intros C; [split; auto|].
  destruct (circular_move _ _ _ Mv C) as [C1 N1]. destruct (IH C1) as [C2 N2]. split; auto.
  intros c. destruct ev as [x|]; auto. intros [->|X]; [apply (N1 c); auto|apply (N2 c X)].
Qed.
