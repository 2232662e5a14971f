(** Property C91: several threads on one CachedEnforcer. *)
From Coq Require Import Lia.
From Verif Require Import Base P_Base M_Util M_Matcher M_Cached M_CachedThreads S_Text S_History S_Cached S_CachedThreads S_Effect S_Enforce
  P_Enforce P_Decide P_Cached P_CachedThreads E_Examples T_Cached.

(** One thread alone does what M_Cached.v says. *)
Theorem C91_alone : forall o c q, exists schedule w, scheduled o (asking c [[q]]) schedule w /\ finished w /\
  w_c w = fst (c_EnforceWithMatcher o (fst q) (map DStr (snd q)) c) /\
  map t_said (w_threads w) = [[(q, snd (c_EnforceWithMatcher o (fst q) (map DStr (snd q)) c))]].
Proof.
  intros o c q.
  assert (F : forall c l q out, finished (mkW c l [said (mkT [] PIdle []) q out])). { intros ? ? ? ? t [<-|[]]. auto. }
  Ltac go H := eapply sched_step; [eapply moves_step with (i := 0); [reflexivity|unfold t_step; cbn [t_at goto t_todo w_c w_lock t_said]; rewrite ?H; reflexivity]|];
    cbn [put_thread w_threads w_lock w_c goto t_todo t_said said].
  unfold c_EnforceWithMatcher, through_cache, asking. cbn [map]. fold (key_of q). destruct (c_on c) eqn:On; cbn [negb].
  - destruct (aget (key_of q) (c_map c)) as [b|] eqn:E.
    + eexists [0; 0; 0; 0; 0]. eexists. split.
      { go On. go On. go E. go E. go E. apply sched_nil. }
      split; [apply F|]. split; reflexivity.
    + destruct (inherited (EnforceWithMatcher o (fst q) (map DStr (snd q))) c) as [c' out] eqn:V. destruct out as [b|x|u].
      * eexists [0; 0; 0; 0; 0; 0; 0; 0]. eexists. split. { go On. go On. go E. go E. go V. go E. go E. go E. apply sched_nil. }
        split; [apply F|]. split; reflexivity.
      * eexists [0; 0; 0; 0; 0]. eexists. split. { go On. go On. go E. go E. go V. apply sched_nil. }
        split; [apply F|]. split; reflexivity.
      * eexists [0; 0; 0; 0; 0]. eexists. split. { go On. go On. go E. go E. go V. apply sched_nil. }
        split; [apply F|]. split; reflexivity.
  - destruct (inherited (EnforceWithMatcher o (fst q) (map DStr (snd q))) c) as [c' out] eqn:V.
    eexists [0; 0]. eexists. split. { go On. go V. apply sched_nil. }
    destruct out; (split; [apply F|]; split; reflexivity).
Qed.

(** ** What the mutex is for *)
(** Threads that only ask never race for the cache or its switch, whatever they ask. *)
Theorem C91_cache_guarded : forall o c programs schedule w,
  scheduled o (asking c programs) schedule w -> ~ race_on TheCache w /\ ~ race_on TheSwitch w.
Proof.
  intros o c programs schedule w S.
  assert (M : mutex w). { eapply sched_inv; [apply mutex_moves| |exact S]. rewrite asking_calling. apply mutex_calling. }
  assert (A : asks_only w). { eapply sched_inv; [apply asks_only_moves| |exact S]. apply asks_only_asking. }
  split; intros R; pose proof (guarded _ _ M A R); discriminate.
Qed.
(** Once every request has been answered, any number of threads may ask them again: no
    data race at all, in any schedule, and every answer is the plain enforcer's. *)
Theorem C91_warm : forall o e rf pf eft mat asked programs schedule w,
  oracle_ext o -> ready o e rf pf eft mat ->
  Forall (admissible (e_model e) rf pf mat) asked -> Forall no_dollar asked ->
  (forall q, In q asked -> exists b, snd (EnforceWithMatcher o (fst q) (map DStr (snd q)) e) = Ok b) ->
  (forall program, In program programs -> incl program asked) ->
  scheduled o (asking (c_ask o asked (new_cached e)) programs) schedule w ->
  (forall x, ~ race_on x w) /\
  forall t q out, In t (w_threads w) -> In (q, out) (t_said t) -> out = snd (EnforceWithMatcher o (fst q) (map DStr (snd q)) e).
Proof.
  intros o e rf pf eft mat asked programs schedule w X R A D OK I0 S.
  assert (G : Forall (good e rf pf mat) asked) by (rewrite Forall_forall in *; intros x Hx; split; auto).
  pose proof (fresh_faithful o e rf pf eft mat R true) as F0.
  pose proof (ask_all o e rf pf eft mat X R asked _ F0 G) as F.
  assert (W : warm (c_ask o asked (mkC e [] true)) w).
  { eapply sched_inv; [apply warm_moves| |exact S]. split; [reflexivity|]. split; [rewrite ask_on; reflexivity|].
    intros t It. apply in_map_iff in It. destruct It as [qs [<- It]]. split; [exact Logic.I|]. cbn. intros a Ia. apply in_map_iff in Ia. destruct Ia as [q [<- Iq]].
    exists q. split; [reflexivity|]. assert (Iq' : In q asked) by (apply (I0 qs); auto). destruct (OK q Iq') as [b B].
    eapply asked_in; eauto. }
  split.
  - intros x RC. assert (M : mutex w). { eapply sched_inv; [apply mutex_moves| |exact S]. rewrite asking_calling. apply mutex_calling. }
    assert (AO : asks_only w). { eapply sched_inv; [apply asks_only_moves| |exact S]. apply asks_only_asking. }
    pose proof (guarded _ _ M AO RC). subst x. eapply warm_no_engine; eauto.
  - intros t q out It Iq. assert (RW : right_world o e rf pf eft mat w).
    { eapply sched_inv; [apply (right_moves o e rf pf eft mat X R)| |exact S]. apply right_asking; auto. intros qs q' I1 I2. rewrite Forall_forall in G. apply G, (I0 qs); auto. }
    destruct RW as [_ RT]. destruct (RT t It) as (_ & _ & C). apply C. exact Iq.
Qed.
(** From any state of the cache, as long as evaluations do not overlap, the answers of all
    threads in all schedules are the plain enforcer's. *)
Theorem C91_answers : forall o e rf pf eft mat asked programs schedule w,
  oracle_ext o -> ready o e rf pf eft mat ->
  (forall program, In program programs -> Forall (admissible (e_model e) rf pf mat) program /\ Forall no_dollar program) ->
  Forall (admissible (e_model e) rf pf mat) asked -> Forall no_dollar asked ->
  scheduled o (asking (c_ask o asked (new_cached e)) programs) schedule w ->
  forall t q out, In t (w_threads w) -> In (q, out) (t_said t) -> out = snd (EnforceWithMatcher o (fst q) (map DStr (snd q)) e).
Proof.
  intros o e rf pf eft mat asked programs schedule w X R P A D S t q out It Iq.
  assert (G : Forall (good e rf pf mat) asked) by (rewrite Forall_forall in *; intros x Hx; split; auto).
  pose proof (ask_all o e rf pf eft mat X R asked _ (fresh_faithful o e rf pf eft mat R true) G) as F.
  assert (RW : right_world o e rf pf eft mat w).
  { eapply sched_inv; [apply (right_moves o e rf pf eft mat X R)| |exact S]. apply right_asking; auto. intros qs q' I1 I2.
    destruct (P qs I1) as [P1 P2]. rewrite Forall_forall in P1, P2. split; auto. }
  destruct RW as [_ RT]. destruct (RT t It) as (_ & _ & C). apply C. exact Iq.
Qed.
(** No deadlock: whatever the threads call, some thread can go on until all are done, and
    after nine steps for each call they are. *)
Theorem C91_no_deadlock : forall o c programs schedule w, scheduled o (calling c programs) schedule w ->
  List.length schedule <= 9 * List.length (List.concat programs) /\ (finished w \/ exists i w', moves o w i w').
Proof.
  intros o c programs schedule w S. split.
  - pose proof (sched_left _ _ _ _ S) as L. rewrite calling_left in L. enough (E : sum (map (@List.length op) programs) = List.length (List.concat programs)) by lia.
    clear. unfold sum. induction programs; [reflexivity|]. cbn [map fold_right List.concat]. rewrite app_length. lia.
  - apply can_move. eapply sched_inv; [apply mutex_moves|apply mutex_calling|exact S].
Qed.

(** ** What it is not for *)
(** False for requests that are not in the cache: the evaluation is not protected.  Two
    threads with any such requests, the same or different ones, can race. *)
Theorem C91_cold_race_refuted : forall o c q q', c_on c = true ->
  aget (key_of q) (c_map c) = None -> aget (key_of q') (c_map c) = None ->
  exists schedule w, scheduled o (asking c [[q]; [q']]) schedule w /\ race_on TheEngine w.
Proof.
  intros o c q q' On E E'.
  Ltac go2 k H := eapply sched_step; [eapply moves_step with (i := k); [reflexivity|unfold t_step; cbn [t_at goto t_todo w_c w_lock t_said]; rewrite ?H; reflexivity]|];
    cbn [put_thread w_threads w_lock w_c goto t_todo t_said said].
  unfold asking. cbn [map]. eexists [0; 0; 0; 0; 1; 1; 1; 1]. eexists. split. { go2 0 On. go2 0 On. go2 0 E. go2 0 E. go2 1 On. go2 1 On. go2 1 E'. go2 1 E'. apply sched_nil. }
  exists 0, 1. do 2 eexists. exists true, true. split; [discriminate|]. repeat split; auto.
Qed.
(** False with InvalidateCache, which does not take the mutex. *)
Theorem C91_invalidate_race_refuted : forall o c q, c_on c = true ->
  exists schedule w, scheduled o (calling c [[OAsk q]; [OInvalidate]]) schedule w /\ race_on TheCache w.
Proof.
  intros o c q On. unfold calling. cbn [map]. eexists [0; 0]. eexists. split. { go2 0 On. go2 0 On. apply sched_nil. }
  exists 0, 1. do 2 eexists. exists false, true. split; [discriminate|]. repeat split; auto.
Qed.
(** False even if nothing overlaps but the calls: an answer found before a rule was removed
    is stored after InvalidateCache, and served from then on. *)
Definition carols : enforcer := boot (basic_model [["carol"; "data1"; "read"]]).
Definition carol_asks : request := ("", ["carol"; "data1"; "read"]).
Theorem C91_stale_store_refuted : exists schedule w,
  scheduled mini (calling (new_cached carols) [[OAsk carol_asks]; [OOther (KRemovePolicy "p" ["carol"; "data1"; "read"]); OInvalidate]]) schedule w /\ finished w /\
  schedule = [0; 0; 0; 0; 0; 1; 1; 0; 0; 0] /\
  snd (c_EnforceWithMatcher mini "" (map DStr (snd carol_asks)) (w_c w)) = Ok true /\
  snd (EnforceWithMatcher mini "" (map DStr (snd carol_asks)) (c_base (w_c w))) = Ok false.
Proof.
  exists [0; 0; 0; 0; 0; 1; 1; 0; 0; 0]. eexists. split; [apply exec_or_scheduled; vm_compute; reflexivity|].
  split. { assert (F : forallb (fun t => match t_at t, t_todo t with PIdle, [] => true | _, _ => false end) (w_threads (exec_or mini (calling (new_cached carols)
      [[OAsk carol_asks]; [OOther (KRemovePolicy "p" ["carol"; "data1"; "read"]); OInvalidate]]) [0; 0; 0; 0; 0; 1; 1; 0; 0; 0])) = true) by (vm_compute; reflexivity).
    rewrite forallb_forall in F. intros t I0. specialize (F t I0). clear I0. destruct (t_at t), (t_todo t); try discriminate F. auto. }
  split; [reflexivity|]. split; vm_compute; reflexivity.
Qed.

(** Nor when the enforcer itself stays as it is: if InvalidateCache falls between the look
    whether the answer is there and its reading, any request is denied, and from then on
    the denial is served from the cache. *)
Theorem C91_forgotten_refuted : forall o c q b, c_on c = true -> aget (key_of q) (c_map c) = Some b ->
  exists schedule w, scheduled o (calling c [[OAsk q]; [OInvalidate]]) schedule w /\ finished w /\
    map t_said (w_threads w) = [[(q, Ok false)]; []] /\ c_base (w_c w) = c_base c /\
    snd (c_EnforceWithMatcher o (fst q) (map DStr (snd q)) (w_c w)) = Ok false.
Proof.
  intros o c q b On E. unfold calling. cbn [map]. eexists [0; 0; 0; 1; 0; 0]. eexists.
  split. { go2 0 On. go2 0 On. go2 0 E. go2 1 E. go2 0 E. go2 0 E. apply sched_nil. }
  split. { intros t [<-|[<-|[]]]; auto. }
  split; [reflexivity|]. split; [reflexivity|].
  cbn [w_c InvalidateCache fst c_base c_map c_on]. unfold c_EnforceWithMatcher, through_cache. cbn [c_on c_map]. rewrite On. cbn [negb].
  fold (key_of q). rewrite aget_aset_same. reflexivity.
Qed.
(** Carol is allowed, was allowed before, and is denied. *)
Example C91_case_forgotten : c_on (c_ask mini [carol_asks] (new_cached carols)) = true /\
  aget (key_of carol_asks) (c_map (c_ask mini [carol_asks] (new_cached carols))) = Some true /\
  snd (EnforceWithMatcher mini "" (map DStr (snd carol_asks)) carols) = Ok true.
Proof. repeat split; vm_compute; reflexivity. Qed.

(** Three threads ask two requests that were asked before. *)
Example C91_case : exists asked programs,
  ready mini carols f3 f3 "some(where (p.eft == allow))" basic_matcher /\
  Forall (admissible (e_model carols) f3 f3 basic_matcher) asked /\ Forall no_dollar asked /\
  (forall q, In q asked -> exists b, snd (EnforceWithMatcher mini (fst q) (map DStr (snd q)) carols) = Ok b) /\
  (forall program, In program programs -> incl program asked) /\
  programs = [[carol_asks; carol_asks]; [("", ["dave"; "data1"; "read"]); carol_asks]; [("", ["dave"; "data1"; "read"])]].
Proof.
  exists [carol_asks; ("", ["dave"; "data1"; "read"])]. eexists. split; [apply basic_ready|].
  split. { repeat constructor; try discriminate; simpl; intros r H; in_cases; discriminate. }
  split. { repeat (apply Forall_cons; [intros v [<-|[<-|[<-|[]]]]; apply P_Text.smem_lacks; reflexivity|]). apply Forall_nil. }
  split. { intros q [<-|[<-|[]]]; eexists; vm_compute; reflexivity. }
  split; [|reflexivity].
  intros program [<-|[<-|[<-|[]]]] q I0; cbn in *; intuition.
Qed.
Print Assumptions C91_alone.
Print Assumptions C91_cache_guarded.
Print Assumptions C91_warm.
Print Assumptions C91_answers.
Print Assumptions C91_no_deadlock.
Print Assumptions C91_cold_race_refuted.
Print Assumptions C91_invalidate_race_refuted.
Print Assumptions C91_stale_store_refuted.
Print Assumptions C91_forgotten_refuted.
