(** Threads on one cached enforcer: proofs. *)
From Coq Require Import Lia.
From Verif Require Import Base P_Base M_Util M_Cached M_CachedThreads S_Text S_History S_Cached S_CachedThreads S_Effect S_Enforce P_Enforce P_Decide P_Cached.

Lemma nth_put : forall l i j t, i < List.length l -> nth_error (put_thread l i t) j = if Nat.eqb i j then Some t else nth_error l j.
Proof. induction l; intros [|i] [|j] t L; simpl in *; try lia; auto. apply IHl. lia. Qed.
Lemma nth_put_some : forall l i t0 j t, nth_error l i = Some t0 -> nth_error (put_thread l i t) j = if Nat.eqb i j then Some t else nth_error l j.
Proof. intros. apply nth_put. apply nth_error_Some. congruence. Qed.
Lemma sched_inv : forall o (P : world -> Prop), (forall w i w', P w -> moves o w i w' -> P w') ->
  forall w is w', P w -> scheduled o w is w' -> P w'.
Proof. intros o P H w is w' Pw S. induction S; eauto. Qed.

(** Running a schedule. *)
Definition exec1 (o : oracle) (w : world) (i : nat) : option world :=
  match nth_error (w_threads w) i with
  | None => None
  | Some t => match t_step o i (w_c w) (w_lock w) t with
              | None => None
              | Some (c', lock', t') => Some (mkW c' lock' (put_thread (w_threads w) i t'))
              end
  end.
Fixpoint exec (o : oracle) (w : world) (is : list nat) : option world :=
  match is with [] => Some w | i :: is' => match exec1 o w i with None => None | Some w' => exec o w' is' end end.
Lemma exec_scheduled : forall o is w w', exec o w is = Some w' -> scheduled o w is w'.
Proof.
  induction is as [|i is IH]; intros w w' E; cbn [exec] in E. { inversion E. apply sched_nil. }
  unfold exec1 in E. destruct (nth_error (w_threads w) i) as [t|] eqn:N; [|discriminate].
  destruct (t_step o i (w_c w) (w_lock w) t) as [[[c' l'] t']|] eqn:S; [|discriminate]. eapply sched_step; [econstructor; eauto|]. apply IH. exact E.
Qed.
Definition exec_or (o : oracle) (w : world) (is : list nat) : world := match exec o w is with Some w' => w' | None => w end.
Lemma exec_or_scheduled : forall o is w, match exec o w is with Some _ => true | None => false end = true -> scheduled o w is (exec_or o w is).
Proof. intros o is w H. apply exec_scheduled. unfold exec_or. destruct (exec o w is); [reflexivity|discriminate]. Qed.

(** ** The mutex *)
Definition inside (p : place) : bool :=
  match p with PCount _ | PUnlockMiss _ | PRead _ | PUnlockHit _ _ | PWrite _ _ | PUnlock2 _ _ => true | _ => false end.
Definition mutex (w : world) : Prop :=
  (forall i t, nth_error (w_threads w) i = Some t -> inside (t_at t) = true -> w_lock w = Some i) /\
  (forall i, w_lock w = Some i -> exists t, nth_error (w_threads w) i = Some t /\ inside (t_at t) = true).
(** What a step does with the mutex. *)
Lemma step_lock : forall o i c lock t c' lock' t', t_step o i c lock t = Some (c', lock', t') ->
  (inside (t_at t) = false /\ inside (t_at t') = false /\ lock' = lock) \/
  (inside (t_at t) = false /\ inside (t_at t') = true /\ lock = None /\ lock' = Some i) \/
  (inside (t_at t) = true /\ inside (t_at t') = true /\ lock' = lock) \/
  (inside (t_at t) = true /\ inside (t_at t') = false /\ lock' = None).
Proof.
  intros o i c lock t c' lock' t' S. unfold t_step in S. destruct (t_at t) eqn:P; cbn [inside].
  - destruct (t_todo t) as [|[q| |b|k] ops]; inversion S; subst; cbn; left; auto. destruct (c_on c'); auto.
  - destruct lock; inversion S; subst. cbn. auto 6.
  - inversion S; subst. cbn. destruct (aget _ _); auto 6.
  - inversion S; subst. cbn. auto 6.
  - destruct (aget _ _); inversion S; subst; cbn; auto 6.
  - inversion S; subst. cbn. auto 6.
  - destruct (inherited _ c) as [c1 out]. inversion S; subst. left. destruct out; [destruct keep|..]; auto.
  - destruct lock; inversion S; subst. cbn. auto 6.
  - inversion S; subst. cbn. auto 6.
  - inversion S; subst. cbn. auto 6.
Qed.
Lemma mutex_moves : forall o w i w', mutex w -> moves o w i w' -> mutex w'.
Proof.
  intros o w i w' [A B] M. inversion M as [? ? t c' lock' t' N S]; subst. unfold mutex. cbn [w_threads w_lock].
  destruct (step_lock _ _ _ _ _ _ _ _ S) as [[I1 [I2 E]]|[[I1 [I2 [E1 E2]]]|[[I1 [I2 E]]|[I1 [I2 E]]]]].
  - subst lock'. split.
    + intros j x Nj Ij. rewrite (nth_put_some _ _ _ _ _ N) in Nj. destruct (Nat.eqb_spec i j); [congruence|eauto].
    + intros j L. destruct (B j L) as [x [Nx Ix]]. rewrite (nth_put_some _ _ _ _ _ N). destruct (Nat.eqb_spec i j) as [->|]; [congruence|eauto].
  - subst. split.
    + intros j x Nj Ij. rewrite (nth_put_some _ _ _ _ _ N) in Nj. destruct (Nat.eqb_spec i j); [congruence|]. specialize (A j x Nj Ij). congruence.
    + intros j L. inversion L; subst. rewrite (nth_put_some _ _ _ _ _ N), Nat.eqb_refl. eauto.
  - subst lock'. split.
    + intros j x Nj Ij. rewrite (nth_put_some _ _ _ _ _ N) in Nj. destruct (Nat.eqb_spec i j); [subst|eauto]. eauto.
    + intros j L. destruct (B j L) as [x [Nx Ix]]. rewrite (nth_put_some _ _ _ _ _ N). destruct (Nat.eqb_spec i j) as [->|]; eauto.
  - subst lock'. split; [|discriminate].
    intros j x Nj Ij. rewrite (nth_put_some _ _ _ _ _ N) in Nj. destruct (Nat.eqb_spec i j); [congruence|].
    pose proof (A j x Nj Ij). pose proof (A i t N I1). congruence.
Qed.
Lemma mutex_calling : forall c programs, mutex (calling c programs).
Proof.
  intros c programs. split; [|discriminate]. intros i t N I0. apply nth_error_In in N. apply in_map_iff in N. destruct N as [ops [<- _]]. discriminate.
Qed.
Lemma asking_calling : forall c programs, asking c programs = calling c (map (map OAsk) programs).
Proof. intros. unfold asking, calling. rewrite map_map. reflexivity. Qed.

(** ** Every schedule ends, and with everything done *)
Definition rank (p : place) : nat :=
  match p with
  | PIdle => 0 | PLock1 _ => 8 | PCount _ => 7 | PUnlockMiss _ => 6 | PRead _ => 6 | PUnlockHit _ _ => 5
  | PEval _ _ => 5 | PLock2 _ _ => 3 | PWrite _ _ => 2 | PUnlock2 _ _ => 1
  end.
Definition left_for (t : thread) : nat := 9 * List.length (t_todo t) + rank (t_at t).
Definition sum (l : list nat) : nat := fold_right Nat.add 0 l.
Definition left_over (w : world) : nat := sum (map left_for (w_threads w)).
Lemma step_left : forall o i c lock t c' lock' t', t_step o i c lock t = Some (c', lock', t') -> S (left_for t') <= left_for t.
Proof.
  intros o i c lock t c' lock' t' S. unfold t_step in S. unfold left_for. destruct (t_at t) eqn:P.
  - destruct (t_todo t) as [|[q| |b|k] ops]; inversion S; subst; cbn [t_todo t_at List.length rank]; try lia. destruct (c_on c'); cbn [rank]; lia.
  - destruct lock; inversion S; subst. cbn. lia.
  - inversion S; subst. cbn. destruct (aget _ _); cbn; lia.
  - inversion S; subst. cbn. lia.
  - destruct (aget _ _); inversion S; subst; cbn; lia.
  - inversion S; subst. cbn. lia.
  - destruct (inherited _ c) as [c1 out]. inversion S; subst. destruct out; [destruct keep|..]; cbn; lia.
  - destruct lock; inversion S; subst. cbn. lia.
  - inversion S; subst. cbn. lia.
  - inversion S; subst. cbn. lia.
Qed.
Lemma sum_put : forall l i t t', nth_error l i = Some t -> S (left_for t') <= left_for t ->
  S (sum (map left_for (put_thread l i t'))) <= sum (map left_for l).
Proof.
  induction l as [|x l IH]; intros [|i] t t' N L; try discriminate; unfold sum in *; cbn [put_thread map fold_right nth_error] in *.
  - inversion N; subst. lia.
  - specialize (IH i t t' N L). lia.
Qed.
Lemma sched_left : forall o w is w', scheduled o w is w' -> List.length is + left_over w' <= left_over w.
Proof.
  intros o w is w' S. induction S; [simpl; lia|]. cbn [List.length]. inversion H as [? ? t c' lock' t' N T]; subst.
  pose proof (sum_put _ _ _ _ N (step_left _ _ _ _ _ _ _ _ T)). unfold left_over in *. cbn [w_threads] in *. lia.
Qed.
Lemma calling_left : forall c programs, left_over (calling c programs) = 9 * sum (map (@List.length op) programs).
Proof.
  intros c programs. unfold left_over, calling, sum. cbn [w_threads]. rewrite map_map.
  induction programs; cbn [map fold_right]; [reflexivity|]. rewrite IHprograms. unfold left_for. cbn [t_todo t_at rank]. lia.
Qed.
Lemma can_move : forall o w, mutex w -> finished w \/ exists i w', moves o w i w'.
Proof.
  intros o w [A B].
  assert (G : forall i t, nth_error (w_threads w) i = Some t -> (exists x, t_step o i (w_c w) (w_lock w) t = Some x) -> exists i w', moves o w i w').
  { intros i t N [[[c' l'] t'] S]. exists i. eexists. econstructor; eauto. }
  destruct (w_lock w) as [i|] eqn:L.
  - destruct (B i eq_refl) as [t [N I0]]. right. apply (G i t N). unfold t_step. destruct (t_at t); try discriminate; eauto.
    destruct (aget _ _); eauto.
  - assert (D : forall l, (forall t, In t l -> t_at t = PIdle /\ t_todo t = []) \/ exists i t, nth_error l i = Some t /\ ~ (t_at t = PIdle /\ t_todo t = [])).
    { induction l as [|x l [IH|[i [t [N IH]]]]]; [left; intros t []| |right; exists (S i), t; auto].
      assert (DX : (t_at x = PIdle /\ t_todo x = []) \/ ~ (t_at x = PIdle /\ t_todo x = [])).
      { destruct (t_at x); try (right; intros [Q _]; discriminate). destruct (t_todo x); [left; auto|right; intros [_ Q]; discriminate]. }
      destruct DX as [DX|DX]; [left; intros t [<-|I0]; auto|right; exists 0, x; auto]. }
    destruct (D (w_threads w)) as [F|[i [t [N U]]]]; [left; exact F|right]. apply (G i t N). unfold t_step.
    destruct (t_at t); try (eexists; reflexivity).
    + destruct (t_todo t) as [|[q| |b|k] ops]; try (eexists; reflexivity). elim U; auto.
    + destruct (aget _ _); eauto.
    + destruct (inherited _ _); eauto.
Qed.

(** ** Threads that only ask *)
Definition asks_only (w : world) : Prop := forall t, In t (w_threads w) -> forall a, In a (t_todo t) -> exists q, a = OAsk q.
Lemma step_todo : forall o i c lock t c' lock' t', t_step o i c lock t = Some (c', lock', t') -> incl (t_todo t') (t_todo t).
Proof.
  intros o i c lock t c' lock' t' S. unfold t_step in S. intros a I0. destruct (t_at t) eqn:P.
  - destruct (t_todo t) as [|[q| |b|k] ops]; inversion S; subst; cbn in I0; right; auto.
  - destruct lock; inversion S; subst. auto.
  - inversion S; subst. auto.
  - inversion S; subst. auto.
  - destruct (aget _ _); inversion S; subst; auto.
  - inversion S; subst. auto.
  - destruct (inherited _ c) as [c1 out]. inversion S; subst. destruct out; [destruct keep|..]; auto.
  - destruct lock; inversion S; subst. auto.
  - inversion S; subst. auto.
  - inversion S; subst. auto.
Qed.
Lemma in_put : forall l i t x, In x (put_thread l i t) -> x = t \/ In x l.
Proof. induction l; intros [|i] t x I0; simpl in *; try tauto. { destruct I0; auto. } destruct I0 as [->|I0]; auto. destruct (IHl i t x I0); auto. Qed.
Lemma asks_only_moves : forall o w i w', asks_only w -> moves o w i w' -> asks_only w'.
Proof.
  intros o w i w' A M. inversion M as [? ? t c' lock' t' N S]; subst. intros x I0 a Ia. cbn [w_threads] in I0.
  apply in_put in I0. destruct I0 as [->|I0]; [|eauto]. apply (A t); [eapply nth_error_In; eauto|]. eapply step_todo; eauto.
Qed.
Lemma asks_only_asking : forall c programs, asks_only (asking c programs).
Proof. intros c programs t I0 a Ia. apply in_map_iff in I0. destruct I0 as [qs [<- _]]. cbn in Ia. apply in_map_iff in Ia. destruct Ia as [q [<- _]]. eauto. Qed.
Lemma guarded : forall w x, mutex w -> asks_only w -> race_on x w -> x = TheEngine.
Proof.
  intros w x [A _] Q (i & j & t & t' & wr & wr' & NE & Ni & Nj & T & T' & W).
  assert (C : forall i t wr, nth_error (w_threads w) i = Some t -> touches t = Some (x, wr) ->
    (x = TheCache -> w_lock w = Some i) /\ (x = TheSwitch -> wr = false)).
  { clear - A Q. intros i t wr N T. pose proof (A i t N) as Ai. pose proof (Q t (nth_error_In _ _ N)) as Qt. unfold touches in T.
    destruct (t_at t); try (inversion T; subst; split; intros Z; try discriminate; auto; fail).
    destruct (t_todo t) as [|a ops]; [discriminate|]. destruct (Qt a (or_introl eq_refl)) as [q ->]. inversion T. split; intros; auto; discriminate. }
  destruct (C i t wr Ni T) as [C1 C2]. destruct (C j t' wr' Nj T') as [C3 C4]. destruct x; auto; exfalso.
  - specialize (C1 eq_refl). specialize (C3 eq_refl). congruence.
  - specialize (C2 eq_refl). specialize (C4 eq_refl). destruct W; congruence.
Qed.

(** ** The answers are right *)
Section Right.
  Variables (o : oracle) (e : enforcer) (rf pf : list string) (eft mat : string).
  Hypotheses (X : oracle_ext o) (R : ready o e rf pf eft mat).
  Notation good := (good e rf pf mat).
  Notation answer := (plain_answer o e).
  Notation faithful := (faithful o e rf pf eft mat).

  Definition place_ok (c : cached) (p : place) : Prop :=
    match p with
    | PIdle => True
    | PLock1 q | PCount q | PUnlockMiss q | PEval q _ => good q
    | PRead q => good q /\ aget (key_of q) (c_map c) <> None
    | PUnlockHit q b | PLock2 q b | PWrite q b | PUnlock2 q b => good q /\ answer q = Ok b
    end.
  Definition thread_ok (c : cached) (t : thread) : Prop :=
    (forall a, In a (t_todo t) -> exists q, a = OAsk q /\ good q) /\ place_ok c (t_at t) /\
    (forall q out, In (q, out) (t_said t) -> out = answer q).
  Definition right_world (w : world) : Prop := faithful (w_c w) /\ forall t, In t (w_threads w) -> thread_ok (w_c w) t.
  Definition grows (c c' : cached) : Prop := forall k, aget k (c_map c) <> None -> aget k (c_map c') <> None.

  Lemma faithful_put : forall c q b, faithful c -> good q -> answer q = Ok b -> faithful (mkC (c_base c) (aset (key_of q) b (c_map c)) (c_on c)).
  Proof.
    intros c q b (B & Rc & K) G P. split; [exact B|]. split; [exact Rc|]. cbn [c_map]. intros q' b' G' H'. rewrite aget_aset in H'. unfold key_of in H'.
    destruct (String.eqb_spec (cache_key (map DStr (snd q')) (fst q')) (cache_key (map DStr (snd q)) (fst q))) as [Ek|Nk]; [|exact (K q' b' G' H')].
    injection H' as <-. destruct G as [[L _] D]. destruct G' as [[L' _] D']. destruct (key_inj (snd q') (snd q) (fst q') (fst q)) as [E1 E2]; auto; [congruence|].
    replace q' with q; [exact P|]. destruct q, q'. cbn in *. congruence.
  Qed.
  Lemma said_ok : forall c t q out, thread_ok c t -> out = answer q -> thread_ok c (said t q out).
  Proof. intros c t q out (A & B & C) ->. split; [exact A|]. split; [exact Logic.I|]. cbn. intros q' out' I0. apply in_app_iff in I0. destruct I0 as [I0|[I0|[]]]; [auto|inversion I0; auto]. Qed.
  Lemma goto_ok : forall c t p, thread_ok c t -> place_ok c p -> thread_ok c (goto t p).
  Proof. intros c t p (A & B & C) P. split; [exact A|]. split; [exact P|exact C]. Qed.
  Lemma grows_ok : forall c c' t, grows c c' -> thread_ok c t -> thread_ok c' t.
  Proof. intros c c' t G (A & B & C). split; [exact A|]. split; [|exact C]. destruct (t_at t); cbn in *; auto. destruct B; auto. Qed.
  Lemma grows_put : forall c k b, grows c (mkC (c_base c) (aset k b (c_map c)) (c_on c)).
  Proof. intros c k b x H. cbn [c_map]. rewrite aget_aset. destruct (String.eqb x k); [discriminate|auto]. Qed.
  Lemma step_right : forall i c lock t c' lock' t', faithful c -> thread_ok c t -> t_step o i c lock t = Some (c', lock', t') ->
    faithful c' /\ grows c c' /\ thread_ok c' t'.
  Proof.
    intros i c lock t c' lock' t' F K S. unfold t_step in S. pose proof K as (A & B & C). destruct (t_at t) eqn:P; cbn [place_ok] in B.
    - destruct (t_todo t) as [|a ops] eqn:T; [discriminate|]. destruct (A a (or_introl eq_refl)) as [q [-> G]]. inversion S; subst.
      split; [auto|]. split; [intros k H; auto|]. split; [intros a I0; apply A; right; auto|]. split; [|exact C]. cbn. destruct (c_on c'); exact G.
    - destruct lock; inversion S; subst. split; [auto|]. split; [intros k H; auto|]. apply goto_ok; auto.
    - inversion S; subst. split; [auto|]. split; [intros k H; auto|]. apply goto_ok; auto. destruct (aget _ _) eqn:E; cbn; auto. split; [auto|congruence].
    - inversion S; subst. split; [auto|]. split; [intros k H; auto|]. apply goto_ok; auto.
    - destruct B as [G H]. destruct (aget (key_of q) (c_map c)) as [b|] eqn:E; [|congruence]. inversion S; subst. split; [auto|]. split; [intros k Z; auto|].
      apply goto_ok; auto. cbn. split; [auto|]. apply F; auto.
    - destruct B as [G H]. inversion S; subst. split; [auto|]. split; [intros k Z; auto|]. apply said_ok; auto.
    - destruct (base_step o e rf pf eft mat X R c q F B) as (ev' & E & R'). unfold inherited in S. rewrite E in S. inversion S; subst.
      assert (F' : faithful (mkC (set_ev (Some ev') e) (c_map c) (c_on c))). { split; [exists (Some ev'); reflexivity|]. split; [exact R'|]. apply F. }
      split; [exact F'|]. split; [intros k Z; exact Z|]. assert (K' : thread_ok (mkC (set_ev (Some ev') e) (c_map c) (c_on c)) t).
      { apply (grows_ok c); auto. intros k Z. exact Z. }
      destruct (answer q) as [b|x|u] eqn:Q; [destruct keep|..]; [apply goto_ok; auto; cbn; auto|apply said_ok; auto..].
    - destruct lock; inversion S; subst. split; [auto|]. split; [intros k H; auto|]. apply goto_ok; auto.
    - destruct B as [G H]. inversion S; subst. split; [apply faithful_put; auto|]. split; [apply grows_put|]. apply goto_ok; cbn; auto. apply (grows_ok c); auto. apply grows_put.
    - destruct B as [G H]. inversion S; subst. split; [auto|]. split; [intros k Z; auto|]. apply said_ok; auto.
  Qed.
  Lemma right_moves : forall w i w', right_world w -> moves o w i w' -> right_world w'.
  Proof.
    intros w i w' [F A] M. inversion M as [? ? t c' lock' t' N S]; subst.
    destruct (step_right i _ _ _ _ _ _ F (A t (nth_error_In _ _ N)) S) as [F' [G K]]. split; [exact F'|]. cbn [w_threads w_c].
    intros x I0. apply in_put in I0. destruct I0 as [->|I0]; [exact K|]. eapply grows_ok; eauto.
  Qed.
  Lemma right_asking : forall c programs, faithful c -> (forall qs q, In qs programs -> In q qs -> good q) -> right_world (asking c programs).
  Proof.
    intros c programs F G. split; [exact F|]. intros t I0. apply in_map_iff in I0. destruct I0 as [qs [<- I0]]. split; [|split; [exact Logic.I|intros ? ? []]].
    cbn. intros a Ia. apply in_map_iff in Ia. destruct Ia as [q [<- Iq]]. eauto.
  Qed.
End Right.

(** ** With every answer in the cache *)
Definition warm_place (c : cached) (p : place) : Prop :=
  match p with
  | PIdle | PUnlockHit _ _ => True
  | PLock1 q | PCount q | PRead q => aget (key_of q) (c_map c) <> None
  | _ => False
  end.
Definition warm (c : cached) (w : world) : Prop := w_c w = c /\ c_on c = true /\
  forall t, In t (w_threads w) -> warm_place c (t_at t) /\ forall a, In a (t_todo t) -> exists q, a = OAsk q /\ aget (key_of q) (c_map c) <> None.
Lemma warm_moves : forall o c w i w', warm c w -> moves o w i w' -> warm c w'.
Proof.
  intros o c w i w' [E [On A]] M. inversion M as [? ? t c' lock' t' N S]; subst w' i0 w0. destruct (A t (nth_error_In _ _ N)) as [P T].
  rewrite E in S. assert (K : c' = c /\ warm_place c (t_at t')).
  { unfold t_step in S. destruct (t_at t); cbn in P; try contradiction.
    - destruct (t_todo t) as [|a ops]; [discriminate|]. destruct (T a (or_introl eq_refl)) as [q [-> G]]. inversion S; subst. split; auto. cbn. rewrite On. exact G.
    - destruct (w_lock w); inversion S; subst. auto.
    - inversion S; subst. split; auto. cbn. destruct (aget _ _) eqn:Q; [cbn; congruence|contradiction].
    - destruct (aget _ _) eqn:Q; [|contradiction]. inversion S; subst. split; [auto|exact Logic.I].
    - inversion S; subst. split; [auto|exact Logic.I]. }
  destruct K as [-> K]. split; [reflexivity|]. split; [exact On|]. cbn [w_threads]. intros x I0. apply in_put in I0. destruct I0 as [->|I0]; auto. split; [exact K|].
  intros a Ia. apply T. eapply step_todo; eauto.
Qed.
Lemma warm_no_engine : forall c w, warm c w -> ~ race_on TheEngine w.
Proof.
  intros c w [_ [_ A]] (i & j & t & t' & wr & wr' & _ & N & _ & T & _). destruct (A t (nth_error_In _ _ N)) as [P Q]. unfold touches in T.
  destruct (t_at t); cbn in P; try discriminate; try contradiction. destruct (t_todo t) as [|a ops]; [discriminate|]. destruct (Q a (or_introl eq_refl)) as [q [-> _]]. discriminate.
Qed.
(** Requests that were answered are in the cache. *)
Lemma asked_kept : forall o qs c k, aget k (c_map c) <> None -> aget k (c_map (c_ask o qs c)) <> None.
Proof.
  induction qs as [|[m q] qs IH]; intros c k H; [exact H|]. cbn [c_ask]. apply IH. unfold c_EnforceWithMatcher, through_cache, inherited.
  destruct (negb (c_on c)); [destruct (EnforceWithMatcher _ _ _ _); exact H|]. destruct (aget (cache_key (map DStr q) m) (c_map c)); [exact H|].
  destruct (EnforceWithMatcher _ _ _ _) as [e' [b|x|u]]; cbn [fst c_map]; auto. rewrite aget_aset. destruct (String.eqb k _); [discriminate|exact H].
Qed.
Lemma ask_on : forall o qs c, c_on (c_ask o qs c) = c_on c.
Proof.
  induction qs as [|[m q] qs IH]; intros c; [reflexivity|]. cbn [c_ask]. rewrite IH. unfold c_EnforceWithMatcher, through_cache, inherited.
  destruct (c_on c) eqn:On; cbn [negb]; [|destruct (EnforceWithMatcher _ _ _ _); reflexivity]. destruct (aget _ (c_map c)); [exact On|].
  destruct (EnforceWithMatcher _ _ _ _) as [e' [b|x|u]]; first [exact On|reflexivity].
Qed.
Lemma asked_in : forall o e rf pf eft mat, oracle_ext o -> ready o e rf pf eft mat ->
  forall qs c, faithful o e rf pf eft mat c -> c_on c = true -> Forall (good e rf pf mat) qs ->
  forall q b, In q qs -> plain_answer o e q = Ok b -> aget (key_of q) (c_map (c_ask o qs c)) <> None.
Proof.
  intros o e rf pf eft mat X R. induction qs as [|[m r] qs IH]; intros c F On G q b I0 P; [destruct I0|]. cbn [c_ask].
  destruct (ask_step o e rf pf eft mat X R c (m, r) F (Forall_inv G)) as [F' A]. cbn [fst snd] in F', A.
  destruct I0 as [<-|I0].
  - apply asked_kept. clear - A P On. unfold key_of. cbn [fst snd]. unfold c_EnforceWithMatcher, through_cache, inherited in *. rewrite On in *. cbn [negb] in *.
    destruct (aget _ (c_map c)) eqn:E; [cbn [fst]; congruence|]. destruct (EnforceWithMatcher _ _ _ _) as [e' out]. cbn [snd] in A. subst out. rewrite P.
    cbn [fst c_map]. rewrite aget_aset, String.eqb_refl. discriminate.
  - eapply IH; eauto; [|exact (Forall_inv_tail G)]. pose proof (ask_on o [(m, r)] c) as Z. cbn [c_ask] in Z. congruence.
Qed.
