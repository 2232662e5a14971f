(** Proofs about the synchronised enforcer. *)
From Verif Require Import Base P_Base M_Synced S_Policy S_Synced.

(** ** Lists of threads *)
Lemma upd_same : forall A (l : list A) i x y, nth_error l i = Some y -> nth_error (upd i x l) i = Some x.
Proof. induction l; intros [|i] x y H; try discriminate; simpl in *; eauto. Qed.
Lemma upd_other : forall A (l : list A) i j x, i <> j -> nth_error (upd i x l) j = nth_error l j.
Proof. induction l; intros [|i] [|j] x H; simpl; auto; try congruence. Qed.
Lemma upd_length : forall A (l : list A) i x, List.length (upd i x l) = List.length l.
Proof. induction l; intros [|i] x; simpl; auto. Qed.
Lemma remove_one_notin : forall i l, NoDup l -> ~ In i (remove_one i l).
Proof.
  induction l; simpl; auto. intros N. inversion N; subst. destruct (Nat.eqb_spec i a); subst; auto.
  intros [->|H]; auto. apply IHl; auto.
Qed.
Lemma remove_one_in : forall i j l, In j (remove_one i l) -> In j l.
Proof. induction l; simpl; auto. destruct (Nat.eqb_spec i a); subst; auto. intros [->|H]; auto. Qed.
Lemma remove_one_other : forall i j l, i <> j -> In j l -> In j (remove_one i l).
Proof.
  induction l as [|a l IH]; simpl; auto. intros H [E|H']; destruct (Nat.eqb_spec i a); subst; simpl; auto; congruence.
Qed.
Lemma remove_one_nodup : forall i l, NoDup l -> NoDup (remove_one i l).
Proof.
  induction l; simpl; auto. intros N. inversion N; subst. destruct (Nat.eqb_spec i a); subst; auto. constructor; auto.
  intros H. apply H1. eapply remove_one_in; eauto.
Qed.

(** ** Points of effect *)
Lemma follows_app : forall t l l' p q r, follows t p l q -> follows t q l' r -> follows t p (l ++ l') r.
Proof.
  intros t l l' p q r H. induction H; simpl; intros; auto.
  - apply f_other; auto.
  - apply f_call; auto.
  - apply f_effect; auto.
  - apply f_return; auto.
Qed.
Lemma follows_snoc_other : forall t l x p q, follows t p l q -> thread_of x <> t -> follows t p (l ++ [x]) q.
Proof. intros. eapply follows_app; eauto. constructor; auto. constructor. Qed.
Lemma effects_app : forall a b, effects (a ++ b) = effects a ++ effects b.
Proof. induction a as [|[] a IH]; intros; simpl; rewrite ?IH; auto. Qed.
Lemma seen_app : forall a b, seen (a ++ b) = seen a ++ seen b.
Proof. induction a as [|[] a IH]; intros; simpl; rewrite ?IH; auto. Qed.

Lemma once_code : forall o c m, locked_once c = Some m -> code o c = under o m c.
Proof. intros o c m H. destruct c; simpl in H; try discriminate; injection H as <-; reflexivity. Qed.
Definition rel (m : mode) : res value -> prog := fun out => Release m (Done out).
Lemma under_eq : forall o c m, under o m c = Acquire m (Act (plain o c) (rel m)).
Proof. reflexivity. Qed.

(** ** The invariant of all schedules *)
Section Linear.
  Variables (o : oracle) (split : M value -> steps) (e0 : enforcer).
  Variable I : enforcer -> Prop.
  Variable okc : scall -> Prop.
  Hypothesis F : faithful_split split.
  Hypothesis okc_once : forall c, okc c -> locked_once c <> None.
  Hypothesis I_kept : forall c e, okc c -> I e -> I (fst (plain o c e)).
  Hypothesis I_shared : forall c e, okc c -> locked_once c = Some Shared -> I e -> fst (plain o c e) = e.

  Definition holds (m : mode) (i : nat) (w : world) : Prop :=
    match m with Exclusive => w_writer w = Some i | Shared => In i (w_readers w) end.
  Definition free (i : nat) (w : world) : Prop := w_writer w <> Some i /\ ~ In i (w_readers w).

  Definition status (b : enforcer) (l : list point) (w : world) (i : nat) (t : thread) : Prop :=
    match t_at t with
    | Idle => follows i Out l Out /\ free i w
    | At c p => exists m, locked_once c = Some m /\ okc c /\
        ((p = under o m c /\ follows i Out l (Called c) /\ free i w) \/
         (p = Act (plain o c) (rel m) /\ follows i Out l (Called c) /\ holds m i w /\ w_e w = b) \/
         (exists out, p = rel m out /\ follows i Out l (Called c) /\ holds m i w /\ plain o c b = (w_e w, out)) \/
         (exists out, p = Done out /\ follows i Out l (Applied c out) /\ free i w))
    | Inside c s k => exists m, locked_once c = Some m /\ okc c /\ k = rel m /\ follows i Out l (Called c) /\ holds m i w /\
        undisturbed s (w_e w) = plain o c b /\ (m = Shared -> never_writes b s)
    end.

  Record inv (b : enforcer) (l : list point) (w : world) : Prop := {
    i_seq : one_by_one o e0 (effects l) b;
    i_I : I b;
    i_excl : forall i, w_writer w = Some i -> w_readers w = [];
    i_state : w_writer w = None -> w_e w = b;
    i_nodup : NoDup (w_readers w);
    i_index : forall i, holds Exclusive i w \/ holds Shared i w -> i < List.length (w_threads w);
    i_todo : forall i t, nth_error (w_threads w) i = Some t -> Forall okc (t_todo t);
    i_status : forall i t, nth_error (w_threads w) i = Some t -> status b l w i t;
    i_none : forall i, nth_error (w_threads w) i = None -> follows i Out l Out }.

  Lemma free_not : forall m i w, free i w -> holds m i w -> False.
  Proof. intros [] i w [A B] H; simpl in *; auto. Qed.
  (** The state a thread sees while it holds the mutex shared. *)
  Lemma shared_state : forall b l w i, inv b l w -> holds Shared i w -> w_e w = b.
  Proof.
    intros b l w i V H. apply (i_state _ _ _ V). destruct (w_writer w) eqn:E; auto.
    simpl in H. rewrite (i_excl _ _ _ V _ E) in H. destruct H.
  Qed.

  (** Other threads are not affected by a step that keeps who holds the mutex. *)
  Lemma status_keep : forall b l x e w rs ts ts' j t,
    status b l (mkW e w rs ts) j t -> Forall (fun p => thread_of p <> j) x -> status b (l ++ x) (mkW e w rs ts') j t.
  Proof.
    intros b l x e w rs ts ts' j t H N.
    assert (FA : forall q, follows j Out l q -> follows j Out (l ++ x) q).
    { intros q Hq. eapply follows_app; eauto. clear - N. induction N; constructor; auto. }
    unfold status in *. destruct (t_at t).
    - destruct H as [A B]. split; auto.
    - destruct H as [m [A [A2 H]]]. exists m. split; auto. split; auto. destruct H as [[P [Q R]]|[[P [Q [R S]]]|[[out [P [Q [R S]]]]|[out [P [Q R]]]]]].
      + left. auto.
      + right. left. auto.
      + right. right. left. exists out. auto.
      + right. right. right. exists out. auto.
    - destruct H as [m [A [A2 [B [C [D [E G]]]]]]]. exists m. auto 10.
  Qed.
  (** A thread that does not hold the mutex does not depend on the state. *)
  Lemma status_free : forall b l x e w rs ts b' e' w' rs' ts' j t,
    status b l (mkW e w rs ts) j t -> Forall (fun p => thread_of p <> j) x ->
    (forall m, ~ holds m j (mkW e w rs ts)) -> (free j (mkW e w rs ts) -> free j (mkW e' w' rs' ts')) ->
    status b' (l ++ x) (mkW e' w' rs' ts') j t.
  Proof.
    intros b l x e w rs ts b' e' w' rs' ts' j t H N Hh Hf.
    assert (FA : forall q, follows j Out l q -> follows j Out (l ++ x) q).
    { intros q Hq. eapply follows_app; eauto. clear - N. induction N; constructor; auto. }
    unfold status in *. destruct (t_at t).
    - destruct H as [A B]. split; auto.
    - destruct H as [m [A [A2 H]]]. exists m. split; auto. split; auto. destruct H as [[P [Q R]]|[[P [Q [R S]]]|[[out [P [Q [R S]]]]|[out [P [Q R]]]]]].
      + left. auto.
      + elim (Hh m R).
      + elim (Hh m R).
      + right. right. right. exists out. auto.
    - destruct H as [m [A [A2 [B [C [D [E G]]]]]]]. elim (Hh m D).
  Qed.

  Lemma others : forall j i (x : list point), Forall (fun p => thread_of p = i) x -> j <> i -> Forall (fun p => thread_of p <> j) x.
  Proof. intros j i x H N. rewrite Forall_forall in *. intros p Hp E. rewrite (H _ Hp) in E. auto. Qed.
  Lemma none_upd : forall A (ts : list A) i t j, nth_error (upd i t ts) j = None -> nth_error ts j = None.
  Proof. intros A ts i t j H. apply nth_error_None. apply nth_error_None in H. rewrite upd_length in H. exact H. Qed.

  (** A step of thread [i] that changes neither the state nor the mutex. *)
  Lemma inv_local : forall b l x e w rs ts i t t',
    inv b l (mkW e w rs ts) -> nth_error ts i = Some t -> Forall (fun p => thread_of p = i) x -> effects x = [] ->
    Forall okc (t_todo t') -> status b (l ++ x) (mkW e w rs (set_thread i t' ts)) i t' ->
    inv b (l ++ x) (mkW e w rs (set_thread i t' ts)).
  Proof.
    intros b l x e w rs ts i t t' V Hi X E T St. destruct V. constructor; simpl in *; auto.
    - rewrite effects_app, E, app_nil_r. auto.
    - intros j H. unfold set_thread. rewrite upd_length. auto.
    - intros j u Hu. unfold set_thread in Hu. destruct (Nat.eq_dec i j) as [->|N].
      + rewrite (upd_same _ _ _ _ _ Hi) in Hu. injection Hu as <-. exact T.
      + rewrite upd_other in Hu by auto. eauto.
    - intros j u Hu. unfold set_thread in Hu. destruct (Nat.eq_dec i j) as [->|N].
      + rewrite (upd_same _ _ _ _ _ Hi) in Hu. injection Hu as <-. exact St.
      + rewrite upd_other in Hu by auto. eapply status_keep; eauto using others.
    - intros j Hj. unfold set_thread in Hj. apply none_upd in Hj. eapply follows_app; eauto.
      assert (N : j <> i) by congruence. pose proof (others j i x X N) as Y. clear - Y. induction Y; constructor; auto.
  Qed.
  Lemma inv_local0 : forall b l e w rs ts i t t',
    inv b l (mkW e w rs ts) -> nth_error ts i = Some t -> Forall okc (t_todo t') ->
    status b l (mkW e w rs (set_thread i t' ts)) i t' -> inv b l (mkW e w rs (set_thread i t' ts)).
  Proof.
    intros. rewrite <- (app_nil_r l). eapply inv_local; eauto. rewrite app_nil_r. auto.
  Qed.

  Ltac stat V H := pose proof (i_status _ _ _ V _ _ H) as St; pose proof (i_todo _ _ _ V _ _ H) as Td; unfold status in St; simpl in St, Td.
  Ltac which := match goal with H : _ \/ _ |- _ => destruct H as [[P [Q R]]|[[P [Q [R Z]]]|[[out' [P [Q [R Z]]]]|[out' [P [Q R]]]]]] end;
    try (unfold rel in *; discriminate).

  Lemma move_inv : forall b l w ev w', inv b l w -> moves o split w ev w' ->
    exists b' x, inv b' (l ++ x) w' /\ seen x = match ev with Some h => [h] | None => [] end.
  Proof.
    intros b l w ev w' V H. destruct H.
    - (* call *)
      stat V H. destruct St as [Fo Fr]. inversion Td; subst.
      exists b, [PCall i c]. split; [|reflexivity]. eapply inv_local; eauto. unfold status. simpl.
      destruct (locked_once c) as [m|] eqn:L; [|elim (okc_once c); auto].
      exists m. split; auto. split; auto. left. split; [apply once_code; auto|]. split; auto.
      eapply follows_app; eauto. apply f_call, f_nil.
    - (* return *)
      stat V H. destruct St as [m [L [K St]]]. which. injection P as <-.
      exists b, [PReturn i c out]. split; [|reflexivity]. eapply inv_local; eauto. unfold status. simpl. split; auto.
      eapply follows_app; eauto. apply f_return, f_nil.
    - (* enter *)
      stat V H. destruct St as [m [L [K St]]]. which. injection P as -> ->. simpl in Z. subst e.
      exists b, []. rewrite app_nil_r. split; [|reflexivity]. eapply inv_local0; eauto. unfold status. simpl.
      exists m. split; auto. split; auto. split; auto. split; auto. split; auto. split; [apply (proj1 F)|].
      intros ->. apply (proj2 F). apply I_shared; auto. apply (i_I _ _ _ V).
    - (* step *)
      stat V H. destruct St as [m [L [K [-> [Fo [Ho [U W]]]]]]]. rewrite H0 in U.
      destruct m.
      + (* shared: nothing changes *)
        assert (E : e = b) by (eapply (shared_state b l (mkW e w rs ts) i); eauto). subst e.
        specialize (W eq_refl). rewrite H0 in W. destruct W as [-> W].
        exists b, []. rewrite app_nil_r. split; [|reflexivity]. eapply inv_local0; eauto. unfold status. simpl.
        exists Shared. auto 10.
      + (* exclusive: nobody else is inside *)
        simpl in Ho. subst w. assert (R0 : rs = []) by (apply (i_excl _ _ _ V i eq_refl)). subst rs.
        exists b, []. rewrite app_nil_r. split; [|reflexivity].
        constructor; simpl.
        * apply (i_seq _ _ _ V).
        * apply (i_I _ _ _ V).
        * auto.
        * discriminate.
        * constructor.
        * intros j Hj. unfold set_thread. rewrite upd_length. apply (i_index _ _ _ V j). exact Hj.
        * intros j u Hu. unfold set_thread in Hu. destruct (Nat.eq_dec i j) as [->|N].
          { rewrite (upd_same _ _ _ _ _ H) in Hu. injection Hu as <-. exact Td. }
          { rewrite upd_other in Hu by auto. apply (i_todo _ _ _ V _ _ Hu). }
        * intros j u Hu. unfold set_thread in Hu. destruct (Nat.eq_dec i j) as [->|N].
          { rewrite (upd_same _ _ _ _ _ H) in Hu. injection Hu as <-. unfold status. simpl. exists Exclusive. repeat (split; auto). discriminate. }
          { rewrite upd_other in Hu by auto. rewrite <- (app_nil_r l). eapply status_free with (x := []); [apply (i_status _ _ _ V _ _ Hu)|auto| |].
            - intros [] Hm; simpl in Hm; congruence || tauto.
            - intros Hf. exact Hf. }
        * intros j Hj. apply none_upd in Hj. apply (i_none _ _ _ V j Hj).
    - (* leave *)
      stat V H. destruct St as [m [L [K [-> [Fo [Ho [U W]]]]]]].
      exists b, []. rewrite app_nil_r. split; [|reflexivity]. eapply inv_local0; eauto. unfold status. simpl.
      exists m. split; auto. split; auto. right. right. left. exists out. auto.
    - (* lock *)
      stat V H. destruct St as [m [L [K St]]]. which. rewrite under_eq in P. injection P as <- ->.
      assert (E : e = b) by (apply (i_state _ _ _ V eq_refl)).
      exists b, []. rewrite app_nil_r. split; [|reflexivity]. constructor; simpl.
      + apply (i_seq _ _ _ V).
      + apply (i_I _ _ _ V).
      + auto.
      + discriminate.
      + constructor.
      + intros j [Hj|[]]. injection Hj as <-. unfold set_thread. rewrite upd_length. apply nth_error_Some. congruence.
      + intros j u Hu. unfold set_thread in Hu. destruct (Nat.eq_dec i j) as [->|N].
        { rewrite (upd_same _ _ _ _ _ H) in Hu. injection Hu as <-. exact Td. }
        { rewrite upd_other in Hu by auto. apply (i_todo _ _ _ V _ _ Hu). }
      + intros j u Hu. unfold set_thread in Hu. destruct (Nat.eq_dec i j) as [->|N].
        { rewrite (upd_same _ _ _ _ _ H) in Hu. injection Hu as <-. unfold status. simpl. exists Exclusive.
          split; auto. split; auto. right. left. split; [reflexivity|]. split; [exact Q|]. split; [reflexivity|exact E]. }
        { rewrite upd_other in Hu by auto. rewrite <- (app_nil_r l). eapply status_free with (x := []); [apply (i_status _ _ _ V _ _ Hu)|auto| |].
          - intros [] Hm; simpl in Hm; congruence || tauto.
          - intros _. split; simpl; [congruence|auto]. }
      + intros j Hj. apply none_upd in Hj. apply (i_none _ _ _ V j Hj).
    - (* lock shared *)
      stat V H. destruct St as [m [L [K St]]]. which. rewrite under_eq in P. injection P as <- ->.
      assert (E : e = b) by (apply (i_state _ _ _ V eq_refl)).
      exists b, []. rewrite app_nil_r. split; [|reflexivity]. destruct R as [_ R]. simpl in R. constructor; simpl.
      + apply (i_seq _ _ _ V).
      + apply (i_I _ _ _ V).
      + discriminate.
      + auto.
      + constructor; auto. apply (i_nodup _ _ _ V).
      + intros j [Hj|[<-|Hj]]; [discriminate| |]; unfold set_thread; rewrite upd_length.
        * apply nth_error_Some. congruence.
        * apply (i_index _ _ _ V j). right. exact Hj.
      + intros j u Hu. unfold set_thread in Hu. destruct (Nat.eq_dec i j) as [->|N].
        { rewrite (upd_same _ _ _ _ _ H) in Hu. injection Hu as <-. exact Td. }
        { rewrite upd_other in Hu by auto. apply (i_todo _ _ _ V _ _ Hu). }
      + intros j u Hu. unfold set_thread in Hu. destruct (Nat.eq_dec i j) as [->|N].
        { rewrite (upd_same _ _ _ _ _ H) in Hu. injection Hu as <-. unfold status. simpl. exists Shared.
          split; auto. split; auto. right. left. split; [reflexivity|]. split; [exact Q|]. split; [left; reflexivity|exact E]. }
        { rewrite upd_other in Hu by auto. pose proof (i_status _ _ _ V _ _ Hu) as Sj. clear - Sj N. unfold status in *.
          assert (Fr : free j (mkW e None rs ts) -> free j (mkW e None (i :: rs) (set_thread i (mkT todo (At c (Act (plain o c) (rel Shared)))) ts))).
          { intros [A B]. split; simpl in *; auto. intros [?|?]; auto. }
          assert (Ho : forall m, holds m j (mkW e None rs ts) -> holds m j (mkW e None (i :: rs) (set_thread i (mkT todo (At c (Act (plain o c) (rel Shared)))) ts))).
          { intros [] Hm; simpl in *; auto. }
          destruct (t_at u).
          - destruct Sj. split; auto.
          - destruct Sj as [m [A [A2 Sj]]]. exists m. split; auto. split; auto. destruct Sj as [[P [Q R]]|[[P [Q [R Z]]]|[[out [P [Q [R Z]]]]|[out [P [Q R]]]]]].
            + left. auto.
            + right. left. auto.
            + right. right. left. exists out. auto.
            + right. right. right. exists out. auto.
          - destruct Sj as [m [A [A2 [B [C [D [E G]]]]]]]. exists m. auto 10. }
      + intros j Hj. apply none_upd in Hj. apply (i_none _ _ _ V j Hj).
    - (* unlock *)
      stat V H. destruct St as [m [L [K St]]]. which. injection P as <- ->. simpl in R, Z. subst w.
      assert (R0 : rs = []) by (apply (i_excl _ _ _ V i eq_refl)). subst rs.
      exists e, [PEffect i c out']. split; [|reflexivity].
      assert (FN : forall j, j <> i -> Forall (fun p => thread_of p <> j) [PEffect i c out']) by (intros j N; constructor; auto).
      constructor; simpl.
      + rewrite effects_app. simpl. eapply seq_snoc; [apply (i_seq _ _ _ V)|]. exact Z.
      + pose proof (I_kept c b K (i_I _ _ _ V)) as Ik. rewrite Z in Ik. exact Ik.
      + auto.
      + auto.
      + constructor.
      + intros j [Hj|[]]. discriminate.
      + intros j u Hu. unfold set_thread in Hu. destruct (Nat.eq_dec i j) as [->|N].
        { rewrite (upd_same _ _ _ _ _ H) in Hu. injection Hu as <-. exact Td. }
        { rewrite upd_other in Hu by auto. apply (i_todo _ _ _ V _ _ Hu). }
      + intros j u Hu. unfold set_thread in Hu. destruct (Nat.eq_dec i j) as [->|N].
        { rewrite (upd_same _ _ _ _ _ H) in Hu. injection Hu as <-. unfold status. simpl. exists Exclusive.
          split; auto. split; auto. right. right. right. exists out'. split; auto. split.
          - eapply follows_app; eauto. apply f_effect, f_nil.
          - split; simpl; [discriminate|auto]. }
        { rewrite upd_other in Hu by auto. eapply status_free; [apply (i_status _ _ _ V _ _ Hu)|auto| |].
          - intros [] Hm; simpl in Hm; congruence || tauto.
          - intros _. split; simpl; [discriminate|auto]. }
      + intros j Hj. apply none_upd in Hj. apply follows_snoc_other; [apply (i_none _ _ _ V j Hj)|]. simpl. congruence.
    - (* unlock shared *)
      stat V H. destruct St as [m [L [K St]]]. which. injection P as <- ->. simpl in R, Z.
      assert (E : e = b) by (eapply (shared_state b l (mkW e w rs ts) i); eauto). subst e.
      exists b, [PEffect i c out']. split; [|reflexivity]. constructor; simpl.
      + rewrite effects_app. simpl. eapply seq_snoc; [apply (i_seq _ _ _ V)|]. exact Z.
      + apply (i_I _ _ _ V).
      + intros j Hj. pose proof (i_excl _ _ _ V j Hj) as Z0. simpl in Z0. subst rs. destruct R.
      + auto.
      + apply remove_one_nodup. apply (i_nodup _ _ _ V).
      + intros j Hj. unfold set_thread. rewrite upd_length. apply (i_index _ _ _ V j). destruct Hj as [Hj|Hj]; [left; exact Hj|right; simpl in *; eapply remove_one_in; eauto].
      + intros j u Hu. unfold set_thread in Hu. destruct (Nat.eq_dec i j) as [->|N].
        { rewrite (upd_same _ _ _ _ _ H) in Hu. injection Hu as <-. exact Td. }
        { rewrite upd_other in Hu by auto. apply (i_todo _ _ _ V _ _ Hu). }
      + intros j u Hu. unfold set_thread in Hu. destruct (Nat.eq_dec i j) as [->|N].
        { rewrite (upd_same _ _ _ _ _ H) in Hu. injection Hu as <-. unfold status. simpl. exists Shared.
          split; auto. split; auto. right. right. right. exists out'. split; auto. split.
          - eapply follows_app; eauto. apply f_effect, f_nil.
          - split; simpl.
            + intros Hj. pose proof (i_excl _ _ _ V j Hj) as Z0. simpl in Z0. subst rs. destruct R.
            + apply remove_one_notin. apply (i_nodup _ _ _ V). }
        { rewrite upd_other in Hu by auto.
          assert (Sj : status b (l ++ [PEffect i c out']) (mkW b w rs ts) j u).
          { eapply status_keep; [apply (i_status _ _ _ V _ _ Hu)|]. constructor; auto. }
          clear - Sj N. unfold status in *.
          set (w' := mkW b w (remove_one i rs) (set_thread i (mkT todo (At c (Done out'))) ts)).
          assert (Fr : free j (mkW b w rs ts) -> free j w').
          { intros [A B]. split; simpl in *; auto. intros Hj. apply B. eapply remove_one_in; eauto. }
          assert (Ho : forall m, holds m j (mkW b w rs ts) -> holds m j w').
          { intros [] Hm; simpl in *; auto using remove_one_other. }
          destruct (t_at u).
          - destruct Sj. split; auto.
          - destruct Sj as [m [A [A2 Sj]]]. exists m. split; auto. split; auto. destruct Sj as [[P [Q R]]|[[P [Q [R Z]]]|[[out [P [Q [R Z]]]]|[out [P [Q R]]]]]].
            + left. auto.
            + right. left. auto.
            + right. right. left. exists out. auto.
            + right. right. right. exists out. auto.
          - destruct Sj as [m [A [A2 [B [C [D [E G]]]]]]]. exists m. auto 10. }
      + intros j Hj. apply none_upd in Hj. apply follows_snoc_other; [apply (i_none _ _ _ V j Hj)|]. simpl. congruence.
  Qed.

  Lemma schedule_inv : forall w evs w', schedule o split w evs w' -> forall b l, inv b l w ->
    exists b' x, inv b' (l ++ x) w' /\ seen x = evs.
  Proof.
    intros w evs w' H. induction H; intros b l V.
    - exists b, []. rewrite app_nil_r. auto.
    - destruct (move_inv _ _ _ _ _ V H) as [b1 [x1 [V1 S1]]]. destruct (IHschedule _ _ V1) as [b2 [x2 [V2 S2]]].
      exists b2, (x1 ++ x2). rewrite app_assoc. split; auto. rewrite seen_app, S1, S2. destruct ev; reflexivity.
  Qed.

  Lemma start_inv : forall programs, I e0 -> Forall (Forall okc) programs -> inv e0 [] (start e0 programs).
  Proof.
    intros programs Hi Hp. constructor; simpl; auto.
    - constructor.
    - constructor.
    - intros i [H|[]]. discriminate.
    - intros i t H. apply nth_error_In, in_map_iff in H. destruct H as [p [<- Hin]]. simpl. rewrite Forall_forall in Hp. auto.
    - intros i t H. apply nth_error_In, in_map_iff in H. destruct H as [p [<- Hin]]. unfold status. simpl. split; [constructor|]. split; simpl; auto. discriminate.
    - constructor.
  Qed.

  Lemma phase_of : forall b l w, inv b l w -> forall t, exists p, follows t Out l p.
  Proof.
    intros b l w V t. destruct (nth_error (w_threads w) t) as [u|] eqn:E.
    - pose proof (i_status _ _ _ V _ _ E) as St. unfold status in St. destruct (t_at u).
      + destruct St. eauto.
      + destruct St as [m [A [A2 Sj]]]. destruct Sj as [[P [Q R]]|[[P [Q [R Z]]]|[[out [P [Q [R Z]]]]|[out [P [Q R]]]]]]; eauto.
      + destruct St as [m [A [A2 [B [C [D [G1 G]]]]]]]. eauto.
    - exists Out. apply (i_none _ _ _ V _ E).
  Qed.

  Theorem linear : forall programs evs w, I e0 -> Forall (Forall okc) programs -> schedule o split (start e0 programs) evs w ->
    exists b, linearisable o e0 evs b /\ I b /\ (w_writer w = None -> w_e w = b).
  Proof.
    intros programs evs w Hi Hp H. destruct (schedule_inv _ _ _ H _ _ (start_inv programs Hi Hp)) as [b [x [V E]]]. simpl in V.
    exists b. split; [|split; [apply (i_I _ _ _ V)|apply (i_state _ _ _ V)]].
    exists x. split; auto. split; [eapply phase_of; eauto|]. apply (i_seq _ _ _ V).
  Qed.

  (** Nobody else is inside plain code while the mutex is held exclusively. *)
  Theorem exclusion : forall programs evs w i j, I e0 -> Forall (Forall okc) programs -> schedule o split (start e0 programs) evs w ->
    w_writer w = Some i -> inside w j -> j = i.
  Proof.
    intros programs evs w i j Hi Hp H Hw [todo [c [s [k Hj]]]]. destruct (schedule_inv _ _ _ H _ _ (start_inv programs Hi Hp)) as [b [x [V E]]]. simpl in V.
    pose proof (i_status _ _ _ V _ _ Hj) as St. unfold status in St. simpl in St. destruct St as [m [A [A2 [B [C [D [G1 G]]]]]]].
    destruct m; simpl in D; [rewrite (i_excl _ _ _ V _ Hw) in D; destruct D|congruence].
  Qed.

  (** Some thread can go on until all are done. *)
  Theorem progress : forall programs evs w, I e0 -> Forall (Forall okc) programs -> schedule o split (start e0 programs) evs w ->
    ~ all_done w -> exists ev w', moves o split w ev w'.
  Proof.
    intros programs evs w Hi Hp H Nd. destruct (schedule_inv _ _ _ H _ _ (start_inv programs Hi Hp)) as [b [x [V E]]]. simpl in V. clear H E.
    destruct w as [e wr rs ts].
    assert (Go : forall i t, nth_error ts i = Some t -> (exists m, holds m i (mkW e wr rs ts)) -> exists ev w', moves o split (mkW e wr rs ts) ev w').
    { intros i t Hi' [m Hm]. destruct t as [todo at_]. pose proof (i_status _ _ _ V _ _ Hi') as St. unfold status in St. simpl in St.
      destruct at_.
      - destruct St as [_ Fr]. elim (free_not _ _ _ Fr Hm).
      - destruct St as [m' [A [A2 St]]]. destruct St as [[P [Q R]]|[[P [Q [R Z]]]|[[out [P [Q [R Z]]]]|[out [P [Q R]]]]]]; subst p.
        + elim (free_not _ _ _ R Hm).
        + eexists. eexists. eapply m_enter; eauto.
        + destruct m'; eexists; eexists; [eapply m_unlock_shared|eapply m_unlock]; eauto.
        + elim (free_not _ _ _ R Hm).
      - destruct s as [out|f].
        + eexists. eexists. eapply m_leave; eauto.
        + destruct (f e) as [e' s'] eqn:Ef. eexists. eexists. eapply m_step; eauto. }
    destruct wr as [i|].
    { destruct (nth_error ts i) as [t|] eqn:Ei.
      - apply (Go i t Ei). exists Exclusive. reflexivity.
      - exfalso. apply nth_error_None in Ei. pose proof (i_index _ _ _ V i (or_introl eq_refl)) as Hl. simpl in Hl. apply (Nat.lt_irrefl i). eapply Nat.lt_le_trans; eauto. }
    destruct rs as [|i rs].
    2: { destruct (nth_error ts i) as [t|] eqn:Ei.
      - apply (Go i t Ei). exists Shared. left. reflexivity.
      - exfalso. apply nth_error_None in Ei. pose proof (i_index _ _ _ V i (or_intror (or_introl eq_refl))) as Hl. simpl in Hl. apply (Nat.lt_irrefl i). eapply Nat.lt_le_trans; eauto. }
    (* the mutex is free: a thread that is not done *)
    assert (Ex : exists i t, nth_error ts i = Some t /\ t <> mkT [] Idle).
    { unfold all_done in Nd. simpl in Nd. clear - Nd. induction ts as [|t ts IH].
      - elim Nd. constructor.
      - destruct t as [[|c todo] [| |]].
        + destruct IH as [i [t [A B]]]; [|exists (S i), t; auto]. intros Hf. apply Nd. constructor; auto.
        + exists 0. eexists. split; [reflexivity|discriminate].
        + exists 0. eexists. split; [reflexivity|discriminate].
        + exists 0. eexists. split; [reflexivity|discriminate].
        + exists 0. eexists. split; [reflexivity|discriminate].
        + exists 0. eexists. split; [reflexivity|discriminate]. }
    destruct Ex as [i [[todo at_] [Hi' Nt]]]. pose proof (i_status _ _ _ V _ _ Hi') as St. unfold status in St. simpl in St.
    destruct at_.
    - destruct todo as [|c todo]; [elim Nt; reflexivity|]. eexists. eexists. eapply m_call; eauto.
    - destruct St as [m' [A [A2 St]]]. destruct St as [[P [Q R]]|[[P [Q [R Z]]]|[[out [P [Q [R Z]]]]|[out [P [Q R]]]]]]; subst p.
      + destruct m'; eexists; eexists; [eapply m_lock_shared|eapply m_lock]; eauto.
      + eexists. eexists. eapply m_enter; eauto.
      + destruct m'; eexists; eexists; [eapply m_unlock_shared|eapply m_unlock]; eauto.
      + eexists. eexists. eapply m_return; eauto.
    - destruct s as [out|f].
      + eexists. eexists. eapply m_leave; eauto.
      + destruct (f e) as [e' s'] eqn:Ef. eexists. eexists. eapply m_step; eauto.
  Qed.
End Linear.

(** ** One thread alone *)
Fixpoint trace (held : bool) (p : prog) (e : enforcer) : option (bool * enforcer * res value) :=
  match p with
  | Done out => Some (held, e, out)
  | Act x k => let (e', out) := x e in trace held (k out) e'
  | Acquire _ q => if held then None else trace true q e
  | Release _ q => trace false q e
  end.
Lemma exec_trace : forall p h e, exec h p e = match trace h p e with Some (_, e', out) => Finished e' out | None => LocksItself end.
Proof. induction p; intros h e; simpl; auto. - destruct (x e). auto. - destruct h; auto. Qed.
Lemma trace_andthen : forall p k h e, trace h (andthen p k) e =
  match trace h p e with Some (h', e', out) => trace h' (k out) e' | None => None end.
Proof. induction p; intros k' h e; simpl; auto. - destruct (x e). auto. - destruct h; auto. Qed.
Lemma trace_locked : forall m p e, trace false (locked m p) e =
  match trace true p e with Some (_, e', out) => Some (false, e', out) | None => None end.
Proof. intros. unfold locked. cbn [trace]. rewrite trace_andthen. destruct (trace true p e) as [[[h e'] out]|]; auto. Qed.
Lemma trace_locked_again : forall m p e, trace true (locked m p) e = None.
Proof. reflexivity. Qed.
Lemma trace_twice : forall m m' p e, trace false (locked m (locked m' p)) e = None.
Proof. intros. rewrite trace_locked, trace_locked_again. reflexivity. Qed.

(** [p] takes and gives back the mutex properly and does what [x] does. *)
Definition does (p : prog) (x : M value) : Prop := forall e, trace false p e = Some (false, fst (x e), snd (x e)).
Lemma does_under : forall o m c, does (under o m c) (plain o c).
Proof. intros o m c e. unfold under. rewrite trace_locked. cbn. destruct (plain o c e). reflexivity. Qed.
Lemma does_act : forall x, does (act x) x.
Proof. intros x e. cbn. destruct (x e). reflexivity. Qed.
Lemma does_done : forall v, does (Done (Ok v)) (ret v).
Proof. intros v e. reflexivity. Qed.
Lemma does_bind : forall A (f : A -> value) p x k y, does p (as_value f x) -> (forall a, does (k (f a)) (y a)) -> does (pbind p k) (mbind x y).
Proof.
  intros A f p x k y Hp Hk e. unfold pbind. rewrite trace_andthen, Hp. unfold as_value, mbind.
  destruct (x e) as [e1 [a|t|u]]; simpl; auto. apply Hk.
Qed.
Lemma does_ext : forall p x y, does p x -> (forall e, x e = y e) -> does p y.
Proof. intros p x y H E e. rewrite <- E. apply H. Qed.
Lemma as_value_bind : forall A B (f : B -> value) (x : M A) (y : A -> M B) e,
  as_value f (mbind x y) e = mbind x (fun a => as_value f (y a)) e.
Proof. intros. unfold as_value, mbind. destruct (x e) as [e1 [a|t|u]]; auto. Qed.
Lemma as_value_ret : forall A (f : A -> value) a e, as_value f (ret a) e = ret (f a) e.
Proof. reflexivity. Qed.

Section Alone.
  Variable o : oracle.
  Lemma does_perms : forall d roles, does (s_perms_of o d roles) (vr (perms_of d roles)).
  Proof.
    intros d. induction roles as [|r rs IH].
    - apply does_done.
    - cbn [s_perms_of perms_of]. eapply does_ext; [|intros; symmetry; apply as_value_bind].
      eapply does_bind with (f := VRules); [destruct d; apply (does_under o Shared)|]. intros ps.
      eapply does_ext; [|intros; symmetry; apply as_value_bind].
      eapply does_bind with (f := VRules); [apply IH|]. intros rest. apply does_done.
  Qed.
  Lemma does_implicit_perms : forall u d, does (s_implicit_perms o u d) (vr (GetImplicitPermissionsForUser u d)).
  Proof.
    intros u d. unfold s_implicit_perms, GetImplicitPermissionsForUser. eapply does_ext; [|intros; symmetry; apply as_value_bind].
    eapply does_bind with (f := VNames); [apply does_act|]. intros roles. destruct (Nat.ltb 1 (List.length d)); [intros e; reflexivity|].
    apply does_perms.
  Qed.
  Lemma does_allowed : forall perm subs, does (s_allowed o perm subs) (vn (allowed_subjects o perm subs)).
  Proof.
    intros perm. induction subs as [|s ss IH].
    - apply does_done.
    - cbn [s_allowed allowed_subjects]. destruct (vget perm 0) as [p0|t|u] eqn:E0; try (intros e; reflexivity).
      cbn [bind]. destruct (vget perm 1) as [p1|t|u] eqn:E1; try (intros e; reflexivity). cbn [bind].
      eapply does_ext with (x := mbind (Enforce o [DStr s; DStr p0; DStr p1]) (fun ok => vn (rest <- allowed_subjects o perm ss ;; ret (if ok : bool then s :: rest else rest)))).
      2: { intros e. unfold vn, as_value, mbind, lift. destruct (Enforce o [DStr s; DStr p0; DStr p1] e) as [e1 [a|t|u]]; reflexivity. }
      eapply does_bind with (f := VBool); [apply (does_under o Exclusive (SEnforce _))|]. intros ok.
      eapply does_ext; [|intros; symmetry; apply as_value_bind].
      eapply does_bind with (f := VNames); [apply IH|]. intros rest. apply does_done.
  Qed.
  Lemma does_implicit_users : forall perm, does (s_implicit_users o perm) (vn (GetImplicitUsersForPermission o perm)).
  Proof.
    intros perm. unfold s_implicit_users, GetImplicitUsersForPermission.
    eapply does_ext; [|intros; symmetry; apply as_value_bind].
    eapply does_bind with (f := VNames); [apply (does_under o Shared SGetAllSubjects)|]. intros ps.
    eapply does_ext; [|intros; symmetry; apply as_value_bind].
    eapply does_bind with (f := VNames); [apply does_act|]. intros gi.
    eapply does_ext; [|intros; symmetry; apply as_value_bind].
    eapply does_bind with (f := VNames); [apply does_act|]. intros gs.
    eapply does_ext; [|intros; symmetry; apply as_value_bind].
    eapply does_bind with (f := VNames); [apply does_allowed|]. intros res. apply does_done.
  Qed.

  (** Removing with the overriding BuildRoleLinks behind it. *)
  Lemma trace_rebuild : forall (x : M bool) e,
    trace false (locked Exclusive (pbind (act (vb x)) (fun v => pbind (build_if_auto o) (fun _ => Done (Ok v))))) e =
    match x e with
    | (e1, Ok b) => if e_auto_build e1 then None else Some (false, e1, Ok (VBool b))
    | (e1, Throw t) => Some (false, e1, Throw t)
    | (e1, UB u) => Some (false, e1, UB u)
    end.
  Proof.
    intros x e. rewrite trace_locked. unfold pbind at 1. rewrite trace_andthen. unfold act. cbn [trace]. unfold vb, as_value, mbind.
    destruct (x e) as [e1 [b|t|u]]; cbn; auto. destruct (e_auto_build e1) eqn:E; cbn; auto.
  Qed.
  Lemma rebuild_plain : forall (x : M bool) e e1 b, x e = (e1, Ok b) -> e_auto_build e1 = false ->
    vb (v <- x ;; rebuild_if_auto ;;; ret v) e = (e1, Ok (VBool b)).
  Proof. intros x e e1 b E A. unfold vb, as_value, mbind. rewrite E. unfold rebuild_if_auto. rewrite A. reflexivity. Qed.

  Lemma alone : forall c e,
    (locks_itself c e /\ exec false (code o c) e = LocksItself) \/
    (~ locks_itself c e /\ exec false (code o c) e = Finished (fst (plain o c e)) (snd (plain o c e))).
  Proof.
    assert (D : forall c p e, does p (plain o c) -> exec false p e = Finished (fst (plain o c e)) (snd (plain o c e))).
    { intros c p e H. rewrite exec_trace, H. reflexivity. }
    assert (T : forall m m' p e, exec false (locked m (locked m' p)) e = LocksItself).
    { intros. rewrite exec_trace, trace_twice. reflexivity. }
    intros c e.
    destruct c; try (left; split; [exact Logic.I|apply T]);
      try (right; split; [intros []|apply D; apply does_under]); try (right; split; [intros []|apply D; apply does_act]).
    - (* LoadFilteredPolicy *) left. split; [exact Logic.I|reflexivity].
    - (* RemoveNamedGroupingPolicy *)
      change (code o (SRemoveNamedGroupingPolicy pt r)) with (s_RemoveNamedGroupingPolicy o pt r). unfold s_RemoveNamedGroupingPolicy.
      rewrite exec_trace, trace_rebuild. cbn [locks_itself plain]. unfold RemoveNamedGroupingPolicy.
      destruct (i_removePolicy "g" pt r e) as [e1 [b|t|u]] eqn:E.
      + destruct (e_auto_build e1) eqn:A.
        * left. split; auto. exists e1, b. auto.
        * right. split. { intros [e2 [b2 [E2 A2]]]. injection E2 as <- <-. congruence. }
          rewrite (rebuild_plain _ e e1 b E A). reflexivity.
      + right. split. { intros [e2 [b2 [E2 A2]]]. discriminate. } unfold vb, as_value, mbind. rewrite E. reflexivity.
      + right. split. { intros [e2 [b2 [E2 A2]]]. discriminate. } unfold vb, as_value, mbind. rewrite E. reflexivity.
    - (* RemoveFilteredNamedGroupingPolicy *)
      change (code o (SRemoveFilteredNamedGroupingPolicy pt i vals)) with (s_RemoveFilteredNamedGroupingPolicy o pt i vals). unfold s_RemoveFilteredNamedGroupingPolicy.
      rewrite exec_trace, trace_rebuild. cbn [locks_itself plain]. unfold RemoveFilteredNamedGroupingPolicy.
      destruct (i_removeFilteredPolicy "g" pt i vals e) as [e1 [b|t|u]] eqn:E.
      + destruct (e_auto_build e1) eqn:A.
        * left. split; auto. exists e1, b. auto.
        * right. split. { intros [e2 [b2 [E2 A2]]]. injection E2 as <- <-. congruence. }
          rewrite (rebuild_plain _ e e1 b E A). reflexivity.
      + right. split. { intros [e2 [b2 [E2 A2]]]. discriminate. } unfold vb, as_value, mbind. rewrite E. reflexivity.
      + right. split. { intros [e2 [b2 [E2 A2]]]. discriminate. } unfold vb, as_value, mbind. rewrite E. reflexivity.
    - (* AddRolesForUser *)
      destruct roles as [|r rs].
      + right. split; [intros H; apply H; reflexivity|]. reflexivity.
      + left. split; [discriminate|]. reflexivity.
    - (* DeleteUser *) left. split; [exact Logic.I|reflexivity].
    - left. split; [exact Logic.I|reflexivity].
    - right. split; [intros []|]. apply D. apply does_implicit_perms.
    - right. split; [intros []|]. apply D. apply does_implicit_users.
  Qed.
End Alone.
