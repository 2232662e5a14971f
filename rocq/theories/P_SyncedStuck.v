(** Calls that lock the policy mutex twice, among other threads; and a way to compute
    schedules. *)
From Verif Require Import Base P_Base M_Synced S_Policy S_Synced P_Synced.

(** ** Every call gives back what it took, the last taken first *)
Fixpoint brackets (hs : list mode) (p : prog) (hs' : list mode) : Prop :=
  match p with
  | Done _ => hs = hs'
  | Act _ k => forall out, brackets hs (k out) hs'
  | Acquire m q => brackets (m :: hs) q hs'
  | Release m q => exists h, hs = m :: h /\ brackets h q hs'
  end.
Lemma brackets_andthen : forall p hs h1 k h2, brackets hs p h1 -> (forall out, brackets h1 (k out) h2) -> brackets hs (andthen p k) h2.
Proof.
  induction p as [out|x k IHk|m p IHp|m p IHp]; simpl; intros hs h1 k' h2 H K.
  - subst. apply K.
  - intros out0. eapply IHk; eauto.
  - eapply IHp; eauto.
  - destruct H as [h [-> H]]. exists h. split; auto. eapply IHp; eauto.
Qed.
Lemma brackets_pbind : forall p hs h1 k, brackets hs p h1 -> (forall v, brackets h1 (k v) h1) -> brackets hs (pbind p k) h1.
Proof. intros. unfold pbind. eapply brackets_andthen; eauto. intros [v|t|u]; simpl; auto. Qed.
Lemma brackets_locked : forall m p hs, (forall h, brackets h p h) -> brackets hs (locked m p) hs.
Proof. intros. unfold locked. cbn [brackets]. eapply brackets_andthen; [apply H|]. intros out. simpl. eauto. Qed.
Lemma brackets_act : forall x h, brackets h (act x) h.
Proof. intros x h out. reflexivity. Qed.
Lemma brackets_under : forall o m c h, brackets h (under o m c) h.
Proof. intros. apply brackets_locked. apply brackets_act. Qed.
Lemma brackets_auto : forall o h, brackets h (build_if_auto o) h.
Proof.
  intros. unfold build_if_auto. apply brackets_pbind; [apply brackets_act|]. intros v.
  destruct (the_bool v); [apply brackets_under|reflexivity].
Qed.
Lemma brackets_code : forall o c h, brackets h (code o c) h.
Proof.
  intros o c h.
  assert (AD : forall user roles f h, brackets h (s_add_roles o user roles f) h).
  { intros user. induction roles as [|r rs IH]; intros f h0; cbn [s_add_roles]; [reflexivity|].
    apply brackets_pbind; auto. apply brackets_locked. apply brackets_under. }
  assert (RF : forall pt i vals h, brackets h (s_RemoveFilteredNamedGroupingPolicy o pt i vals) h).
  { intros. apply brackets_locked. intros h1. apply brackets_pbind; [apply brackets_act|]. intros v.
    apply brackets_pbind; [apply brackets_auto|reflexivity]. }
  assert (RG : forall pt r h, brackets h (s_RemoveNamedGroupingPolicy o pt r) h).
  { intros. apply brackets_locked. intros h1. apply brackets_pbind; [apply brackets_act|]. intros v.
    apply brackets_pbind; [apply brackets_auto|reflexivity]. }
  assert (DL : forall i n h, brackets h (s_delete o i n) h).
  { intros. unfold s_delete. apply brackets_pbind; [apply brackets_locked; intros; apply RF|]. intros r1.
    apply brackets_pbind; [apply brackets_locked; intros; apply brackets_under|reflexivity]. }
  assert (PO : forall d roles h, brackets h (s_perms_of o d roles) h).
  { intros d. induction roles as [|r rs IH]; intros h0; cbn [s_perms_of]; [reflexivity|].
    apply brackets_pbind; [destruct d; apply brackets_under|]. intros. apply brackets_pbind; auto. reflexivity. }
  assert (AL : forall perm ss h, brackets h (s_allowed o perm ss) h).
  { intros perm. induction ss as [|s ss IH]; intros h0; cbn [s_allowed]; [reflexivity|].
    destruct (let! p0 := vget perm 0 in let! p1 := vget perm 1 in Ok (p0, p1)) as [[p0 p1]|t|u]; try reflexivity.
    apply brackets_pbind; [apply brackets_under|]. intros. apply brackets_pbind; auto. reflexivity. }
  destruct c; cbn [code];
    try apply brackets_under; try apply brackets_act; try (apply brackets_locked; intros; apply brackets_under);
    try apply AD; try apply RF; try apply RG; try apply DL; try (apply brackets_locked; intros; apply RF); try (apply brackets_locked; intros; apply RG).
  - apply brackets_locked. intros h1. apply brackets_pbind; [apply brackets_under|]. intros.
    apply brackets_pbind; [apply brackets_act|]. intros. apply brackets_auto.
  - unfold s_implicit_perms. apply brackets_pbind; [apply brackets_act|]. intros.
    destruct (Nat.ltb 1 (List.length domain)); [reflexivity|apply PO].
  - unfold s_implicit_users. apply brackets_pbind; [apply brackets_under|]. intros.
    apply brackets_pbind; [apply brackets_act|]. intros. apply brackets_pbind; [apply brackets_act|]. intros.
    apply brackets_pbind; [apply AL|]. reflexivity.
Qed.

Lemma relock_code : forall o c, never_returns c -> exists m q, code o c = Acquire Exclusive (Acquire m q).
Proof.
  intros o c H. destruct c; cbn [never_returns] in H; try tauto; try (do 2 eexists; reflexivity).
  destruct roles as [|r rs]; [congruence|]. do 2 eexists. reflexivity.
Qed.

Section Stuck.
  Variable o : oracle.
  Variable split : M value -> steps.

  (** What a thread holding [hs] may be doing. *)
  Definition fits_held (hs : list mode) (t : thread) : Prop :=
    match t_at t with
    | Idle => hs = []
    | At c p => brackets hs p [] /\
        (never_returns c -> (p = code o c /\ hs = []) \/ (In Exclusive hs /\ exists m q, p = Acquire m q))
    | Inside c s k => (forall out, brackets hs (k out) []) /\ ~ never_returns c
    end.
  Fixpoint exclusives (hs : list mode) : nat :=
    match hs with [] => 0 | Exclusive :: h => S (exclusives h) | Shared :: h => exclusives h end.
  Lemma exclusives_in : forall hs, In Exclusive hs -> 0 < exclusives hs.
  Proof. induction hs as [|[] hs IH]; simpl; intros H; try tauto; try lia. destruct H; [discriminate|auto]. Qed.
  Definition held_inv (hs : nat -> list mode) (w : world) : Prop :=
    (forall i t, nth_error (w_threads w) i = Some t -> fits_held (hs i) t) /\
    (forall i, exclusives (hs i) <= 1) /\
    (forall i, w_writer w = Some i <-> exclusives (hs i) = 1).
  Definition put (i : nat) (h : list mode) (hs : nat -> list mode) : nat -> list mode :=
    fun j => if Nat.eqb j i then h else hs j.
  Lemma put_same : forall i h hs, put i h hs i = h.
  Proof. intros. unfold put. rewrite Nat.eqb_refl. reflexivity. Qed.
  Lemma put_other : forall i h hs j, j <> i -> put i h hs j = hs j.
  Proof. intros. unfold put. apply Nat.eqb_neq in H. rewrite H. reflexivity. Qed.
  Lemma threads_put : forall hs ts i t t' h, (forall j x, nth_error ts j = Some x -> fits_held (hs j) x) ->
    nth_error ts i = Some t -> fits_held h t' ->
    forall j x, nth_error (set_thread i t' ts) j = Some x -> fits_held (put i h hs j) x.
  Proof.
    intros hs ts i t t' h H N F j x X. unfold set_thread in X. destruct (Nat.eq_dec j i) as [->|D].
    - rewrite (upd_same _ _ _ _ _ N) in X. injection X as <-. rewrite put_same. exact F.
    - rewrite upd_other in X by auto. rewrite put_other by auto. eauto.
  Qed.
  Lemma held_move : forall w ev w', moves o split w ev w' -> forall hs, held_inv hs w ->
    (exists hs', held_inv hs' w') /\ (forall i c out, ev = Some (Return i c out) -> ~ never_returns c).
  Proof.
    intros w ev w' Mv hs [T [C W]].
    assert (SAME : forall e wr rs ts i t t', w = mkW e wr rs ts -> nth_error ts i = Some t -> fits_held (hs i) t' ->
      forall e' rs', held_inv hs (mkW e' wr rs' (set_thread i t' ts))).
    { intros e wr rs ts i t t' -> N F e' rs'. split; [|split]; auto. cbn [w_threads].
      intros j x X. pose proof (threads_put hs ts i t t' (hs i) T N F j x X) as Y. unfold put in Y.
      destruct (Nat.eqb_spec j i); subst; auto. }
    destruct Mv as [e wr rs ts i c todo N|e wr rs ts i todo c out N|e wr rs ts i todo c x k N|e wr rs ts i todo c f k e' s' N E
      |e wr rs ts i todo c out k N|e ts i todo c q N|e rs ts i todo c q N|e wr rs ts i todo c q N|e wr rs ts i todo c q N];
      pose proof (T i _ N) as F; cbn [w_threads fits_held t_at] in F.
    - split; [|discriminate]. exists hs. eapply SAME; eauto. unfold fits_held in *. simpl in *. rewrite F. split; [apply brackets_code|auto].
    - unfold fits_held in F. simpl in F. destruct F as [F1 F2]. split.
      + exists hs. eapply SAME; eauto.
      + intros i0 c0 out0 E K. injection E as -> -> ->. destruct (F2 K) as [[Q _]|[_ [m [q Q]]]]; [|discriminate].
        destruct (relock_code o _ K) as [m [q' R]]. congruence.
    - unfold fits_held in F. simpl in F. destruct F as [F1 F2]. split; [|discriminate]. exists hs. eapply SAME; eauto.
      unfold fits_held. simpl. split; auto. intros K. destruct (F2 K) as [[Q _]|[_ [m [q Q]]]]; [|discriminate].
      destruct (relock_code o _ K) as [m [q' R]]. congruence.
    - split; [|discriminate]. exists hs. eapply SAME; eauto.
    - unfold fits_held in F. simpl in F. destruct F as [F1 F2]. split; [|discriminate]. exists hs. eapply SAME; eauto.
      unfold fits_held. simpl. split; auto. tauto.
    - unfold fits_held in F. simpl in F. destruct F as [F1 F2]. split; [|discriminate]. exists (put i (Exclusive :: hs i) hs).
      assert (Z : forall j, exclusives (hs j) = 0).
      { intros j. specialize (C j). destruct (W j) as [_ X]. destruct (exclusives (hs j)) as [|[|n]]; auto; [|lia]. specialize (X eq_refl). discriminate. }
      split; [|split].
      + cbn [w_threads]. eapply threads_put; eauto. unfold fits_held. simpl. split; auto. intros K.
        destruct (F2 K) as [[Q _]|[IN _]].
        * destruct (relock_code o _ K) as [m [q' R]]. right. split; auto. exists m, q'. congruence.
        * apply exclusives_in in IN. rewrite Z in IN. lia.
      + intros j. unfold put. destruct (Nat.eqb_spec j i); simpl; rewrite Z; lia.
      + intros j. simpl. unfold put. destruct (Nat.eqb_spec j i) as [->|D]; simpl; rewrite Z; split; auto; try lia; intros E; injection E as ->; congruence.
    - unfold fits_held in F. simpl in F. destruct F as [F1 F2]. split; [|discriminate]. exists (put i (Shared :: hs i) hs).
      split; [|split].
      + cbn [w_threads]. eapply threads_put; eauto. unfold fits_held. simpl. split; auto. intros K.
        destruct (F2 K) as [[Q _]|[IN _]].
        * destruct (relock_code o _ K) as [m [q' R]]. congruence.
        * exfalso. apply exclusives_in in IN. specialize (C i). destruct (W i) as [_ X].
          assert (E1 : exclusives (hs i) = 1) by lia. apply X in E1. discriminate.
      + intros j. unfold put. destruct (Nat.eqb_spec j i) as [->|]; simpl; auto.
      + intros j. unfold put. destruct (Nat.eqb_spec j i) as [->|]; apply W.
    - unfold fits_held in F. simpl in F. destruct F as [[h [HS F1]] F2]. split; [|discriminate]. exists (put i h hs).
      assert (E1 : exclusives (hs i) = 1). { specialize (C i). rewrite HS in *. simpl in *. lia. }
      assert (EH : exclusives h = 0). { rewrite HS in E1. simpl in E1. lia. }
      split; [|split].
      + cbn [w_threads]. eapply threads_put; eauto. unfold fits_held. simpl. split; auto. intros K.
        destruct (F2 K) as [[Q _]|[_ [m [q' Q]]]]; [|discriminate]. destruct (relock_code o _ K) as [m [q' R]]. congruence.
      + intros j. unfold put. destruct (Nat.eqb_spec j i) as [->|]; auto. lia.
      + intros j. simpl. unfold put. destruct (Nat.eqb_spec j i) as [->|D]; split; try discriminate; try lia.
        intros E2. apply W in E2. apply W in E1. simpl in *. congruence.
    - unfold fits_held in F. simpl in F. destruct F as [[h [HS F1]] F2]. split; [|discriminate]. exists (put i h hs).
      split; [|split].
      + cbn [w_threads]. eapply threads_put; eauto. unfold fits_held. simpl. split; auto. intros K.
        destruct (F2 K) as [[Q _]|[_ [m [q' Q]]]]; [|discriminate]. destruct (relock_code o _ K) as [m [q' R]]. congruence.
      + intros j. unfold put. specialize (C j). destruct (Nat.eqb_spec j i) as [->|]; auto. rewrite HS in C. exact C.
      + intros j. unfold put. specialize (W j). destruct (Nat.eqb_spec j i) as [->|]; auto. rewrite HS in W. exact W.
  Qed.
  Lemma held_start : forall e programs, held_inv (fun _ => []) (start e programs).
  Proof.
    intros. split; [|split]; simpl; auto.
    - intros i t H. apply nth_error_In in H. apply in_map_iff in H. destruct H as [p [<- _]]. reflexivity.
    - intros i. split; discriminate.
  Qed.
  Lemma held_schedule : forall w evs w', schedule o split w evs w' -> forall hs, held_inv hs w ->
    (exists hs', held_inv hs' w') /\ (forall i c out, In (Return i c out) evs -> ~ never_returns c).
  Proof.
    induction 1 as [w|w ev w1 evs w2 Mv S IH]; intros hs H.
    - split; eauto.
    - destruct (held_move _ _ _ Mv hs H) as [[h1 H1] R1]. destruct (IH h1 H1) as [H2 R2]. split; auto.
      intros i c out IN. destruct ev as [ev|]; [destruct IN as [->|IN]|]; eauto.
  Qed.

  (** A thread in its second request keeps the mutex for ever. *)
  Definition stuck (i : nat) (w : world) : Prop :=
    w_writer w = Some i /\ exists todo c m q, nth_error (w_threads w) i = Some (mkT todo (At c (Acquire m q))).
  Lemma stuck_move : forall w ev w', moves o split w ev w' -> forall hs i, held_inv hs w -> stuck i w -> stuck i w'.
  Proof.
    intros w ev w' Mv hs i [T [C W]] [WR [todo0 [c0 [m0 [q0 N0]]]]].
    assert (KEEP : forall e' rs' ts j t t', w_threads w = ts -> nth_error ts j = Some t -> t <> mkT todo0 (At c0 (Acquire m0 q0)) ->
      stuck i (mkW e' (Some i) rs' (set_thread j t' ts))).
    { intros e' rs' ts j t t' <- N D. split; auto. exists todo0, c0, m0, q0. simpl. unfold set_thread. rewrite upd_other; auto.
      intros ->. congruence. }
    destruct Mv as [e wr rs ts j c todo N|e wr rs ts j todo c out N|e wr rs ts j todo c x k N|e wr rs ts j todo c f k e' s' N E
      |e wr rs ts j todo c out k N|e ts j todo c q N|e rs ts j todo c q N|e wr rs ts j todo c q N|e wr rs ts j todo c q N];
      cbn [w_writer w_threads] in *; subst; try discriminate; try (eapply KEEP; eauto; discriminate).
    pose proof (T j _ N) as F. unfold fits_held in F. simpl in F. destruct F as [[h [HS _]] _].
    assert (E1 : exclusives (hs j) = 1). { specialize (C j). rewrite HS in *. simpl in *. lia. }
    apply W in E1. injection E1 as ->. congruence.
  Qed.
  Lemma stuck_schedule : forall w evs w', schedule o split w evs w' -> forall hs i, held_inv hs w -> stuck i w -> stuck i w'.
  Proof.
    induction 1 as [w|w ev w1 evs w2 Mv S IH]; intros hs i H K; auto.
    destruct (held_move _ _ _ Mv hs H) as [[h1 H1] _]. eapply IH; eauto. eapply stuck_move; eauto.
  Qed.

  (** ** Computing schedules: each number is the thread that moves next *)
  Definition move_of (i : nat) (w : world) : option (option event * world) :=
    match nth_error (w_threads w) i with
    | Some (mkT (c :: todo) Idle) => Some (Some (Call i c), mkW (w_e w) (w_writer w) (w_readers w) (set_thread i (mkT todo (At c (code o c))) (w_threads w)))
    | Some (mkT todo (At c (Done out))) => Some (Some (Return i c out), mkW (w_e w) (w_writer w) (w_readers w) (set_thread i (mkT todo Idle) (w_threads w)))
    | Some (mkT todo (At c (Act x k))) => Some (None, mkW (w_e w) (w_writer w) (w_readers w) (set_thread i (mkT todo (Inside c (split x) k)) (w_threads w)))
    | Some (mkT todo (Inside c (Step f) k)) =>
        let (e', s') := f (w_e w) in Some (None, mkW e' (w_writer w) (w_readers w) (set_thread i (mkT todo (Inside c s' k)) (w_threads w)))
    | Some (mkT todo (Inside c (Fin out) k)) => Some (None, mkW (w_e w) (w_writer w) (w_readers w) (set_thread i (mkT todo (At c (k out))) (w_threads w)))
    | Some (mkT todo (At c (Acquire m q))) =>
        match m, w_writer w, w_readers w with
        | Exclusive, None, [] => Some (None, mkW (w_e w) (Some i) [] (set_thread i (mkT todo (At c q)) (w_threads w)))
        | Shared, None, rs => Some (None, mkW (w_e w) None (i :: rs) (set_thread i (mkT todo (At c q)) (w_threads w)))
        | _, _, _ => None
        end
    | Some (mkT todo (At c (Release Exclusive q))) => Some (None, mkW (w_e w) None (w_readers w) (set_thread i (mkT todo (At c q)) (w_threads w)))
    | Some (mkT todo (At c (Release Shared q))) => Some (None, mkW (w_e w) (w_writer w) (remove_one i (w_readers w)) (set_thread i (mkT todo (At c q)) (w_threads w)))
    | _ => None
    end.
  Lemma move_of_moves : forall i w ev w', move_of i w = Some (ev, w') -> moves o split w ev w'.
  Proof.
    intros i [e wr rs ts] ev w' H. unfold move_of in H. cbn [w_threads w_e w_writer w_readers] in H.
    destruct (nth_error ts i) as [[todo [|c p|c s k]]|] eqn:N; try discriminate.
    - destruct todo as [|c todo]; try discriminate. injection H as <- <-. apply m_call. auto.
    - assert (G : match p with
      | Done out => Some (Some (Return i c out), mkW e wr rs (set_thread i (mkT todo Idle) ts))
      | Act x k => Some (None, mkW e wr rs (set_thread i (mkT todo (Inside c (split x) k)) ts))
      | Acquire m q =>
        match m, wr, rs with
        | Exclusive, None, [] => Some (None, mkW e (Some i) [] (set_thread i (mkT todo (At c q)) ts))
        | Shared, None, rs => Some (None, mkW e None (i :: rs) (set_thread i (mkT todo (At c q)) ts))
        | _, _, _ => None
        end
      | Release Exclusive q => Some (None, mkW e None rs (set_thread i (mkT todo (At c q)) ts))
      | Release Shared q => Some (None, mkW e wr (remove_one i rs) (set_thread i (mkT todo (At c q)) ts)) end = Some (ev, w')).
      { destruct todo, p; exact H. }
      clear H. destruct p as [out|x k|m q|m q].
      + injection G as <- <-. apply m_return. auto.
      + injection G as <- <-. apply m_enter. auto.
      + destruct m, wr; try discriminate.
        * assert (G' : (None, mkW e None (i :: rs) (set_thread i (mkT todo (At c q)) ts)) = (ev, w')) by (destruct rs; injection G as <- <-; reflexivity).
          injection G' as <- <-. apply m_lock_shared. auto.
        * destruct rs; try discriminate. injection G as <- <-. apply m_lock. auto.
      + destruct m; injection G as <- <-; [apply m_unlock_shared|apply m_unlock]; auto.
    - assert (G : match s with
        | Fin out => Some (None, mkW e wr rs (set_thread i (mkT todo (At c (k out))) ts))
        | Step f => let (e', s') := f e in Some (None, mkW e' wr rs (set_thread i (mkT todo (Inside c s' k)) ts)) end = Some (ev, w')).
      { destruct todo, s; exact H. }
      destruct s as [out|f].
      + injection G as <- <-. apply m_leave. auto.
      + destruct (f e) as [e' s'] eqn:E. injection G as <- <-. eapply m_step; eauto.
  Qed.
  Fixpoint drive (is : list nat) (w : world) : option (list event * world) :=
    match is with
    | [] => Some ([], w)
    | i :: is' =>
        match move_of i w with
        | Some (ev, w1) =>
            match drive is' w1 with
            | Some (evs, w2) => Some (match ev with Some x => x :: evs | None => evs end, w2)
            | None => None
            end
        | None => None
        end
    end.
  Lemma drive_schedule : forall is w evs w', drive is w = Some (evs, w') -> schedule o split w evs w'.
  Proof.
    induction is as [|i is IH]; simpl; intros w evs w' H.
    - injection H as <- <-. constructor.
    - destruct (move_of i w) as [[ev w1]|] eqn:Mv; try discriminate. destruct (drive is w1) as [[evs1 w2]|] eqn:D; try discriminate.
      injection H as <- <-. econstructor; [eapply move_of_moves; eauto|eauto].
  Qed.
End Stuck.

(** Code that runs in one step. *)
Definition in_one_step (x : M value) : steps := Step (fun e => let (e', out) := x e in (e', Fin out)).
Lemma in_one_step_faithful : faithful_split in_one_step.
Proof.
  split.
  - intros x e. unfold in_one_step. cbn [undisturbed]. destruct (x e). reflexivity.
  - intros x e H. unfold in_one_step. cbn [never_writes]. destruct (x e). simpl in *. auto.
Qed.

(** ** Reading off a history *)
Definition phases_step (ph : nat -> phase) (t : nat) (p : phase) : nat -> phase := fun u => if Nat.eqb u t then p else ph u.
Definition all_follow (ph : nat -> phase) (l : list point) : Prop := forall t, exists q, follows t (ph t) l q.
Lemma follow_call : forall ph t c l, all_follow ph (PCall t c :: l) -> ph t = Out /\ all_follow (phases_step ph t (Called c)) l.
Proof.
  intros ph t c l H. split.
  - destruct (H t) as [q F]. inversion F; subst; simpl in *; congruence.
  - intros u. destruct (H u) as [q F]. unfold phases_step. destruct (Nat.eqb_spec u t) as [->|D].
    + inversion F; subst; simpl in *; try congruence. eauto.
    + inversion F; subst; simpl in *; try congruence. eauto.
Qed.
Lemma follow_effect : forall ph t c out l, all_follow ph (PEffect t c out :: l) -> ph t = Called c /\ all_follow (phases_step ph t (Applied c out)) l.
Proof.
  intros ph t c out l H. split.
  - destruct (H t) as [q F]. inversion F; subst; simpl in *; congruence.
  - intros u. destruct (H u) as [q F]. unfold phases_step. destruct (Nat.eqb_spec u t) as [->|D].
    + inversion F; subst; simpl in *; try congruence. eauto.
    + inversion F; subst; simpl in *; try congruence. eauto.
Qed.
Lemma follow_return : forall ph t c out l, all_follow ph (PReturn t c out :: l) -> ph t = Applied c out /\ all_follow (phases_step ph t Out) l.
Proof.
  intros ph t c out l H. split.
  - destruct (H t) as [q F]. inversion F; subst; simpl in *; congruence.
  - intros u. destruct (H u) as [q F]. unfold phases_step. destruct (Nat.eqb_spec u t) as [->|D].
    + inversion F; subst; simpl in *; try congruence. eauto.
    + inversion F; subst; simpl in *; try congruence. eauto.
Qed.

(** The results of calls made one after the other. *)
Fixpoint results (o : oracle) (e : enforcer) (cs : list scall) : list (res value) :=
  match cs with
  | [] => []
  | c :: cs' => snd (plain o c e) :: results o (fst (plain o c e)) cs'
  end.
Fixpoint final (o : oracle) (e : enforcer) (cs : list scall) : enforcer :=
  match cs with [] => e | c :: cs' => final o (fst (plain o c e)) cs' end.
Lemma results_app : forall o a b e, results o e (a ++ b) = results o e a ++ results o (final o e a) b.
Proof. induction a; simpl; intros; auto. f_equal. auto. Qed.
Lemma final_app : forall o a b e, final o e (a ++ b) = final o (final o e a) b.
Proof. induction a; simpl; intros; auto. Qed.
Lemma one_by_one_results : forall o e l e', one_by_one o e l e' -> map snd l = results o e (map fst l) /\ e' = final o e (map fst l).
Proof.
  induction 1 as [e|e l e1 c out e2 H [IH1 IH2] E]; [auto|]. rewrite !map_app, results_app, final_app, <- IH1, <- IH2. simpl. rewrite E. auto.
Qed.
