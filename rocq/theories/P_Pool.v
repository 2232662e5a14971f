(** Proofs for property C98. *)
From Coq Require Import Lia.
From Verif Require Import Base P_Base M_Pool S_Pool P_Synced.

Lemma m_enforce_loads : forall o e ev matcher, m_enforce o e ev matcher =
  if negb (e_enabled e) then (ev, Ok (true, [])) else after_loading o e (load_g_functions (e_model e) (LoadFunctions ev)) matcher.
Proof. reflexivity. Qed.

(** What a thread is given when nobody interferes. *)
Definition own (c : fcall) : fcall * option fobj := (c, Some (made c)).

Lemma registered_own : forall l ev, registered ev (map fst l) (map own (map snd l)) =
  fold_left (fun ev kv => AddFunction ev (fst kv) (efun_of (made (snd kv)))) l ev.
Proof. induction l as [|[n c] l IH]; intros ev; [reflexivity|]. cbn [map fst snd registered own registers fold_left]. apply IH. Qed.

Lemma loads_registered : forall m ev, registered ev (map fst (loads m)) (map own (map snd (loads m))) = load_g_functions m (LoadFunctions ev).
Proof.
  intros m ev. rewrite registered_own. unfold loads. rewrite fold_left_app. unfold load_g_functions.
  change (fold_left _ [_; _; _; _; _; _; _; _; _] ev) with (LoadFunctions ev).
  generalize (LoadFunctions ev). induction (sec_of m "g") as [|kv l IH]; intros ev'; [reflexivity|]. cbn [map fold_left fst snd]. apply IH.
Qed.

Lemma EnforceGiven_own : forall o e params, EnforceGiven o (map own (map snd (loads (e_model e)))) params e = Enforce o params e.
Proof.
  intros o e params. unfold EnforceGiven, Enforce, EnforceWithMatcher, EnforceExWithMatcher, mbind, ret.
  destruct (get_ast (e_model e) "r" "r") as [r|x|u]; try reflexivity.
  destruct (negb _); [reflexivity|]. destruct (push_r _ _ _) as [ev1 [[]|x|u]]; try reflexivity.
  rewrite loads_registered, m_enforce_loads. destruct (e_enabled e); cbn [negb]; [|reflexivity].
  destruct (after_loading _ _ _ _) as [ev2 [[b x]|x|u]]; reflexivity.
Qed.

(** ** The keys *)
Lemma letters_S_inj : forall a b, letters_S a = letters_S b -> a = b.
Proof. induction a; destruct b; cbn; intros H; auto; try discriminate. f_equal. apply IHa. inversion H. auto. Qed.
Lemma pool_key_inj : forall c d, pool_key c = pool_key d -> k_type c = k_type d /\ k_narg c = k_narg d.
Proof.
  intros [t n r] [t' n' r'] H. unfold pool_key in H. cbn [k_type k_narg] in *.
  destruct t, t'; vm_compute in H; try (split; [reflexivity|]; inversion H; apply letters_S_inj; assumption); exfalso;
    destruct n, n'; vm_compute in H; inversion H.
Qed.

(** ** Schedules *)
Lemma f_sched_inv : forall (I : process -> Prop), (forall w i w', I w -> f_moves w i w' -> I w') ->
  forall w is w', f_schedule w is w' -> I w -> I w'.
Proof. intros I H w is w' S. induction S; eauto. Qed.

Lemma f_step_upd : forall w i w', f_moves w i w' -> exists t p' t', nth_error (p_threads w) i = Some t /\
  f_step (p_pool w) t = Some (p', t') /\ w' = mkP p' (upd i t' (p_threads w)) /\ i < List.length (p_threads w).
Proof. intros w i w' M. destruct M as [w i t p' t' N S]. exists t, p', t'. repeat split; auto. apply nth_error_Some. congruence. Qed.

Lemma nth_upd_same : forall {A} (l : list A) i x, i < List.length l -> nth_error (upd i x l) i = Some x.
Proof. induction l; destruct i; cbn; intros; try lia; auto. apply IHl. lia. Qed.
Lemma nth_upd_other : forall {A} (l : list A) i j x, i <> j -> nth_error (upd i x l) j = nth_error l j.
Proof. induction l; destruct i, j; cbn; intros; auto; try lia. Qed.

(** The calls a thread has made, is making and will make. *)
Definition its_calls (t : fthread) : list fcall :=
  map fst (ft_got t) ++ match ft_at t with FIdle => [] | FFind c | FFetch c | FStore c | FClear c => [c] end ++ ft_todo t.

Lemma f_step_calls : forall p t p' t', f_step p t = Some (p', t') -> its_calls t' = its_calls t.
Proof.
  intros p [todo at_ got] p' t' S. unfold f_step in S. cbn [ft_at ft_todo ft_got] in S. unfold its_calls.
  destruct at_ as [|c|c|c|c]; cbn [ft_at ft_todo ft_got].
  - destruct todo; [discriminate|]. injection S as <- <-. reflexivity.
  - injection S as <- <-. cbn. destruct (aget _ p); reflexivity.
  - destruct (aget _ p); injection S as <- <-; cbn; rewrite map_app, <- app_assoc; reflexivity.
  - injection S as <- <-. reflexivity.
  - injection S as <- <-. cbn. rewrite map_app, <- app_assoc. reflexivity.
Qed.

Definition follows (programs : list (list fcall)) (w : process) : Prop := map its_calls (p_threads w) = programs.
Lemma follows_threads : forall programs, follows programs (threads programs).
Proof. intros. unfold follows, threads. cbn [p_threads]. rewrite map_map. rewrite <- (map_id programs) at 2. apply map_ext. reflexivity. Qed.
Lemma map_upd_same : forall {A B} (f : A -> B) l i x y, nth_error l i = Some x -> f y = f x -> map f (upd i y l) = map f l.
Proof. induction l; destruct i; cbn; intros x y N E; try discriminate. { injection N as ->. rewrite E. reflexivity. } f_equal. eapply IHl; eauto. Qed.
Lemma follows_moves : forall programs w i w', follows programs w -> f_moves w i w' -> follows programs w'.
Proof.
  intros programs w i w' F M. destruct (f_step_upd _ _ _ M) as (t & p' & t' & N & S & -> & L). unfold follows in *. cbn [p_threads].
  rewrite <- F. eapply map_upd_same; eauto. eapply f_step_calls; eauto.
Qed.

(** ** The kind of what is given *)
Definition from (programs : list (list fcall)) (c : fcall) (f : option fobj) : Prop :=
  match f with None => True | Some f => exists d, In d (List.concat programs) /\ f = made d /\ pool_key d = pool_key c end.
Definition kinds (programs : list (list fcall)) (w : process) : Prop :=
  (forall k f, aget k (p_pool w) = Some (Some f) -> exists d, In d (List.concat programs) /\ f = made d /\ pool_key d = k) /\
  forall t c f, In t (p_threads w) -> In (c, f) (ft_got t) -> from programs c f.

Lemma in_upd : forall {A} (l : list A) i x y, In y (upd i x l) -> y = x \/ In y l.
Proof. induction l; destruct i; cbn; intros x y H; auto. - destruct H; auto. - destruct H as [H|H]; auto. destruct (IHl _ _ _ H); auto. Qed.

Lemma follows_in : forall programs w t c, follows programs w -> In t (p_threads w) -> In c (its_calls t) -> In c (List.concat programs).
Proof. intros programs w t c F It Ic. apply in_concat. exists (its_calls t). split; auto. rewrite <- F. apply in_map. auto. Qed.

Lemma kinds_moves : forall programs w i w', follows programs w /\ kinds programs w -> f_moves w i w' -> follows programs w' /\ kinds programs w'.
Proof.
  intros programs w i w' [F [KP KT]] M. split; [eapply follows_moves; eauto|].
  destruct (f_step_upd _ _ _ M) as (t & p' & t' & N & S & -> & L). pose proof (nth_error_In _ _ N) as It.
  assert (Mine : forall c, ft_at t = FStore c \/ ft_at t = FClear c -> In c (List.concat programs)).
  { intros c H. eapply follows_in; eauto. unfold its_calls. apply in_or_app. right. destruct H as [-> | ->]; left; reflexivity. }
  assert (KG : (forall k f, aget k p' = Some (Some f) -> exists d, In d (List.concat programs) /\ f = made d /\ pool_key d = k) /\
               forall c f, In (c, f) (ft_got t') -> from programs c f).
  { unfold f_step in S. destruct (ft_at t) as [|c|c|c|c] eqn:At.
    - destruct (ft_todo t); [discriminate|]. injection S as <- <-. split; auto. intros c0 f0 H. eapply KT; eauto.
    - injection S as <- <-. split; auto. intros d f H. eapply KT; eauto.
    - destruct (aget (pool_key c) (p_pool w)) as [f0|] eqn:G; injection S as <- <-.
      + split; auto. intros d f' H. cbn in H. apply in_app_or in H. destruct H as [H|[H|[]]]; [eapply KT; eauto|]. injection H as <- <-.
        destruct f0 as [g|]; [|exact Logic.I]. apply KP. exact G.
      + split.
        * intros k f H. rewrite aget_aset in H. destruct (String.eqb k (pool_key c)); [discriminate|]. auto.
        * intros d f' H. cbn in H. apply in_app_or in H. destruct H as [H|[H|[]]]; [eapply KT; eauto|]. injection H as <- <-. exact Logic.I.
    - injection S as <- <-. split; [|intros d f H; eapply KT; eauto]. intros k f H. rewrite aget_aset in H.
      destruct (String.eqb k (pool_key c)) eqn:Ek; [|auto]. apply String.eqb_eq in Ek. injection H as <-. exists c. repeat split; auto.
    - injection S as <- <-. split; [discriminate|]. intros d f' H. cbn in H. apply in_app_or in H. destruct H as [H|[H|[]]]; [eapply KT; eauto|]. injection H as <- <-.
      exists c. repeat split; auto. }
  destruct KG as [KG1 KG2]. split; [exact KG1|]. cbn [p_threads]. intros u c f Iu Ic. apply in_upd in Iu. destruct Iu as [-> |Iu]; [auto|]. eapply KT; eauto.
Qed.
Lemma kinds_threads : forall programs, kinds programs (threads programs).
Proof. intros programs. split; [discriminate|]. intros t c f It Ic. apply in_map_iff in It. destruct It as [p [<- _]]. destruct Ic. Qed.

(** ** By turns *)
Definition quiet (w : process) : Prop :=
  (forall t, In t (p_threads w) -> match ft_at t with FFetch _ => False | _ => True end) /\
  ((forall t c, In t (p_threads w) -> ft_at t <> FClear c) -> p_pool w = []) /\
  (forall t c f, In t (p_threads w) -> In (c, f) (ft_got t) -> f = Some (made c)).

Lemma quiet_moves : forall w i w', quiet w -> one_inside w -> f_moves w i w' -> quiet w'.
Proof.
  intros w i w' (Q1 & Q2 & Q3) One M. destruct (f_step_upd _ _ _ M) as (t & p' & t' & N & S & -> & L). pose proof (nth_error_In _ _ N) as It.
  assert (Others : ft_at t <> FIdle -> forall u c, In u (p_threads w) -> u <> t -> ft_at u <> FClear c).
  { intros In1 u c Iu Ne E. apply In_nth_error in Iu. destruct Iu as [j Nj]. assert (i = j). { eapply One; eauto. congruence. } subst j. congruence. }
  assert (Empty : match ft_at t with FFind _ | FStore _ => p_pool w = [] | _ => True end).
  { destruct (ft_at t) eqn:At; auto; apply Q2; intros u d Iu E; (destruct (In_nth_error _ _ Iu) as [j Nj]);
      (assert (i = j) by (eapply One; eauto; congruence)); subst j; congruence. }
  unfold f_step in S. pose proof (Q1 t It) as Q1t. destruct (ft_at t) as [|c|c|c|c] eqn:At; try contradiction.
  - destruct (ft_todo t) as [|c cs]; [discriminate|]. injection S as <- <-. repeat split.
    + intros u Iu. cbn [p_threads] in Iu. apply in_upd in Iu. destruct Iu as [-> |Iu]; [exact Logic.I|exact (Q1 u Iu)].
    + cbn [p_threads p_pool]. intros H. apply Q2. intros u d Iu E. destruct (In_nth_error _ _ Iu) as [j Nj]. destruct (Nat.eq_dec i j) as [<-|Ne]; [congruence|].
      apply (H u d); auto. apply nth_error_In with j. rewrite nth_upd_other; auto.
    + cbn [p_threads]. intros u d f Iu. apply in_upd in Iu. destruct Iu as [-> |Iu]; [cbn; eauto|eauto].
  - rewrite Empty in S. cbn [aget] in S. injection S as <- <-. repeat split.
    + intros u Iu. cbn [p_threads] in Iu. apply in_upd in Iu. destruct Iu as [-> |Iu]; [exact Logic.I|exact (Q1 u Iu)].
    + cbn [p_threads p_pool]. intros u d f Iu. apply in_upd in Iu. destruct Iu as [-> |Iu]; [cbn; eauto|eauto].
  - injection S as <- <-. repeat split.
    + intros u Iu. cbn [p_threads] in Iu. apply in_upd in Iu. destruct Iu as [-> |Iu]; [exact Logic.I|exact (Q1 u Iu)].
    + cbn [p_threads p_pool]. intros H. exfalso. apply (H (fgoto t (FClear c)) c); [|reflexivity]. apply nth_error_In with i. apply nth_upd_same. exact L.
    + cbn [p_threads]. intros u d f Iu. apply in_upd in Iu. destruct Iu as [-> |Iu]; [cbn; eauto|eauto].
  - injection S as <- <-. repeat split.
    + intros u Iu. cbn [p_threads] in Iu. apply in_upd in Iu. destruct Iu as [-> |Iu]; [exact Logic.I|exact (Q1 u Iu)].
    + cbn [p_threads]. intros u d f Iu. apply in_upd in Iu. destruct Iu as [-> |Iu]; [|eauto]. cbn. intros H. apply in_app_or in H. destruct H as [H|[H|[]]]; [eauto|].
      injection H as <- <-. reflexivity.
Qed.

Lemma turns_quiet : forall w is w', by_turns w is w' -> quiet w -> one_inside w -> quiet w' /\ one_inside w'.
Proof. intros w is w' S. induction S; intros Q O; auto. apply IHS; auto. eapply quiet_moves; eauto. Qed.
Lemma turns_schedule : forall w is w', by_turns w is w' -> f_schedule w is w'.
Proof. intros w is w' S. induction S; econstructor; eauto. Qed.
Lemma start_quiet : forall programs, quiet (threads programs) /\ one_inside (threads programs).
Proof.
  intros programs. split; [repeat split|].
  - intros t It. apply in_map_iff in It. destruct It as [p [<- _]]. exact Logic.I.
  - intros t c f It Ic. apply in_map_iff in It. destruct It as [p [<- _]]. destruct Ic.
  - intros i j t t' N _ A _. apply nth_error_In in N. apply in_map_iff in N. destruct N as [p [<- _]]. exfalso. apply A. reflexivity.
Qed.

(** One thread alone always goes by turns. *)
Lemma alone_turns : forall w is w', f_schedule w is w' -> List.length (p_threads w) <= 1 -> by_turns w is w'.
Proof.
  intros w is w' S. induction S as [w|w i w' is w'' M S IH]; intros L; [constructor|].
  assert (L' : List.length (p_threads w') <= 1).
  { destruct (f_step_upd _ _ _ M) as (t & p' & t' & N & St & -> & Lt). cbn [p_threads]. clear -L. generalize dependent i.
    assert (U : forall (l : list fthread) i, List.length (upd i t' l) = List.length l). { induction l; destruct i; cbn; auto. }
    intros. rewrite U. exact L. }
  econstructor; eauto. intros a b t t' Na Nb _ _. assert (a < List.length (p_threads w')) by (apply nth_error_Some; congruence).
  assert (b < List.length (p_threads w')) by (apply nth_error_Some; congruence). lia.
Qed.

(** Running a schedule. *)
Fixpoint f_run (w : process) (is : list nat) : option process :=
  match is with
  | [] => Some w
  | i :: is =>
      match nth_error (p_threads w) i with
      | Some t => match f_step (p_pool w) t with Some (p', t') => f_run (mkP p' (upd i t' (p_threads w))) is | None => None end
      | None => None
      end
  end.
Lemma f_run_schedule : forall is w w', f_run w is = Some w' -> f_schedule w is w'.
Proof.
  induction is as [|i is IH]; intros w w' H; cbn in H; [injection H as <-; constructor|].
  destruct (nth_error (p_threads w) i) as [t|] eqn:N; [|discriminate]. destruct (f_step (p_pool w) t) as [[p' t']|] eqn:S; [|discriminate].
  econstructor; [econstructor; eauto|auto].
Qed.

Definition insideb (t : fthread) : bool := match ft_at t with FIdle => false | _ => true end.
Definition oneb (w : process) : bool := Nat.leb (List.length (List.filter insideb (p_threads w))) 1.
Lemma oneb_one : forall w, oneb w = true -> one_inside w.
Proof.
  intros [p l] H. unfold oneb in H. cbn [p_threads] in H. apply Nat.leb_le in H. unfold one_inside. cbn [p_threads]. clear p.
  assert (Z : forall l i t, nth_error l i = Some t -> ft_at t <> FIdle -> 1 <= List.length (List.filter insideb l)).
  { induction l0 as [|x l0 IH]; intros i t N A; destruct i; cbn in N; try discriminate.
    - injection N as ->. cbn [List.filter]. assert (insideb t = true) as ->. { unfold insideb. destruct (ft_at t); congruence. } cbn. lia.
    - cbn [List.filter]. specialize (IH _ _ N A). destruct (insideb x); cbn; lia. }
  induction l as [|x l IH]; intros i j t t' Ni Nj Ai Aj; destruct i, j; cbn in Ni, Nj; try discriminate; auto.
  - injection Ni as ->. specialize (Z _ _ _ Nj Aj). cbn [List.filter] in H. assert (E : insideb t = true). { unfold insideb. destruct (ft_at t); congruence. } rewrite E in H. cbn in H. lia.
  - injection Nj as ->. specialize (Z _ _ _ Ni Ai). cbn [List.filter] in H. assert (E : insideb t' = true). { unfold insideb. destruct (ft_at t'); congruence. } rewrite E in H. cbn in H. lia.
  - f_equal. eapply IH; eauto. cbn [List.filter] in H. destruct (insideb x); cbn in H; lia.
Qed.
Fixpoint f_run_turns (w : process) (is : list nat) : option process :=
  match is with
  | [] => Some w
  | i :: is =>
      match nth_error (p_threads w) i with
      | Some t => match f_step (p_pool w) t with
                  | Some (p', t') => let w' := mkP p' (upd i t' (p_threads w)) in if oneb w' then f_run_turns w' is else None
                  | None => None
                  end
      | None => None
      end
  end.
Lemma f_run_by_turns : forall is w w', f_run_turns w is = Some w' -> by_turns w is w'.
Proof.
  induction is as [|i is IH]; intros w w' H; cbn [f_run_turns] in H; [injection H as <-; constructor|].
  destruct (nth_error (p_threads w) i) as [t|] eqn:N; [|discriminate]. destruct (f_step (p_pool w) t) as [[p' t']|] eqn:S; [|discriminate].
  cbn zeta in H. destruct (oneb _) eqn:O; [|discriminate]. eapply turns_step; [econstructor; eauto|apply oneb_one; auto|auto].
Qed.
Definition all_givenb (w : process) : bool := forallb (fun t => match ft_at t, ft_todo t with FIdle, [] => true | _, _ => false end) (p_threads w).
Lemma all_givenb_true : forall w, all_givenb w = true -> all_given w.
Proof. intros w H t It. unfold all_givenb in H. rewrite forallb_forall in H. specialize (H t It). destruct (ft_at t), (ft_todo t); auto; discriminate. Qed.
