(** Property C88, continued: copies share the adapter and the watcher. *)
From Verif Require Import Base P_Base M_Util M_RoleManager M_Effector M_Model M_Persist M_Eval M_Evaluator M_Enforcer M_Matcher M_Copies
  S_Effect S_Enforce S_Policy S_History S_Roles S_Sync S_Rbac S_Copies P_History P_Copies P_Presence E_Examples T_Rbac T_Copies.

(** All handles have the same pointers; an evaluator that was there stays the one. *)
Definition same_parts (ai wi : option nat) (vi : bool) (p : program) : Prop :=
  Forall (well (pr_ob p)) (pr_hs p) /\
  forall h, In h (pr_hs p) -> hd_adapter h = ai /\ hd_watcher h = wi /\ (vi = true -> hd_ev h = Some 0).
Lemma has_deref : forall A (l : list A) i, valid l i -> has (deref l i) = has i.
Proof. intros A l [k|] V; simpl in *; auto. destruct (nth_error l k) eqn:E; auto. apply nth_error_None in E. lia. Qed.
Lemma store_stays : forall A (l : list A) i v l' i', has v = has i -> store false l i v = (l', i') -> i' = i.
Proof. intros A l [k|] [a|] l' i' H S; simpl in *; try discriminate; inversion S; auto. Qed.
Lemma store_keeps : forall A (l : list A) k a l' i', store false l (Some k) (Some a) = (l', i') -> i' = Some k.
Proof. intros A l k a l' i' S. inversion S. auto. Qed.
Lemma same_parts_act : forall o a p p' out ai wi vi, leaves_parts a -> same_parts ai wi vi p -> act o a p = (p', out) -> same_parts ai wi vi p'.
Proof.
  intros o a p p' out ai wi vi L [W S] H. split; [eapply act_well; eauto|].
  destruct a as [i c|i|i k|i]; simpl in H, L; try tauto.
  - destruct L as [NP NM]. destruct (nth_error (pr_hs p) i) as [g|] eqn:G; [|inversion H; subst; auto].
    destruct (run o c (view (pr_ob p) g)) as [e1 o1] eqn:R. destruct (write_back c (pr_ob p) g e1) as [ob g'] eqn:WB. inversion H; subst. clear H. simpl.
    pose proof (presence_run o c NP NM (view (pr_ob p) g)) as (P1 & P2 & P3). rewrite R in *. simpl in P1, P2, P3.
    apply nth_error_In in G. rewrite Forall_forall in W. destruct (W g G) as [_ V2 V3 V4]. destruct (S g G) as (S1 & S2 & S3).
    rewrite has_deref in P1 by auto. rewrite has_deref in P2 by auto. rewrite has_deref in P3 by auto.
    intros h I. apply put_in in I. destruct I as [->|I]; [|auto]. unfold write_back in WB.
    assert (N1 : is_SetAdapter c = false) by (destruct c; simpl in *; tauto).
    assert (N2 : is_SetWatcher c = false) by (destruct c; simpl in *; tauto).
    assert (N3 : is_SetEvaluator c = false) by (destruct c; simpl in *; tauto). rewrite N1, N2, N3 in WB.
    destruct (store false (ob_adapters (pr_ob p)) (hd_adapter g) (e_adapter e1)) as [ads ai'] eqn:SA.
    destruct (store false (ob_watchers (pr_ob p)) (hd_watcher g) (e_watcher e1)) as [ws wi'] eqn:SW.
    destruct (store false (ob_evs (pr_ob p)) (hd_ev g) (e_ev e1)) as [evs vi'] eqn:SV.
    apply store_stays in SA; [|auto]. apply store_stays in SW; [|auto].
    assert (E : hd_adapter g' = ai' /\ hd_watcher g' = wi' /\ hd_ev g' = vi') by (destruct (is_SetModel c); inversion WB; auto).
    destruct E as (-> & -> & ->). split; [congruence|]. split; [congruence|]. intros V. specialize (S3 V). rewrite S3 in *. simpl in P3.
    destruct (e_ev e1); [|discriminate P3; auto]. apply store_keeps in SV. auto.
  - destruct (nth_error (pr_hs p) i) as [g|] eqn:G; inversion H; subst; auto. simpl. intros h I. apply in_app_iff in I.
    destruct I as [I|[<-|[]]]; auto. apply nth_error_In in G. auto.
  - destruct (nth_error (pr_hs p) k) as [g|] eqn:G; inversion H; subst; auto. simpl. intros h I. apply put_in in I.
    destruct I as [->|I]; auto. apply nth_error_In in G. auto.
Qed.

(** Whatever is done through any of them, as long as none is given another part, all
    copies have the same adapter and the same watcher in the same state: what one adapter
    was told through a copy, the original's adapter was told.  They have the same evaluator
    if there was one before the first copy was made. *)
Theorem C88_shared_parts : forall o e as' p i j a b,
  acts o (alone e) as' p -> Forall leaves_parts as' -> enforcer_of p i = Some a -> enforcer_of p j = Some b ->
  e_adapter a = e_adapter b /\ e_watcher a = e_watcher b /\ e_fs a = e_fs b /\ (e_ev e <> None -> e_ev a = e_ev b).
Proof.
  intros o e as' p i j a b A L Ia Jb.
  assert (SP : exists ai wi, same_parts ai wi (has (e_ev e)) (alone e)).
  { exists (match e_adapter e with Some _ => Some 0 | None => None end), (match e_watcher e with Some _ => Some 0 | None => None end).
    split. { apply Forall_forall. intros h I. apply (view_alone e h I). }
    intros h I. unfold alone in I. destruct (e_adapter e), (e_watcher e), (e_ev e); simpl in I; destruct I as [<-|[]]; simpl; repeat split; auto; discriminate. }
  destruct SP as (ai & wi & SP).
  assert (F : same_parts ai wi (has (e_ev e)) p).
  { clear Ia Jb. revert L SP. induction A; intros L SP; auto. inversion L; subst. apply IHA; auto. eapply same_parts_act; eauto. }
  destruct F as [_ F]. unfold enforcer_of in *.
  destruct (nth_error (pr_hs p) i) as [h|] eqn:N1; [|discriminate]. destruct (nth_error (pr_hs p) j) as [g|] eqn:N2; [|discriminate].
  inversion Ia; subst a. inversion Jb; subst b. destruct (F h (nth_error_In _ _ N1)) as (A1 & A2 & A3). destruct (F g (nth_error_In _ _ N2)) as (B1 & B2 & B3).
  simpl. rewrite A1, A2, B1, B2. repeat split; auto. intros V. destruct (e_ev e); [|congruence]. rewrite A3, B3; auto.
Qed.
Print Assumptions C88_shared_parts.

(** The adapter of an original hears of the rule its copy added. *)
Definition listening : adapter := AUser (mkUA true false true (fun _ _ => None) (fun _ => ([], None)) (fun _ => None) []).
Definition heard (x : option adapter) : nat := match x with Some (AUser u) => List.length (ua_log u) | _ => 0 end.
Example C88_shared_parts_case :
  let as' := [Copy 0; Call 1 (KAddPolicy "p" ["carol"; "data1"; "read"]); Call 1 (KEnforce "" (reqs ["carol"; "data1"; "read"]))] in
  let e := set_adapter (Some listening) (set_watcher (Some 0) org) in
  let p := go mini as' (alone e) in
  Forall leaves_parts as' /\ acts mini (alone e) as' p /\
  option_map (fun e => (heard (e_adapter e), e_watcher e)) (enforcer_of p 0) = Some (1, Some 1) /\
  option_map (fun e => has (e_ev e)) (enforcer_of p 0) = Some false /\ option_map (fun e => has (e_ev e)) (enforcer_of p 1) = Some true.
Proof.
  cbv zeta. split. { repeat (apply Forall_cons; [simpl; repeat split; auto; discriminate|]). apply Forall_nil. }
  split. { repeat (eapply acts_step; [vm_compute; reflexivity|discriminate|]). apply acts_nil. }
  repeat split; vm_compute; reflexivity.
Qed.
