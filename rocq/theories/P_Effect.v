(** MergeEffects, called after every rule as Enforcer::m_enforce does, computes the
    specification of S_Effect. *)
From Verif Require Import Base P_Base M_Util M_Effector M_RoleManager M_Model M_Persist M_Eval M_Evaluator M_Enforcer S_Effect.

(** The loop of m_enforce with the evaluation of the rules already done. *)
Fixpoint ploop (eft_expr : string) (len : nat) (todo : list (res outcome)) (idx : nat)
         (effects : list effect) (matches : list bool) (last : res (effect * option nat))
  : res (effect * option nat) :=
  match todo with
  | [] => last
  | v :: rest =>
      let! (b, eft) := v in
      let effects' := upd idx eft effects in
      let matches' := upd idx b matches in
      match MergeEffects eft_expr effects' matches' idx len with
      | Ok (Indeterminate, x) =>
          ploop eft_expr len rest (S idx) effects' matches' (Ok (Indeterminate, x))
      | r => r
      end
  end.

Lemma upd_app : forall A (l : list A) x y t, upd (List.length l) x (l ++ y :: t) = l ++ x :: t.
Proof. induction l; simpl; intros; congruence. Qed.

Lemma upd_mid : forall A (l : list A) x d n,
  upd (List.length l) x (l ++ repeat d (S n)) = (l ++ [x]) ++ repeat d n.
Proof. intros. simpl. rewrite upd_app, <- app_assoc. reflexivity. Qed.

Lemma vget_app : forall A (l : list A) x t, vget (l ++ x :: t) (List.length l) = Ok x.
Proof. intros. unfold vget. rewrite nth_error_app2, Nat.sub_diag; auto. Qed.

Lemma vget_Ok : forall A (l : list A) i x, vget l i = Ok x -> nth_error l i = Some x.
Proof. unfold vget. intros. destruct (nth_error l i); congruence. Qed.

Definition effs (os : list outcome) := map snd os.
Definition mats (os : list outcome) := map fst os.

Definition fill_e (os : list outcome) n := effs os ++ repeat Indeterminate n.
Definition fill_m (os : list outcome) n := mats os ++ repeat false n.

Lemma upd_fill_e : forall os o n, upd (List.length os) (snd o) (fill_e os (S n)) = fill_e (os ++ [o]) n.
Proof.
  intros. unfold fill_e, effs. replace (List.length os) with (List.length (map snd os)) by apply map_length.
  rewrite upd_mid, map_app. reflexivity.
Qed.
Lemma upd_fill_m : forall os o n, upd (List.length os) (fst o) (fill_m os (S n)) = fill_m (os ++ [o]) n.
Proof.
  intros. unfold fill_m, mats. replace (List.length os) with (List.length (map fst os)) by apply map_length.
  rewrite upd_mid, map_app. reflexivity.
Qed.

Lemma vget_fill_e : forall os o n, vget (fill_e (os ++ [o]) n) (List.length os) = Ok (snd o).
Proof.
  intros. unfold fill_e, effs. rewrite map_app, <- app_assoc. simpl.
  replace (List.length os) with (List.length (map snd os)) by apply map_length. apply vget_app.
Qed.
Lemma vget_fill_m : forall os o n, vget (fill_m (os ++ [o]) n) (List.length os) = Ok (fst o).
Proof.
  intros. unfold fill_m, mats. rewrite map_app, <- app_assoc. simpl.
  replace (List.length os) with (List.length (map fst os)) by apply map_length. apply vget_app.
Qed.

(** scan_allow over complete arrays. *)
Lemma scan_allow_spec : forall os i,
  (exists pre post, os = pre ++ (true, Allow) :: post /\ ~ In (true, Allow) pre /\
     scan_allow (effs os) (mats os) i = Ok (Allow, Some (i + List.length pre)))
  \/ (~ In (true, Allow) os /\ scan_allow (effs os) (mats os) i = Ok (Indeterminate, None)).
Proof.
  induction os as [|[b e] os IH]; intros i; simpl.
  - right. auto.
  - assert (D : (b, e) = (true, Allow) \/ (b, e) <> (true, Allow)).
    { destruct b, e; auto; right; congruence. }
    destruct D as [D|D].
    + inversion D; subst. left. exists [], os. simpl. rewrite Nat.add_0_r. auto.
    + assert (S : scan_allow (e :: effs os) (b :: mats os) i = scan_allow (effs os) (mats os) (S i)).
      { simpl. destruct b, e; simpl; auto; congruence. }
      simpl in S. rewrite S. clear S.
      destruct (IH (S i)) as [[pre [post [E [N Q]]]]|[N Q]].
      * left. exists ((b, e) :: pre), post. subst. simpl. rewrite Q.
        repeat split; auto. { intros [C|C]; auto. } f_equal. f_equal. f_equal. lia.
      * right. split; auto. intros [C|C]; auto.
Qed.

(** scan_priority from the end: the last decisive entry. *)
Lemma scan_priority_none : forall es ms k,
  List.length es = List.length ms -> k <= List.length es ->
  (forall i, i < k -> nth_error ms i = Some true -> nth_error es i = Some Indeterminate) ->
  scan_priority es ms k = Ok (Indeterminate, None).
Proof.
  induction k; simpl; intros L K H; auto.
  unfold vget. destruct (nth_error ms k) eqn:E.
  2:{ apply nth_error_None in E. lia. }
  simpl. destruct b; simpl.
  - rewrite (H k) by auto. simpl. apply IHk; auto; lia.
  - apply IHk; auto; lia.
Qed.

Lemma scan_priority_hit : forall es ms i k e,
  List.length es = List.length ms -> i < k -> k <= List.length es ->
  nth_error ms i = Some true -> nth_error es i = Some e -> e <> Indeterminate ->
  (forall j, i < j < k -> nth_error ms j = Some false) ->
  scan_priority es ms k = Ok (e, Some i).
Proof.
  induction k; simpl; intros e L I K M E N H; [lia|].
  destruct (Nat.eq_dec i k) as [->|D].
  - unfold vget. rewrite M. simpl. rewrite E. simpl. destruct e; auto. congruence.
  - unfold vget. rewrite (H k) by lia. simpl. apply IHk; auto; try lia. intros; apply H; lia.
Qed.

Lemma nth_fill_m_tail : forall os n j, List.length os <= j -> nth_error (fill_m os n) j <> Some true.
Proof.
  intros. unfold fill_m. rewrite nth_error_app2 by (unfold mats; rewrite map_length; auto).
  intro C. apply nth_error_In in C. apply repeat_spec in C. discriminate.
Qed.

Lemma fill_len : forall os n, List.length (fill_e os n) = List.length os + n.
Proof. intros. unfold fill_e, effs. rewrite app_length, map_length, repeat_length. reflexivity. Qed.
Lemma fill_len_m : forall os n, List.length (fill_m os n) = List.length os + n.
Proof. intros. unfold fill_m, mats. rewrite app_length, map_length, repeat_length. reflexivity. Qed.

Lemma scan_priority_fill : forall done o n,
  Forall (fun o => ~ decisive o) done ->
  scan_priority (fill_e (done ++ [o]) n) (fill_m (done ++ [o]) n) (List.length (fill_e (done ++ [o]) n)) =
  Ok (match o with
      | (true, Allow) => (Allow, Some (List.length done))
      | (true, Deny) => (Deny, Some (List.length done))
      | _ => (Indeterminate, None)
      end).
Proof.
  intros done o n F.
  assert (HD : forall e, o = (true, e) -> e <> Indeterminate ->
     scan_priority (fill_e (done ++ [o]) n) (fill_m (done ++ [o]) n) (List.length (fill_e (done ++ [o]) n)) =
     Ok (e, Some (List.length done))).
  { intros e -> NE. apply scan_priority_hit; auto.
    - rewrite fill_len, fill_len_m. reflexivity.
    - rewrite fill_len, app_length. simpl. lia.
    - exact (vget_Ok _ _ _ _ (vget_fill_m done (true, e) n)).
    - exact (vget_Ok _ _ _ _ (vget_fill_e done (true, e) n)).
    - intros j [J1 J2]. pose proof (nth_fill_m_tail (done ++ [(true, e)]) n j) as T.
      destruct (nth_error (fill_m (done ++ [(true, e)]) n) j) as [[]|] eqn:X; auto.
      + exfalso. apply T; auto. rewrite app_length. simpl. lia.
      + apply nth_error_None in X. rewrite fill_len_m in X. rewrite fill_len in J2. lia. }
  assert (HN : (forall e, o = (true, e) -> e = Indeterminate) ->
     scan_priority (fill_e (done ++ [o]) n) (fill_m (done ++ [o]) n) (List.length (fill_e (done ++ [o]) n)) =
     Ok (Indeterminate, None)).
  { intros H. apply scan_priority_none; auto.
    - rewrite fill_len, fill_len_m. reflexivity.
    - intros i Hi M.
      destruct (Nat.lt_ge_cases i (List.length (done ++ [o]))) as [L|L].
      + unfold fill_m, fill_e, mats, effs in *.
        rewrite nth_error_app1 in M by (rewrite map_length; auto).
        rewrite nth_error_app1 by (rewrite map_length; auto).
        rewrite nth_error_map in M. rewrite nth_error_map. destruct (nth_error (done ++ [o]) i) as [[b e]|] eqn:X; [|simpl in M; discriminate M].
        simpl in *. inversion M; subst. f_equal.
        apply nth_error_In in X. apply in_app_iff in X. destruct X as [X|[X|[]]].
        * rewrite Forall_forall in F. specialize (F _ X). unfold decisive in F. simpl in F.
          destruct e; auto; exfalso; apply F; split; auto; congruence.
        * apply H. congruence.
      + exfalso. eapply nth_fill_m_tail; eauto. }
  destruct o as [[] []]; simpl.
  - apply HD; auto; congruence.
  - apply HN. congruence.
  - apply HD; auto; congruence.
  - apply HN. congruence.
  - apply HN. congruence.
  - apply HN. congruence.
Qed.

Lemma effect_dec : forall o o' : outcome, {o = o'} + {o <> o'}.
Proof. repeat decide equality. Qed.

(** The result of the loop, as a relation between the results of the rules and the
    pair (effect, explain index). *)
Definition good (pe : policy_effect) (os : list outcome) (r : effect * option nat) : Prop :=
  (fst r = Allow <-> permits pe os) /\ explains pe os (snd r).

(** The rules seen so far leave the decision open. *)
Definition open (pe : policy_effect) (done : list outcome) : Prop :=
  match pe with
  | AllowOverride => ~ In (true, Allow) done
  | DenyOverride | AllowAndDeny => ~ In (true, Deny) done
  | Priority => Forall (fun o => ~ decisive o) done
  end.

(** This rule settles the decision, whatever follows. *)
Definition settles (pe : policy_effect) (o : outcome) : Prop :=
  match pe with
  | AllowOverride => o = (true, Allow)
  | DenyOverride | AllowAndDeny => o = (true, Deny)
  | Priority => decisive o
  end.

Definition settled_effect (pe : policy_effect) (o : outcome) : effect :=
  match pe with AllowOverride => Allow | DenyOverride | AllowAndDeny => Deny | Priority => snd o end.

Lemma settles_dec : forall pe o, {settles pe o} + {~ settles pe o}.
Proof.
  intros [] o; simpl; try apply effect_dec.
  destruct o as [[] []]; unfold decisive; simpl; try (left; split; congruence); right; intros [A B]; congruence.
Qed.

Lemma open_snoc : forall pe done o, open pe done -> ~ settles pe o -> open pe (done ++ [o]).
Proof.
  intros [] done o H N; simpl in *; try (rewrite in_app_iff; simpl; intros [C|[C|[]]]; congruence || tauto).
  apply Forall_app. auto.
Qed.

(** One call of MergeEffects. *)
Lemma merge_step : forall pe done o n,
  open pe done ->
  MergeEffects (effect_text pe) (fill_e (done ++ [o]) n) (fill_m (done ++ [o]) n)
               (List.length done) (List.length done + S n) =
  if settles_dec pe o then Ok (settled_effect pe o, Some (List.length done))
  else match n with
       | 0 => match pe with
              | AllowOverride | Priority => Ok (Indeterminate, None)
              | DenyOverride => Ok (Allow, None)
              | AllowAndDeny => scan_allow (effs (done ++ [o])) (mats (done ++ [o])) 0
              end
       | _ => Ok (Indeterminate, None)
       end.
Proof.
  intros pe done o n OP. unfold MergeEffects.
  assert (L1 : n = 0 -> Nat.eqb (List.length done) (List.length done + S n - 1) = true).
  { intros. apply Nat.eqb_eq. lia. }
  assert (L2 : n <> 0 -> Nat.eqb (List.length done) (List.length done + S n - 1) = false).
  { intros. apply Nat.eqb_neq. lia. }
  assert (L3 : n = 0 -> Nat.ltb (List.length done) (List.length done + S n - 1) = false).
  { intros. apply Nat.ltb_ge. lia. }
  assert (L4 : n <> 0 -> Nat.ltb (List.length done) (List.length done + S n - 1) = true).
  { intros. apply Nat.ltb_lt. lia. }
  destruct pe; simpl effect_text.
  - rewrite (eqb_refl_s eft_allow_override : String.eqb "some(where (p.eft == allow))" eft_allow_override = true).
    rewrite vget_fill_m. simpl. rewrite vget_fill_e. simpl.
    destruct (settles_dec AllowOverride o) as [N|N]; simpl in N; [subst; reflexivity|].
    destruct o as [[] []]; simpl; try congruence; destruct n; auto.
  - change (String.eqb "!some(where (p.eft == deny))" eft_allow_override) with false.
    change (String.eqb "!some(where (p.eft == deny))" eft_deny_override) with true. cbv iota.
    rewrite vget_fill_m. simpl. rewrite vget_fill_e. simpl.
    destruct (settles_dec DenyOverride o) as [N|N]; simpl in N; [subst; reflexivity|].
    replace (fst o && effect_eqb (snd o) Deny) with false
      by (destruct o as [[] []]; simpl; congruence).
    destruct n; [rewrite L1 by auto | rewrite L2 by auto]; reflexivity.
  - change (String.eqb "some(where (p.eft == allow)) && !some(where (p.eft == deny))" eft_allow_override) with false.
    change (String.eqb "some(where (p.eft == allow)) && !some(where (p.eft == deny))" eft_deny_override) with false.
    change (String.eqb "some(where (p.eft == allow)) && !some(where (p.eft == deny))" eft_allow_and_deny) with true.
    cbv iota.
    rewrite vget_fill_m. simpl. rewrite vget_fill_e. simpl.
    destruct (settles_dec AllowAndDeny o) as [N|N]; simpl in N; [subst; reflexivity|].
    replace (fst o && effect_eqb (snd o) Deny) with false
      by (destruct o as [[] []]; simpl; congruence).
    destruct n; [rewrite L3 by auto | rewrite L4 by auto]; auto.
    unfold fill_e, fill_m. simpl. rewrite !app_nil_r. reflexivity.
  - change (String.eqb "priority(p.eft) || deny" eft_allow_override) with false.
    change (String.eqb "priority(p.eft) || deny" eft_deny_override) with false.
    change (String.eqb "priority(p.eft) || deny" eft_allow_and_deny) with false.
    change (String.eqb "priority(p.eft) || deny" eft_priority) with true. cbv iota.
    rewrite scan_priority_fill by exact OP.
    destruct (settles_dec Priority o) as [D|D]; simpl in D; unfold decisive in D;
      destruct o as [[] []]; simpl in *; try reflexivity; try (destruct n; reflexivity);
      try (destruct D as [D1 D2]; congruence); exfalso; apply D; split; congruence.
Qed.

Lemma settled_good : forall pe done o rest, open pe done -> settles pe o ->
  good pe (done ++ o :: rest) (settled_effect pe o, Some (List.length done)).
Proof.
  intros pe done o rest OP ST. unfold good, permits, explains, reason. simpl.
  destruct pe; simpl in *.
  - subst. split.
    + rewrite in_app_iff. simpl. tauto.
    + exists done, (true, Allow), rest. repeat split; auto.
      apply Forall_forall. intros x Hx ->. auto.
  - subst. split.
    + split; [discriminate|]. intro C. exfalso. apply C. rewrite in_app_iff. simpl. auto.
    + exists done, (true, Deny), rest. repeat split; auto.
      apply Forall_forall. intros x Hx ->. auto.
  - subst. assert (I : In (true, Deny) (done ++ (true, Deny) :: rest)) by (rewrite in_app_iff; simpl; auto).
    split.
    + split; [discriminate|tauto].
    + exists done, (true, Deny), rest. repeat split; auto.
      apply Forall_forall. intros x Hx [->|[_ C]]; auto.
  - destruct o as [b e]. destruct ST as [B E]. simpl in *. subst b. split.
    + split.
      * intros ->. exists done, rest. auto.
      * intros [pre [post [EQ F]]].
        assert (LD : List.length pre = List.length done).
        { destruct (Nat.lt_trichotomy (List.length pre) (List.length done)) as [C|[C|C]]; auto; exfalso.
          - assert (X : nth_error (done ++ (true, e) :: rest) (List.length pre) = Some (true, Allow)).
            { rewrite EQ, nth_error_app2, Nat.sub_diag; auto. }
            rewrite nth_error_app1 in X by auto. apply nth_error_In in X.
            rewrite Forall_forall in OP. apply (OP _ X). split; simpl; congruence.
          - assert (X : nth_error (pre ++ (true, Allow) :: post) (List.length done) = Some (true, e)).
            { rewrite <- EQ, nth_error_app2, Nat.sub_diag; auto. }
            rewrite nth_error_app1 in X by auto. apply nth_error_In in X.
            rewrite Forall_forall in F. apply (F _ X). split; simpl; congruence. }
        assert (X : nth_error (done ++ (true, e) :: rest) (List.length done) = Some (true, e)).
        { rewrite nth_error_app2, Nat.sub_diag; auto. }
        rewrite EQ, <- LD, nth_error_app2, Nat.sub_diag in X by auto. inversion X. auto.
    + exists done, (true, e), rest. repeat split; auto.
Qed.

(** After the last rule nothing was settled. *)
Lemma last_good : forall pe done o, open pe (done ++ [o]) ->
  exists r, (match pe with
             | AllowOverride | Priority => Ok (Indeterminate, None)
             | DenyOverride => Ok (Allow, None)
             | AllowAndDeny => scan_allow (effs (done ++ [o])) (mats (done ++ [o])) 0
             end) = Ok r /\ good pe (done ++ [o]) r.
Proof.
  intros pe done o OP. set (os := done ++ [o]) in *. destruct pe; simpl in OP.
  - eexists. split; [reflexivity|]. split; simpl.
    + split; [discriminate|tauto].
    + apply Forall_forall. intros x Hx ->. auto.
  - eexists. split; [reflexivity|]. split; simpl.
    + tauto.
    + apply Forall_forall. intros x Hx ->. auto.
  - destruct (scan_allow_spec os 0) as [[pre [post [E [N Q]]]]|[N Q]]; rewrite Q; eexists; (split; [reflexivity|]); split; simpl.
    + split; auto. intros _. split; auto. rewrite E, in_app_iff. simpl. auto.
    + exists pre, (true, Allow), post. repeat split; auto.
      apply Forall_forall. intros x Hx [->|[-> _]]; auto. apply OP. rewrite E, in_app_iff. auto.
    + split; [discriminate|]. intros [C _]. tauto.
    + apply Forall_forall. intros x Hx [->|[-> _]]; auto.
  - eexists. split; [reflexivity|]. split; simpl.
    + split; [discriminate|]. intros [pre [post [E F]]]. exfalso.
      rewrite Forall_forall in OP. apply (OP (true, Allow)).
      * rewrite E, in_app_iff. simpl. auto.
      * split; simpl; congruence.
    + exact OP.
Qed.

Lemma settled_not_ind : forall pe o, settles pe o -> settled_effect pe o <> Indeterminate.
Proof. intros [] o H; simpl in *; try congruence. destruct H; auto. Qed.

Lemma ploop_step : forall pe done v n o todo last, v = Ok o -> open pe done ->
  ploop (effect_text pe) (List.length done + S n) (v :: todo) (List.length done)
        (fill_e done (S n)) (fill_m done (S n)) last =
  match (if settles_dec pe o then Ok (settled_effect pe o, Some (List.length done))
         else match n with
              | 0 => match pe with
                     | AllowOverride | Priority => Ok (Indeterminate, None)
                     | DenyOverride => Ok (Allow, None)
                     | AllowAndDeny => scan_allow (effs (done ++ [o])) (mats (done ++ [o])) 0
                     end
              | _ => Ok (Indeterminate, None)
              end) with
  | Ok (Indeterminate, x) =>
      ploop (effect_text pe) (List.length (done ++ [o]) + n) todo (List.length (done ++ [o]))
            (fill_e (done ++ [o]) n) (fill_m (done ++ [o]) n) (Ok (Indeterminate, x))
  | r => r
  end.
Proof.
  intros pe done v n o todo last -> OP. destruct o as [b e]. cbn [ploop bind].
  pose proof (upd_fill_e done (b, e) n) as U1. pose proof (upd_fill_m done (b, e) n) as U2.
  cbn [fst snd] in U1, U2. rewrite U1, U2.
  rewrite (merge_step pe done (b, e) n OP).
  replace (List.length (done ++ [(b, e)]) + n) with (List.length done + S n)
    by (rewrite app_length; simpl; lia).
  replace (List.length (done ++ [(b, e)])) with (S (List.length done)) by (rewrite app_length; simpl; lia).
  reflexivity.
Qed.

Lemma ploop_next : forall pe done k o todo last len, open pe done -> ~ settles pe o ->
  len = List.length done + S (S k) ->
  ploop (effect_text pe) len (Ok o :: todo) (List.length done)
        (fill_e done (len - List.length done)) (fill_m done (len - List.length done)) last =
  ploop (effect_text pe) len todo (List.length (done ++ [o]))
        (fill_e (done ++ [o]) (len - List.length (done ++ [o])))
        (fill_m (done ++ [o]) (len - List.length (done ++ [o]))) (Ok (Indeterminate, None)).
Proof.
  intros pe done k o todo last len OP NS ->.
  replace (List.length done + S (S k) - List.length done) with (S (S k)) by lia.
  rewrite (ploop_step pe done (Ok o) (S k) o todo last eq_refl OP).
  destruct (settles_dec pe o) as [ST|ST]; [tauto|].
  replace (List.length done + S (S k)) with (List.length (done ++ [o]) + S k)
    by (rewrite app_length; simpl; lia).
  replace (List.length (done ++ [o]) + S k - List.length (done ++ [o])) with (S k) by lia.
  reflexivity.
Qed.

Lemma ploop_settled : forall pe done n o todo last, open pe done -> settles pe o ->
  ploop (effect_text pe) (List.length done + S n) (Ok o :: todo) (List.length done)
        (fill_e done (S n)) (fill_m done (S n)) last =
  Ok (settled_effect pe o, Some (List.length done)).
Proof.
  intros pe done n o todo last OP ST.
  rewrite (ploop_step pe done (Ok o) n o todo last eq_refl OP).
  destruct (settles_dec pe o) as [S|S]; [|tauto].
  pose proof (settled_not_ind pe o ST). destruct (settled_effect pe o); congruence.
Qed.

(** All rules evaluate: the loop decides as specified. *)
Lemma ploop_good : forall pe todo done last,
  open pe done -> todo <> [] ->
  exists r, ploop (effect_text pe) (List.length done + List.length todo) (map Ok todo) (List.length done)
        (fill_e done (List.length todo)) (fill_m done (List.length todo)) last = Ok r
    /\ good pe (done ++ todo) r.
Proof.
  induction todo as [|o todo IH]; intros done last OP NE; [congruence|].
  change (List.length (o :: todo)) with (S (List.length todo)).
  change (map Ok (o :: todo)) with (Ok o :: map (@Ok outcome) todo).
  rewrite (ploop_step pe done (Ok o) (List.length todo) o (map Ok todo) last eq_refl OP).
  destruct (settles_dec pe o) as [ST|ST].
  - exists (settled_effect pe o, Some (List.length done)). split.
    + pose proof (settled_not_ind pe o ST). destruct (settled_effect pe o); congruence.
    + apply settled_good; auto.
  - destruct todo as [|o2 todo].
    + destruct (last_good pe done o (open_snoc _ _ _ OP ST)) as [r [E G]]. simpl List.length.
      cbv iota. rewrite E. exists r. split; [|exact G]. destruct r as [[] x]; reflexivity.
    + replace (match List.length (o2 :: todo) with
               | 0 => match pe with
                      | AllowOverride | Priority => Ok (Indeterminate, None)
                      | DenyOverride => Ok (Allow, None)
                      | AllowAndDeny => scan_allow (effs (done ++ [o])) (mats (done ++ [o])) 0
                      end
               | S _ => Ok (Indeterminate, None)
               end) with (@Ok (effect * option nat) (Indeterminate, None)) by reflexivity.
      cbv iota beta.
      destruct (IH (done ++ [o]) (Ok (Indeterminate, None)) (open_snoc _ _ _ OP ST)) as [r [E G]]; [discriminate|].
      rewrite E. exists r. rewrite <- app_assoc in G. auto.
Qed.

(** The first rule that fails to evaluate raises its exception, unless an earlier
    rule has settled the decision. *)
Lemma ploop_bad : forall pe todo done last (x : res outcome) rest len,
  (forall o, x <> Ok o) -> open pe done ->
  len = List.length done + S (List.length todo + List.length rest) ->
  (exists o pre post, todo = pre ++ o :: post /\ settles pe o /\
      ploop (effect_text pe) len (map Ok todo ++ x :: rest) (List.length done)
            (fill_e done (len - List.length done)) (fill_m done (len - List.length done)) last =
      Ok (settled_effect pe o, Some (List.length done + List.length pre)))
  \/ ((forall o, In o todo -> ~ settles pe o) /\
      exists y : res (effect * option nat), (forall r, y <> Ok r) /\
      (forall t, x = Throw t -> y = Throw t) /\ (forall u, x = UB u -> y = UB u) /\
      ploop (effect_text pe) len (map Ok todo ++ x :: rest) (List.length done)
            (fill_e done (len - List.length done)) (fill_m done (len - List.length done)) last = y).
Proof.
  induction todo as [|o todo IH]; intros done last x rest len X OP L.
  - right. split; [simpl; tauto|]. simpl.
    destruct x as [a|t|u]; [exfalso; eapply X; eauto| |].
    + exists (Throw t). repeat split; simpl; try congruence.
    + exists (UB u). repeat split; simpl; try congruence.
  - change (map Ok (o :: todo) ++ x :: rest) with (Ok o :: (map (@Ok outcome) todo ++ x :: rest)).
    simpl List.length in L.
    destruct (settles_dec pe o) as [ST|ST].
    + left. exists o, [], todo. repeat split; auto. simpl List.length. rewrite Nat.add_0_r.
      replace (len - List.length done) with (S (S (List.length todo + List.length rest))) by lia.
      rewrite L. apply (ploop_settled pe done (S (List.length todo + List.length rest))); auto.
    + rewrite (ploop_next pe done (List.length todo + List.length rest)) by auto.
      destruct (IH (done ++ [o]) (Ok (Indeterminate, None)) x rest len X (open_snoc _ _ _ OP ST))
        as [[o2 [pre [post [E [S2 Q]]]]]|[N Q]].
      * rewrite app_length. simpl. lia.
      * left. exists o2, (o :: pre), post. subst todo. repeat split; auto.
        rewrite Q. do 3 f_equal. rewrite app_length. simpl. lia.
      * right. split. { intros o' [<-|H]; auto. } exact Q.
Qed.
