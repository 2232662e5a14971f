(** Property C90: several enforcers over one policy file. *)
From Verif Require Import Base P_Base M_Util M_RoleManager M_Model M_Persist M_Evaluator M_Enforcer M_Matcher S_Text S_Policy S_History S_Persist S_Fleet
  P_Enforce P_Decide P_Store P_Api P_History P_Nodup P_Ready P_Switch P_Text P_Save E_Examples T_Policy T_Persist.

(** ** No call but SavePolicy writes a file *)
Definition same_fs (e e' : enforcer) : Prop := e_fs e' = e_fs e.
Lemma same_fs_trans : forall a b c, same_fs a b -> same_fs b c -> same_fs a c.
Proof. unfold same_fs. congruence. Qed.
Lemma same_fs_refl : forall e, same_fs e e.
Proof. reflexivity. Qed.
Lemma fs_enforce : forall o matcher params, keeps same_fs (EnforceWithMatcher o matcher params).
Proof. intros o matcher params e. rewrite fst_EnforceWithMatcher. destruct (EnforceEx_frame o matcher params e) as [ev ->]. reflexivity. Qed.
Lemma fs_run : forall o c, c <> KSavePolicy -> keeps same_fs (run o c).
Proof.
  intros o c NS. assert (P : parts_only c -> keeps same_fs (run o c)).
  { intros P. apply parts_run_but_save; auto; try exact same_fs_trans; reflexivity. }
  destruct c; try (apply P; exact I); simpl; try (apply keeps_drop; [apply same_fs_refl|apply same_fs_trans|]); try (intros e; reflexivity).
  - unfold GetImplicitUsersForPermission.
    do 3 (apply keeps_bind; [apply same_fs_trans|intros e; reflexivity|]; intros).
    apply keeps_bind; [apply same_fs_trans| |intros x e; apply same_fs_refl].
    generalize (ArrayRemoveDuplicates (a ++ a1)). intros l.
    induction l; simpl. { intros e. apply same_fs_refl. }
    do 2 (apply keeps_bind; [apply same_fs_trans|apply keeps_lift; apply same_fs_refl|]; intros).
    apply keeps_bind; [apply same_fs_trans|apply fs_enforce|]. intros.
    apply keeps_bind; [apply same_fs_trans|auto|]. intros b e. apply same_fs_refl.
  - apply fs_enforce.
  - intros e. destruct (map_frame o matcher params e) as [ev ->]. reflexivity.
  - clear NS P. induction reqs; simpl. { intros e. apply same_fs_refl. }
    apply keeps_bind; [apply same_fs_trans|apply fs_enforce|]. intros.
    apply keeps_bind; [apply same_fs_trans|auto|]. intros b e. apply same_fs_refl.
Qed.

(** ** Members of a fleet *)
Lemma nth_replace : forall A (l : list A) i j a, i < List.length l -> nth_error (replace_nth l i a) j = if Nat.eqb i j then Some a else nth_error l j.
Proof. induction l; intros [|i] [|j] x L; simpl in *; try lia; auto. apply IHl. lia. Qed.
Lemma member_step : forall o w i c e j, member w i = Some e ->
  member (fleet_step o w (i, c)) j =
    if Nat.eqb i j then Some (fst (run o c e))
    else match nth_error (members w) j with Some x => Some (set_fs (e_fs (fst (run o c e))) x) | None => None end.
Proof.
  intros o w i c e j M. unfold fleet_step. cbn [fst snd]. rewrite M. unfold member. cbn [members disk].
  unfold member in M. destruct (nth_error (members w) i) as [x|] eqn:N; [|discriminate].
  rewrite nth_replace by (apply nth_error_Some; congruence). destruct (Nat.eqb i j); auto.
  f_equal. destruct (fst (run o c e)). reflexivity.
Qed.
Lemma disk_member : forall w i e, member w i = Some e -> e_fs e = disk w.
Proof. unfold member. intros w i e H. destruct (nth_error (members w) i); inversion H; reflexivity. Qed.
Lemma disk_step : forall o w a, ~ saves a -> disk (fleet_step o w a) = disk w.
Proof.
  intros o w [i c] NS. unfold fleet_step. cbn [fst snd]. destruct (member w i) as [e|] eqn:M; auto. cbn [disk].
  rewrite <- (disk_member w i e M). apply fs_run. exact NS.
Qed.
Lemma disk_run : forall o h w, (forall a, In a h -> ~ saves a) -> disk (fleet_run o w h) = disk w.
Proof.
  induction h as [|a h IH]; intros w NS; auto. cbn. fold (fleet_run o (fleet_step o w a) h). rewrite IH by (intros; apply NS; right; auto).
  apply disk_step, NS. left. auto.
Qed.

(** ** Loading brings what was saved last *)
(** Enforcer [i] saves; afterwards nobody saves, whatever else anybody does.  Whoever loads
    from that file then has the rules [i] had when it saved, of every type. *)
Theorem C90_load_gets_last_save : forall o w i e b path, member w i = Some e ->
  e_adapter e = Some (AFile b path) -> path <> "" -> writable (e_fs e) path = true -> writable_policy e ->
  forall h, (forall a, In a h -> ~ saves a) ->
  forall w' j e' b', w' = fleet_run o (fleet_step o w (i, KSavePolicy)) h ->
  member w' j = Some e' -> e_adapter e' = Some (AFile b' path) -> same_types e e' ->
  exists e'', member (fleet_step o w' (j, KLoadPolicy)) j = Some e'' /\
    forall sec pt, sec = "p" \/ sec = "g" -> declared e sec pt -> kept_as (kind_of e' sec pt) (stored e sec pt) (stored e'' sec pt).
Proof.
  intros o w i e b path M A NP W WP h NS w' j e' b' -> M' A' ST. rewrite (member_step o _ j KLoadPolicy e' j M'), Nat.eqb_refl.
  eexists. split; [reflexivity|]. destruct (C37_save_load e b path A NP W WP) as [_ L].
  destruct (L e' b' A') as [K _]; auto.
  rewrite (disk_member _ _ _ M'), (disk_run o h _ NS). unfold fleet_step. cbn [fst snd]. rewrite M. cbn [disk]. reflexivity.
Qed.

(** So any two that load then hold the same rules. *)
Theorem C90_loaders_agree : forall o w i e b path, member w i = Some e ->
  e_adapter e = Some (AFile b path) -> path <> "" -> writable (e_fs e) path = true -> writable_policy e ->
  forall h, (forall a, In a h -> ~ saves a) ->
  forall w' j k ej ek bj bk, j <> k -> w' = fleet_run o (fleet_step o w (i, KSavePolicy)) h ->
  member w' j = Some ej -> e_adapter ej = Some (AFile bj path) -> same_types e ej ->
  member w' k = Some ek -> e_adapter ek = Some (AFile bk path) -> same_types e ek ->
  exists ej' ek', member (fleet_step o w' (j, KLoadPolicy)) j = Some ej' /\
    member (fleet_step o (fleet_step o w' (j, KLoadPolicy)) (k, KLoadPolicy)) k = Some ek' /\
    forall sec pt, sec = "p" \/ sec = "g" -> declared e sec pt -> forall r, In r (stored ej' sec pt) <-> In r (stored ek' sec pt).
Proof.
  intros o w i e b path M A NP W WP h NS w' j k ej ek bj bk NE E Mj Aj Tj Mk Ak Tk.
  destruct (C90_load_gets_last_save o w i e b path M A NP W WP h NS w' j ej bj E Mj Aj Tj) as [ej' [Lj Kj]].
  assert (NS2 : forall a, In a (h ++ [(j, KLoadPolicy)]) -> ~ saves a).
  { intros a I. apply in_app_iff in I. destruct I as [I|[<-|[]]]; [auto|discriminate]. }
  set (w'' := fleet_step o w' (j, KLoadPolicy)).
  assert (E2 : w'' = fleet_run o (fleet_step o w (i, KSavePolicy)) (h ++ [(j, KLoadPolicy)])).
  { unfold w''. rewrite E. unfold fleet_run. rewrite fold_left_app. reflexivity. }
  assert (Mk2 : member w'' k = Some ek).
  { unfold w''. rewrite (member_step o _ j KLoadPolicy ej k Mj). destruct (Nat.eqb_spec j k); [contradiction|].
    unfold member in Mk. destruct (nth_error (members w') k) as [x|]; [|discriminate]. inversion Mk.
    do 2 f_equal. rewrite (fs_run o KLoadPolicy) by discriminate. apply (disk_member _ _ _ Mj). }
  destruct (C90_load_gets_last_save o w i e b path M A NP W WP _ NS2 w'' k ek bk E2 Mk2 Ak Tk) as [ek' [Lk Kk]].
  exists ej', ek'. split; [auto|]. split; [auto|]. intros sec pt S D r. specialize (Kj sec pt S D). specialize (Kk sec pt S D).
  assert (H : forall s l l', kept_as s l l' -> (In r l' <-> In r l)).
  { intros s l l' KA. destruct s; simpl in KA; [subst; tauto|destruct KA; auto]. }
  rewrite (H _ _ _ Kj), (H _ _ _ Kk). tauto.
Qed.

(** ** Nothing else is seen *)
(** If the others never save, an enforcer is after any history what its own calls make of
    it: a change made through another enforcer stays there. *)
Theorem C90_unsaved_unseen : forall o h w j, (forall a, In a h -> saves a -> fst a = j) ->
  member (fleet_run o w h) j = member (fleet_run o w (own_calls j h)) j.
Proof.
  intros o h w j NS.
  assert (G : forall h w w', (forall a, In a h -> saves a -> fst a = j) -> disk w = disk w' -> nth_error (members w) j = nth_error (members w') j ->
    member (fleet_run o w h) j = member (fleet_run o w' (own_calls j h)) j).
  { clear. induction h as [|[i c] h IH]; intros w w' NS D N.
    - simpl. unfold member. rewrite D, N. auto.
    - cbn. fold (fleet_run o (fleet_step o w (i, c)) h). assert (NS' : forall a, In a h -> saves a -> fst a = j) by (intros; apply NS; auto; right; auto).
      destruct (Nat.eqb_spec i j) as [->|NE].
      + cbn. apply IH; auto.
        * unfold fleet_step. cbn [fst snd]. unfold member. rewrite N, D. destruct (nth_error (members w') j); auto.
        * unfold fleet_step. cbn [fst snd]. unfold member. rewrite D. destruct (nth_error (members w) j) as [x|] eqn:N1; rewrite <- N; [|congruence].
          cbn [members]. rewrite !nth_replace by (apply nth_error_Some; congruence). rewrite Nat.eqb_refl. auto.
      + apply IH; auto.
        * rewrite disk_step; auto. intros S. apply NE. apply (NS (i, c)); [left; auto|auto].
        * rewrite <- N. unfold fleet_step. cbn [fst snd]. destruct (member w i) as [x|] eqn:M; auto. cbn [members].
          rewrite nth_replace. { destruct (Nat.eqb_spec i j); [contradiction|auto]. }
          apply nth_error_Some. unfold member in M. destruct (nth_error (members w) i); congruence. }
  apply G; auto.
Qed.

(** ** Two enforcers over one file *)
Definition two_on_file : fleet := mkFleet (mkFs [("policy.csv", two_lines)] (fun _ => true))
  [fst (LoadPolicy (with_file two_lines ex)); fst (LoadPolicy (with_file two_lines ex))].
Definition rules_of (w : fleet) (i : nat) : list rule := match member w i with Some e => stored e "p" "p" | None => [] end.
(** The first adds a rule and saves it; the second sees it when it loads, not before. *)
Example C90_case : exists e e', member (fleet_step mini two_on_file (0, KAddPolicy "p" r_bob)) 0 = Some e /\
  e_adapter e = Some (AFile false "policy.csv") /\ writable (e_fs e) "policy.csv" = true /\ writable_policy e /\
  (let w' := fleet_run mini (fleet_step mini (fleet_step mini two_on_file (0, KAddPolicy "p" r_bob)) (0, KSavePolicy)) [(0, KRemovePolicy "p" r_alice); (1, KClearPolicy)] in
   member w' 1 = Some e' /\ e_adapter e' = Some (AFile false "policy.csv") /\ same_types e e' /\
   rules_of w' 0 = [r_bob] /\ rules_of w' 1 = [] /\ rules_of (fleet_step mini w' (1, KLoadPolicy)) 1 = [r_alice; r_bob]).
Proof.
  assert (PV : forall v, smem "," v = false -> smem "010" v = false -> Trim v = v -> plain_value v).
  { intros v H1 H2 H3. split; [apply smem_lacks; auto|]. split; [apply smem_lacks; auto|]. rewrite <- H3. apply Trim_spec. }
  eexists. eexists. split; [vm_compute; reflexivity|]. split; [reflexivity|]. split; [reflexivity|]. split.
  { intros sec [ -> | -> ]; (split; [vm_compute; apply NoDup_cons; [simpl; tauto|apply NoDup_nil]|]); intros pt [a Q]; unfold get_ast in Q; cbn in Q;
      [destruct (String.eqb_spec pt "p") as [->|]|destruct (String.eqb_spec pt "g") as [->|]]; try discriminate;
      (split; [split; [apply PV; reflexivity|reflexivity]|]); vm_compute;
      repeat (apply Forall_cons; [split; [discriminate|]; repeat (apply Forall_cons; [apply PV; reflexivity|]); apply Forall_nil|]); apply Forall_nil. }
  cbv zeta. split; [vm_compute; reflexivity|]. split; [reflexivity|]. split.
  { intros sec pt [ -> | -> ]; unfold declared, get_ast; cbn; [destruct (String.eqb pt "p")|destruct (String.eqb pt "g")]; split; intros [a Q]; try discriminate; eauto. }
  split; [vm_compute; reflexivity|]. split; vm_compute; reflexivity.
Qed.
(** A change that is not saved is not seen, however often the other one loads. *)
Example C90_unseen_case : let h := [(0, KAddPolicy "p" r_bob); (1, KLoadPolicy); (0, KRemovePolicy "p" r_alice); (1, KLoadPolicy)] in
  (forall a, In a h -> saves a -> fst a = 1) /\ rules_of (fleet_run mini two_on_file h) 0 = [r_bob] /\ rules_of (fleet_run mini two_on_file h) 1 = [r_alice].
Proof. cbv zeta. split. { intros a [<-|[<-|[<-|[<-|[]]]]] S; inversion S. } split; vm_compute; reflexivity. Qed.
(** SavePolicy writes the whole policy it has and asks nobody: a rule another enforcer has
    saved in the meantime is lost, for both of them. *)
Theorem C90_lost_update_refuted : exists h w,
  h = [(0, KAddPolicy "p" r_bob); (0, KSavePolicy); (1, KAddPolicy "p" ["carol"; "data3"; "read"]); (1, KSavePolicy); (0, KLoadPolicy); (1, KLoadPolicy)] /\
  w = fleet_run mini two_on_file h /\ rules_of two_on_file 0 = [r_alice] /\ rules_of two_on_file 1 = [r_alice] /\
  rules_of w 0 = [r_alice; ["carol"; "data3"; "read"]] /\ rules_of w 1 = [r_alice; ["carol"; "data3"; "read"]].
Proof. eexists. eexists. split; [reflexivity|]. split; [reflexivity|]. repeat split; vm_compute; reflexivity. Qed.
Print Assumptions C90_load_gets_last_save.
Print Assumptions C90_loaders_agree.
Print Assumptions C90_unsaved_unseen.
Print Assumptions C90_lost_update_refuted.
