(** Proofs about IP addresses. *)
From Verif Require Import Base P_Base M_Util M_Ip S_Text P_Text S_Ip.
From Coq Require Import Lia.
Open Scope N_scope.

(** ** Numerals *)
Lemma dec_val_spec : forall c d, dec_val c = Some d <-> dec_digit c d.
Proof.
  intros c d. split.
  - intros H. exists (N.to_nat d). rewrite N2Nat.id. split; [|reflexivity].
    destruct c as [[] [] [] [] [] [] [] []]; vm_compute in H; try discriminate; injection H as <-; reflexivity.
  - intros (k & H & ->). do 10 (destruct k as [|k]; [injection H as <-; reflexivity|]). destruct k; discriminate.
Qed.
Lemma hex_val_spec : forall c d, hex_val c = Some d <-> hex_digit c d.
Proof.
  intros c d. split.
  - intros H. exists (N.to_nat d). rewrite N2Nat.id. split; [|reflexivity].
    destruct c as [[] [] [] [] [] [] [] []]; vm_compute in H; try discriminate; injection H as <-; (left; reflexivity) || (right; reflexivity).
  - intros (k & [H|H] & ->); do 16 (destruct k as [|k]; [injection H as <-; reflexivity|]); destruct k; discriminate.
Qed.

Section Numbers.
  Variables (val : ascii -> option N) (base : N) (ovf : N).
  Hypothesis base_pos : 1 <= base.
  Fixpoint go (n : N) (i : nat) (s : string) : N * nat :=
    match s with
    | EmptyString => (n, i)
    | String c s' =>
        match val c with
        | None => (n, i)
        | Some d => let n' := n * base + d in if big <=? n' then (ovf, i) else go n' (S i) s'
        end
    end.
  Fixpoint value (n : N) (t : string) : option N :=
    match t with
    | EmptyString => Some n
    | String c t' => match val c with None => None | Some d => value (n * base + d) t' end
    end.
  Definition stops (r : string) : Prop := forall c r', r = String c r' -> val c = None.

  Lemma value_ge : forall t n v, value n t = Some v -> n <= v.
  Proof.
    induction t as [|c t IH]; intros n v; cbn [value].
    - intros H. injection H as ->. lia.
    - destruct (val c); [|discriminate]. intros H. apply IH in H. nia.
  Qed.
  Lemma value_snoc : forall t n c, value n (t ++ String c "") =
    match value n t with None => None | Some v => match val c with None => None | Some d => Some (v * base + d) end end.
  Proof.
    induction t as [|a t IH]; intros n c; cbn [append value]; [destruct (val c); reflexivity|].
    destruct (val a); [apply IH|reflexivity].
  Qed.
  Lemma go_split : forall s n i, n < big -> exists t r v, s = (t ++ r)%string /\ value n t = Some v /\ stops r /\
    (v < big -> go n i s = (v, (i + String.length t)%nat)) /\
    (big <= v -> exists k c d, go n i s = (ovf, (i + k)%nat) /\ sget k s = Some c /\ val c = Some d).
  Proof.
    induction s as [|c s IH]; intros n i Hn.
    - exists "", "", n. split; [reflexivity|]. split; [reflexivity|]. split; [intros c r' E; discriminate|].
      split; [intros _; cbn; f_equal; lia|lia].
    - cbn [go]. destruct (val c) as [d|] eqn:E.
      + destruct (N.leb_spec big (n * base + d)) as [L|L].
        * assert (X : exists t r v, s = (t ++ r)%string /\ value (n * base + d) t = Some v /\ stops r).
          { clear IH L. generalize (n * base + d) as m. induction s as [|a s IHs]; intros m.
            - exists "", "", m. split; [reflexivity|]. split; [reflexivity|]. intros a r' X. discriminate.
            - destruct (val a) as [x|] eqn:A.
              + destruct (IHs (m * base + x)) as (t & r & v & -> & H2 & H3). exists (String a t), r, v. split; [reflexivity|].
                split; [cbn [value]; rewrite A; exact H2|exact H3].
              + exists "", (String a s), m. split; [reflexivity|]. split; [reflexivity|]. intros b r' X. congruence. }
          destruct X as (t & r & v & -> & V & R). exists (String c t), r, v. split; [reflexivity|].
          split; [cbn [value]; rewrite E; exact V|]. split; [exact R|]. pose proof (value_ge _ _ _ V). split; [lia|].
          intros _. exists 0%nat, c, d. split; [f_equal; lia|]. split; [reflexivity|exact E].
        * destruct (IH (n * base + d) (S i) L) as (t & r & v & -> & V & R & A & B). exists (String c t), r, v.
          split; [reflexivity|]. split; [cbn [value]; rewrite E; exact V|]. split; [exact R|]. split.
          -- intros H. rewrite (A H). cbn [String.length]. f_equal. lia.
          -- intros H. destruct (B H) as (k & x & y & -> & G & W). exists (S k), x, y. split; [f_equal; lia|]. split; [exact G|exact W].
      + exists "", (String c s), n. split; [reflexivity|]. split; [reflexivity|]. split; [intros a r' X; congruence|].
        split; [intros _; cbn; f_equal; lia|lia].
  Qed.
  Lemma split_unique : forall t r t' r' n m v w, (t ++ r)%string = (t' ++ r')%string -> value n t = Some v -> value m t' = Some w -> stops r -> stops r' ->
    t = t' /\ r = r'.
  Proof.
    induction t as [|c t IH]; intros r t' r' n m v w E V W R R'.
    - destruct t' as [|a t']; [auto|]. cbn [append] in E. subst r. cbn [value] in W. rewrite (R a (t' ++ r')%string eq_refl) in W. discriminate.
    - destruct t' as [|a t'].
      + cbn [append] in E. subst r'. cbn [value] in V. rewrite (R' c (t ++ r)%string eq_refl) in V. discriminate.
      + cbn [append] in E. injection E as -> E. cbn [value] in V, W. destruct (val a); [|discriminate].
        destruct (IH _ _ _ _ _ _ _ E V W R R') as [-> ->]. auto.
  Qed.
  Lemma go_ok : forall t r v, value 0 t = Some v -> v < big -> stops r -> go 0 0 (t ++ r) = (v, String.length t).
  Proof.
    intros t r v V L R. destruct (go_split (t ++ r) 0 0) as (t' & r' & w & E & W & R' & A & _); [reflexivity|].
    destruct (split_unique _ _ _ _ _ _ _ _ E V W R R') as [<- <-]. assert (w = v) by congruence. subst w. exact (A L).
  Qed.

  Lemma reads_value : forall (digit : ascii -> N -> Prop) t v, (forall c d, val c = Some d <-> digit c d) ->
    (reads digit base t v <-> t <> "" /\ value 0 t = Some v).
  Proof.
    intros digit t v H. split.
    - intros R. induction R as [c d D|t v c d R [N IH] D].
      + split; [discriminate|]. cbn [value]. apply H in D. rewrite D. f_equal; try lia.
      + split; [destruct t; discriminate|]. rewrite value_snoc, IH. apply H in D. rewrite D. f_equal. lia.
    - remember (String.length t) as k eqn:Ek. revert t v Ek. induction k; intros t v Ek [N V].
      + destruct t; [congruence|discriminate].
      + destruct (snoc_cases t) as [->|(t' & c & ->)]; [congruence|]. rewrite value_snoc in V.
        destruct (value 0 t') as [w|] eqn:W; [|discriminate]. destruct (val c) as [d|] eqn:D; [|discriminate]. injection V as <-.
        apply H in D. destruct t' as [|a t'].
        * cbn in W. injection W as <-. replace (0 * base + d) with d by lia. apply reads_one. exact D.
        * replace (w * base + d) with (base * w + d) by lia. apply reads_more; [|exact D]. apply IHk; [|split; [discriminate|exact W]].
          rewrite length_app_s in Ek. cbn in Ek |- *. lia.
  Qed.
End Numbers.

Lemma dtoi_go : forall s, dtoi s = go dec_val 10 big 0 0 s.
Proof.
  unfold dtoi. intros s. assert (H : forall n i, dtoi_from n i s = go dec_val 10 big n i s); [|apply H].
  induction s as [|c s IH]; intros n i; cbn [dtoi_from go]; [reflexivity|].
  destruct (dec_val c); [|reflexivity]. destruct (big <=? n * 10 + n0); [reflexivity|apply IH].
Qed.
Lemma xtoi_go : forall s, xtoi s = go hex_val 16 0 0 0 s.
Proof.
  unfold xtoi. intros s. assert (H : forall n i, xtoi_from n i s = go hex_val 16 0 n i s); [|apply H].
  induction s as [|c s IH]; intros n i; cbn [xtoi_from go]; [reflexivity|].
  destruct (hex_val c); [|reflexivity]. destruct (big <=? n * 16 + n0); [reflexivity|apply IH].
Qed.
Lemma decimal_value : forall t v, decimal t v <-> t <> "" /\ value dec_val 10 0 t = Some v.
Proof. intros. apply reads_value; [lia|apply dec_val_spec]. Qed.
Lemma hexadecimal_value : forall t v, hexadecimal t v <-> t <> "" /\ value hex_val 16 0 t = Some v.
Proof. intros. apply reads_value; [lia|apply hex_val_spec]. Qed.

(** ** IPv4 *)
Inductive dots : nat -> string -> list N -> Prop :=
| dots_nil : dots 0 "" []
| dots_cons : forall k t v r l, octet t v -> dots k r l -> dots (S k) ("." ++ t ++ r) (v :: l).

Lemma dots_stops : forall k r l, dots k r l -> stops dec_val r.
Proof. intros k r l H. inversion H; subst; intros c r' E; [discriminate|]. injection E as <- _. reflexivity. Qed.

Lemma octet_read : forall s, exists t r v, s = (t ++ r)%string /\ value dec_val 10 0 t = Some v /\ stops dec_val r /\
  ((t <> "" /\ v <= 255 /\ dtoi s = (v, String.length t)) \/
   ((t = "" \/ 255 < v) /\ exists n i, dtoi s = (n, i) /\ (big <=? n) || Nat.eqb i 0 || (255 <? n) = true)).
Proof.
  intros s. rewrite dtoi_go. destruct (go_split dec_val 10 big ltac:(lia) s 0 0 ltac:(reflexivity)) as (t & r & v & -> & V & R & A & B).
  exists t, r, v. split; [reflexivity|]. split; [exact V|]. split; [exact R|].
  destruct (N.le_gt_cases big v) as [L|L].
  - right. split; [right; unfold big in L; lia|]. destruct (B L) as (k & c & d & E & _). exists big, (0 + k)%nat. split; [exact E|reflexivity].
  - specialize (A L). destruct (N.le_gt_cases v 255) as [M|M].
    + destruct t as [|c t].
      * right. split; [left; reflexivity|]. exists v, 0%nat. split; [exact A|]. rewrite Bool.orb_true_r. reflexivity.
      * left. split; [discriminate|]. split; [exact M|exact A].
    + right. split; [right; exact M|]. exists v, (0 + String.length t)%nat. split; [exact A|].
      apply N.ltb_lt in M. rewrite M. apply Bool.orb_true_r.
Qed.

Lemma octet_good : forall v t, t <> "" -> v <= 255 -> (big <=? v) || Nat.eqb (String.length t) 0 || (255 <? v) = false.
Proof.
  intros v t Ht Hv. destruct (N.leb_spec big v); [unfold big in *; lia|]. destruct (N.ltb_spec 255 v); [lia|].
  destruct t; [congruence|reflexivity].
Qed.

Lemma parse_octets_spec : forall k pb s, (0 < List.length pb)%nat ->
  (exists l, dots k s l /\ parse_octets k pb s = IPv4 (pb ++ l)) \/ (parse_octets k pb s = illegal /\ forall l, ~ dots k s l).
Proof.
  induction k; intros pb s Hp; cbn [parse_octets].
  - destruct (String.eqb_spec s ""); [subst|].
    + left. exists []. split; [constructor|]. rewrite app_nil_r. reflexivity.
    + right. split; [reflexivity|]. intros l H. inversion H. congruence.
  - destruct s as [|c s']; [right; split; [reflexivity|]; intros l H; inversion H|].
    destruct (Nat.ltb_spec 0 (List.length pb)); [|lia].
    destruct (Ascii.eqb_spec c "."); [subst c|right; split; [reflexivity|]; intros l H1; inversion H1; congruence].
    destruct (octet_read s') as (t & r & v & E & V & R & [(N & L & D)|(Bad & n & i & D & G)]).
    + rewrite D, octet_good by auto. subst s'. rewrite sdrop_app.
      assert (O : octet t v) by (split; [apply decimal_value; auto|exact L]).
      destruct (IHk (pb ++ [v]) r) as [(l & Hl & P)|(P & No)].
      * rewrite app_length. cbn. lia.
      * left. exists (v :: l). split; [exact (dots_cons k t v r l O Hl)|]. rewrite P, <- app_assoc. reflexivity.
      * right. split; [exact P|]. intros l Hl. inversion Hl as [|k' t' v' r' l' [O1 O2] D' E1 E2 E3]; subst.
        apply decimal_value in O1. destruct O1 as [_ O1].
        destruct (split_unique dec_val 10 _ _ _ _ _ _ _ _ E2 O1 V (dots_stops _ _ _ D') R) as [-> ->]. exact (No _ D').
    + rewrite D, G. right. split; [reflexivity|]. intros l Hl. inversion Hl as [|k' t' v' r' l' [O1 O2] D' E1 E2 E3]; subst.
      apply decimal_value in O1. destruct O1 as [N1 O1].
      destruct (split_unique dec_val 10 _ _ _ _ _ _ _ _ E2 O1 V (dots_stops _ _ _ D') R) as [-> ->].
      assert (v = v') by congruence. subst. destruct Bad; [congruence|lia].
Qed.
Lemma ipv4_dots : forall s a, ipv4_text s a <-> exists t v r l, s = (t ++ r)%string /\ octet t v /\ dots 3 r l /\ a = v :: l.
Proof.
  intros s a. split.
  - intros (t1 & t2 & t3 & t4 & v1 & v2 & v3 & v4 & -> & -> & O1 & O2 & O3 & O4).
    exists t1, v1, ("." ++ t2 ++ ("." ++ t3 ++ ("." ++ t4 ++ "")))%string, [v2; v3; v4]. rewrite app_nil_r_s. split; [reflexivity|].
    split; [exact O1|]. split; [|reflexivity]. rewrite <- (app_nil_r_s t4). repeat (apply dots_cons; [assumption|]). constructor.
  - intros (t & v & r & l & -> & O & D & ->). inversion D as [|k1 t2 v2 r2 l2 O2 D2]; subst. inversion D2 as [|k3 t3 v3 r3 l3 O3 D3]; subst.
    inversion D3 as [|k4 t4 v4 r4 l4 O4 D4]; subst. inversion D4; subst. rewrite app_nil_r_s.
    exists t, t2, t3, t4, v, v2, v3, v4. auto 10.
Qed.
Lemma parseIPv4_spec : forall s, (exists a, ipv4_text s a /\ parseIPv4 s = IPv4 a) \/ (parseIPv4 s = illegal /\ forall a, ~ ipv4_text s a).
Proof.
  intros s. unfold parseIPv4. cbn [parse_octets IPv4len]. destruct s as [|c s'].
  - right. split; [reflexivity|]. intros a H. apply ipv4_dots in H. destruct H as (t & v & r & l & E & [O _] & _).
    apply decimal_value in O. destruct O as [O _]. destruct t; [congruence|discriminate].
  - cbn [List.length Nat.ltb Nat.leb]. set (s := String c s').
    destruct (octet_read s) as (t & r & v & E & V & R & [(N & L & D)|(Bad & n & i & D & G)]).
    + rewrite D, octet_good by auto. rewrite E, sdrop_app.
      assert (O : octet t v) by (split; [apply decimal_value; auto|exact L]).
      destruct (parse_octets_spec 3 ([] ++ [v]) r) as [(l & Hl & P)|(P & No)]; [cbn; lia| |].
      * left. exists (v :: l). split; [|exact P]. apply ipv4_dots. exists t, v, r, l. auto.
      * right. split; [exact P|]. intros a H. apply ipv4_dots in H. destruct H as (t' & v' & r' & l' & E' & [O1 _] & D' & _).
        apply decimal_value in O1. destruct O1 as [_ O1].
        destruct (split_unique dec_val 10 _ _ _ _ _ _ _ _ E' V O1 R (dots_stops _ _ _ D')) as [-> ->]. exact (No _ D').
    + rewrite D, G. right. split; [reflexivity|]. intros a H. apply ipv4_dots in H. destruct H as (t' & v' & r' & l' & E' & [O1 O2] & D' & _).
      apply decimal_value in O1. destruct O1 as [N1 O1]. rewrite E in E'.
      destruct (split_unique dec_val 10 _ _ _ _ _ _ _ _ E' V O1 R (dots_stops _ _ _ D')) as [-> ->].
      assert (v = v') by congruence. subst. destruct Bad; [congruence|lia].
Qed.
Lemma ipv4_bytes : forall s a, ipv4_text s a -> List.length a = 4%nat /\ Forall (fun x => x < 256) a.
Proof.
  intros s a (t1 & t2 & t3 & t4 & v1 & v2 & v3 & v4 & -> & -> & [_ O1] & [_ O2] & [_ O3] & [_ O4]). split; [reflexivity|].
  repeat (apply Forall_cons; [lia|]). apply Forall_nil.
Qed.
Lemma parseIPv4_ok : forall s a, ipv4_text s a -> parseIPv4 s = IPv4 a.
Proof.
  intros s a H. destruct (parseIPv4_spec s) as [(b & Hb & E)|[_ N]]; [|destruct (N a H)]. rewrite E. f_equal.
  apply ipv4_dots in H. apply ipv4_dots in Hb. destruct H as (t & v & r & l & -> & [O1 _] & D & ->). destruct Hb as (t' & v' & r' & l' & E' & [O1' _] & D' & ->).
  apply decimal_value in O1. apply decimal_value in O1'. destruct O1 as [_ O1]. destruct O1' as [_ O1'].
  destruct (split_unique dec_val 10 _ _ _ _ _ _ _ _ E' O1 O1' (dots_stops _ _ _ D) (dots_stops _ _ _ D')) as [<- <-].
  f_equal; [congruence|]. clear - D D'. revert l' D'. induction D as [|k t v r l [O1 _] D IH]; intros l' D'.
  - inversion D'. reflexivity.
  - inversion D' as [|k' t' v' r' l'' [O1' _] D'' E1 E2 E3]; subst.
    apply decimal_value in O1. apply decimal_value in O1'. destruct O1 as [_ O1]. destruct O1' as [_ O1'].
    destruct (split_unique dec_val 10 _ _ _ _ _ _ _ _ E2 O1' O1 (dots_stops _ _ _ D'') (dots_stops _ _ _ D)) as [-> ->].
    f_equal; [congruence|]. apply IH. exact D''.
Qed.

(** ** IPv6 *)
Definition fine (l : list chunk) : Prop := forall a, In (Quad a) l -> List.length a = 4%nat.

Lemma entries_length : forall l, fine l -> List.length (entries l) = (2 * groups_in l)%nat.
Proof.
  induction l as [|[v|a] l IH]; intros H; [reflexivity| |]; cbn [entries flat_map entries_of]; change (flat_map entries_of l) with (entries l);
    rewrite app_length, IH by (intros b Hb; apply H; right; exact Hb); cbn [groups_in List.length]; [lia|].
  rewrite (H a (or_introl eq_refl)). lia.
Qed.
Lemma colons_fine : forall s l, colons s l -> fine l.
Proof.
  induction 1 as [t v H|t a H|t v r l H1 H2 IH]; intros b Hb.
  - destruct Hb as [E|[]]; discriminate.
  - destruct Hb as [E|[]]. injection E as <-. apply (ipv4_bytes _ _ H).
  - destruct Hb as [E|Hb]; [discriminate|apply IH; exact Hb].
Qed.
Lemma colons_size : forall s l, colons s l -> (1 <= groups_in l)%nat.
Proof. induction 1; cbn; lia. Qed.

Lemma hex_of_dec : forall c d, dec_val c = Some d -> hex_val c = Some d /\ d <= 9.
Proof.
  intros c d H. unfold hex_val, dec_val in *. destruct ((48 <=? N_of_ascii c) && (N_of_ascii c <=? 57)) eqn:E; [|discriminate].
  split; [exact H|]. injection H as <-. apply Bool.andb_true_iff in E. destruct E as [E1 E2]. apply N.leb_le in E1. apply N.leb_le in E2. lia.
Qed.
Lemma dec_as_hex : forall t n m v, value dec_val 10 n t = Some v -> v < 1000 ->
  (n = 0 -> m = 0) -> (n < 10 -> m < 16) -> (n < 100 -> m < 256) -> (n < 1000 -> m < 4096) ->
  exists w, value hex_val 16 m t = Some w /\ w < 4096.
Proof.
  induction t as [|c t IH]; intros n m v V L H0 H1 H2 H3.
  - cbn in V. injection V as <-. exists m. split; [reflexivity|auto].
  - cbn [value] in *. destruct (dec_val c) as [d|] eqn:D; [|discriminate]. apply hex_of_dec in D. destruct D as [-> D].
    assert (n * 10 + d < 1000) by (apply value_ge in V; lia).
    apply (IH (n * 10 + d) (m * 16 + d) v V L); intros; try lia.
Qed.

(** The characters up to the first that is no hexadecimal digit, and how the code reads
    them. *)
Lemma group_read : forall s, exists t r v, s = (t ++ r)%string /\ value hex_val 16 0 t = Some v /\ stops hex_val r /\
  ((t <> "" /\ v <= 65535 /\ xtoi s = (v, String.length t)) \/ ((t = "" \/ 65535 < v) /\
     forall fuel es ell, (List.length es < 16)%nat -> v6_loop (S fuel) es ell s = None)).
Proof.
  intros s. destruct (go_split hex_val 16 0 ltac:(lia) s 0 0 ltac:(reflexivity)) as (t & r & v & -> & V & R & A & B).
  exists t, r, v. split; [reflexivity|]. split; [exact V|]. split; [exact R|].
  assert (Big : forall fuel es ell n i, (List.length es < 16)%nat -> xtoi (t ++ r) = (n, i) -> (big <=? n) || Nat.eqb i 0 || (65535 <? n) = true ->
    v6_loop (S fuel) es ell (t ++ r) = None).
  { intros fuel es ell n i L E G. cbn [v6_loop]. destruct (Nat.leb_spec IPv6len (List.length es)); [unfold IPv6len in *; lia|]. rewrite E, G. reflexivity. }
  destruct (N.le_gt_cases big v) as [L|L].
  - right. split; [right; unfold big in L; lia|]. destruct (B L) as (k & c & d & E & G & W).
    rewrite <- xtoi_go in E. cbn [plus] in E. intros fuel es ell Hes. destruct k as [|k].
    + apply (Big fuel es ell 0 0%nat Hes E). reflexivity.
    + cbn [v6_loop]. destruct (Nat.leb_spec IPv6len (List.length es)); [reflexivity || (unfold IPv6len in *; lia)|]. rewrite E, G.
      cbn [N.leb big N.compare orb Nat.eqb N.ltb].
      destruct (Ascii.eqb_spec c "."); [subst; discriminate|].
      assert (D : exists x, sdrop (S k) (t ++ r) = String c x).
      { clear - G. revert G. generalize (t ++ r)%string as s. generalize (S k) as j. induction j; intros [|a s] G; try discriminate.
        - injection G as ->. eexists. reflexivity.
        - exact (IHj s G). }
      destruct D as [x ->]. destruct x as [|d' x]; [reflexivity|]. destruct (Ascii.eqb_spec c ":"); [subst; discriminate|reflexivity].
  - specialize (A L). rewrite <- xtoi_go in A. destruct (N.le_gt_cases v 65535) as [M|M].
    + destruct t as [|c t].
      * right. split; [left; reflexivity|]. intros fuel es ell Hes. apply (Big fuel es ell _ _ Hes A).
        rewrite Bool.orb_true_r. reflexivity.
      * left. split; [discriminate|]. split; [exact M|exact A].
    + right. split; [right; exact M|]. intros fuel es ell Hes. apply (Big fuel es ell _ _ Hes A).
      apply N.ltb_lt in M. rewrite M. apply Bool.orb_true_r.
Qed.

Lemma colons_inv : forall s l t r w, colons s l -> s = (t ++ r)%string -> value hex_val 16 0 t = Some w -> stops hex_val r ->
  t <> "" /\ w <= 65535 /\
  ((r = "" /\ l = [Group w]) \/
   (exists a x, l = [Quad a] /\ ipv4_text s a /\ r = String "." x) \/
   (exists x l', r = String ":" x /\ colons x l' /\ l = Group w :: l')).
Proof.
  intros s l t r w C E W R. destruct C as [t' v [H L]|t' a H|t' v r' l' [H L] C]; apply hexadecimal_value in H || idtac.
  - destruct H as [N H]. assert (E' : (t ++ r)%string = (t' ++ "")%string) by (rewrite app_nil_r_s; auto).
    destruct (split_unique hex_val 16 _ _ _ _ _ _ _ _ E' W H R) as [-> ->]; [intros c x X; discriminate|].
    assert (w = v) by congruence. subst. auto.
  - pose proof H as H'. apply ipv4_dots in H'. destruct H' as (t1 & v1 & r1 & l1 & E1 & [O1 O2] & D & ->).
    apply decimal_value in O1. destruct O1 as [N1 V1].
    destruct (dec_as_hex t1 0 0 v1 V1) as (h & Hh & Lh); try lia.
    assert (S1 : stops hex_val r1). { inversion D; subst. intros c x X. injection X as <- _. reflexivity. }
    rewrite E in E1. destruct (split_unique hex_val 16 _ _ _ _ _ _ _ _ E1 W Hh R S1) as [-> ->].
    split; [exact N1|]. split; [assert (w = h) by congruence; lia|]. right. left. inversion D; subst. eexists _, _. split; [reflexivity|]. split; [exact H|reflexivity].
  - destruct H as [N H]. destruct (split_unique hex_val 16 t r t' (":" ++ r') _ _ _ _ ltac:(congruence) W H R) as [-> ->].
    { intros c x X. injection X as <- _. reflexivity. }
    assert (w = v) by congruence. subst. split; [exact N|]. split; [exact L|]. right. right. exists r', l'. auto.
Qed.

Lemma sget_app : forall t r, sget (String.length t) (t ++ r) = sget 0 r.
Proof. induction t; intros r; [reflexivity|]. cbn [append String.length sget]. apply IHt. Qed.

(** One round of the loop. *)
Lemma v6_round : forall fuel es ell t r v, (List.length es < 16)%nat -> t <> "" -> v <= 65535 -> xtoi (t ++ r) = (v, String.length t) ->
  v6_loop (S fuel) es ell (t ++ r) =
  let es' := es ++ [N.shiftr v 8; v] in
  match r with
  | EmptyString => Some (es', ell, "")
  | String c x =>
      if Ascii.eqb c "." then
        if (match ell with None => true | Some _ => false end) && negb (Nat.eqb (List.length es) 12) then None
        else if Nat.ltb 16 (List.length es + 4) then None
        else let p := parseIPv4 (t ++ r) in if legal p then Some (es ++ skipn 12 (bytes p), ell, "") else None
      else match x with
           | EmptyString => None
           | String d x' =>
               if negb (Ascii.eqb c ":") then None
               else if Ascii.eqb d ":" then
                 match ell with
                 | Some _ => None
                 | None => if String.eqb x' "" then Some (es', Some (List.length es'), x') else v6_loop fuel es' (Some (List.length es')) x'
                 end
               else v6_loop fuel es' ell x
           end
  end.
Proof.
  intros fuel es ell t r v L Ht Hv E. cbn [v6_loop]. destruct (Nat.leb_spec IPv6len (List.length es)); [unfold IPv6len in *; lia|].
  rewrite E. replace ((big <=? v) || Nat.eqb (String.length t) 0 || (65535 <? v)) with false.
  2:{ symmetry. destruct (N.leb_spec big v); [unfold big in *; lia|]. destruct (N.ltb_spec 65535 v); [lia|]. destruct t; [congruence|reflexivity]. }
  rewrite sget_app, sdrop_app. destruct r as [|c [|d x]]; reflexivity.
Qed.
Lemma v6_full : forall fuel es ell s, (16 <= List.length es)%nat -> v6_loop fuel es ell s = Some (es, ell, s).
Proof. intros fuel es ell s L. destruct fuel; cbn [v6_loop]; destruct (Nat.leb_spec IPv6len (List.length es)); unfold IPv6len in *; reflexivity || lia. Qed.

Definition expand (es : list N) (e : nat) : list N := firstn e es ++ repeat 0 (16 - List.length es) ++ skipn e es.

(** The rest behind an ellipsis. *)
Lemma v6_after : forall fuel es e s, (exists g, List.length es = (2 * g)%nat /\ (8 <= fuel + g)%nat) -> (List.length es <= 16)%nat -> s <> "" ->
  (exists l, colons s l /\ (List.length es + 2 * groups_in l <= 14)%nat /\ v6_finish (v6_loop fuel es (Some e) s) = mkIp (expand (es ++ entries l) e) true) \/
  (v6_finish (v6_loop fuel es (Some e) s) = illegal /\ forall l, colons s l -> (14 < List.length es + 2 * groups_in l)%nat).
Proof.
  induction fuel as [|fuel IH]; intros es e s (g & G1 & G2) L Hs.
  - assert (List.length es = 16)%nat by lia. rewrite v6_full by lia. right. split.
    + cbn [v6_finish]. destruct (String.eqb_spec s ""); [congruence|reflexivity].
    + intros l C. pose proof (colons_size _ _ C). lia.
  - destruct (Nat.eq_dec (List.length es) 16) as [Q|Q].
    { rewrite v6_full by lia. right. split.
      + cbn [v6_finish]. destruct (String.eqb_spec s ""); [congruence|reflexivity].
      + intros l C. pose proof (colons_size _ _ C). lia. }
    destruct (group_read s) as (t & r & v & E & V & R & [(N & M & X)|(Bad & X)]).
    2:{ rewrite X by lia. right. split; [reflexivity|]. intros l C. destruct (colons_inv _ _ _ _ _ C E V R) as (N & M & _). destruct Bad; [congruence|lia]. }
    assert (Gr : group t v) by (split; [apply hexadecimal_value; auto|exact M]).
    rewrite E. rewrite E in X. rewrite (v6_round fuel es (Some e) t r v) by (auto; lia). cbv zeta.
    assert (Len : List.length (es ++ [N.shiftr v 8; v]) = (List.length es + 2)%nat) by (rewrite app_length; reflexivity).
    destruct r as [|c x].
    + rewrite app_nil_r_s in *. cbn [v6_finish String.eqb negb]. rewrite Len. unfold IPv6len.
      destruct (Nat.ltb_spec (List.length es + 2) 16).
      * left. exists [Group v]. split; [subst s; apply colons_group; exact Gr|]. cbn [groups_in]. split; [lia|]. unfold expand. rewrite <- Len. reflexivity.
      * right. split; [reflexivity|]. intros l C. pose proof (colons_size _ _ C). lia.
    + destruct (Ascii.eqb_spec c ".").
      { subst c. cbn [andb]. destruct (Nat.ltb_spec 16 (List.length es + 4)) as [K|K].
        { right. split; [reflexivity|]. intros l C. rewrite <- E in C. destruct (colons_inv _ _ _ _ _ C E V R) as (_ & _ & [[? ?]|[(a & y & -> & _)|(y & l' & F & _)]]); [discriminate| |discriminate].
          cbn. lia. }
        cbv zeta. rewrite <- E. destruct (parseIPv4_spec s) as [(a & Ha & P)|(P & No)]; rewrite P.
        - destruct (ipv4_bytes _ _ Ha) as [La _]. cbn [legal IPv4 bytes]. replace (skipn 12 (v4InV6Prefix ++ a)) with a by reflexivity.
          assert (Len' : List.length (es ++ a) = (List.length es + 4)%nat) by (rewrite app_length; lia).
          cbn [v6_finish String.eqb negb]. rewrite Len'. unfold IPv6len. destruct (Nat.ltb_spec (List.length es + 4) 16).
          + left. exists [Quad a]. split; [apply colons_quad; exact Ha|]. cbn [groups_in]. split; [lia|]. unfold expand. cbn [entries flat_map entries_of].
            rewrite app_nil_r, Len'. reflexivity.
          + right. split; [reflexivity|]. intros l C. destruct (colons_inv _ _ _ _ _ C E V R) as (_ & _ & [[? ?]|[(b & y & -> & _)|(y & l' & F & _)]]); [discriminate| |discriminate]. cbn. lia.
        - cbn [legal illegal]. right. split; [reflexivity|]. intros l C. destruct (colons_inv _ _ _ _ _ C E V R) as (_ & _ & [[? ?]|[(b & y & -> & Hb & _)|(y & l' & F & _)]]); [discriminate| |discriminate].
          destruct (No b Hb). }
      assert (Bad : forall l, colons s l -> exists x' l', c = ":"%char /\ x = x' /\ colons x' l' /\ l = Group v :: l').
      { intros l C. destruct (colons_inv _ _ _ _ _ C E V R) as (_ & _ & [[? ?]|[(b & y & -> & Hb & F)|(y & l' & F & C' & ->)]]); [discriminate|congruence|].
        injection F as -> ->. exists y, l'. auto. }
      rewrite <- E. destruct x as [|d x'].
      { right. split; [reflexivity|]. intros l C. destruct (Bad l C) as (y & l' & _ & <- & C' & _). inversion C' as [t' v' [H _] E'|t' a H E'|t' v' r' l'' [H _] C'' E']; subst.
        - apply hexadecimal_value in H. destruct H. congruence.
        - apply ipv4_dots in H. destruct H as (t1 & v1 & r1 & l1 & E1 & [O1 O2] & _). apply decimal_value in O1. destruct O1. destruct t1; [congruence|discriminate].
        - destruct t'; discriminate. }
      destruct (Ascii.eqb_spec c ":"); cbn [negb].
      2:{ right. split; [reflexivity|]. intros l C. destruct (Bad l C) as (y & l' & F & _). congruence. }
      subst c. destruct (Ascii.eqb_spec d ":").
      { subst d. right. split; [reflexivity|]. intros l C. destruct (Bad l C) as (y & l' & _ & <- & C' & _).
        destruct (colons_inv _ _ "" (String ":" x') 0 C' eq_refl eq_refl) as (F & _); [intros z w Z; injection Z as <- _; reflexivity|congruence]. }
      destruct (IH (es ++ [N.shiftr v 8; v]) e (String d x')) as [(l & C & K & P)|(P & No)].
      * exists (S g). rewrite Len. lia.
      * rewrite Len. lia.
      * discriminate.
      * left. exists (Group v :: l). split; [rewrite E; exact (colons_more t v _ l Gr C)|]. rewrite Len in K. cbn [groups_in]. split; [lia|].
        rewrite P. f_equal. cbn [entries flat_map entries_of]. rewrite <- app_assoc. reflexivity.
      * right. split; [exact P|]. intros l C. destruct (Bad l C) as (y & l' & _ & <- & C' & ->). specialize (No l' C'). rewrite Len in No. cbn [groups_in]. lia.
Qed.

Lemma colons_head : forall x l, colons (String ":" x) l -> False.
Proof.
  intros x l C. destruct (colons_inv _ _ "" (String ":" x) 0 C eq_refl eq_refl) as (F & _); [intros z w Z; injection Z as <- _; reflexivity|congruence].
Qed.
Lemma colons_nonempty : forall l, colons "" l -> False.
Proof. intros l C. destruct (colons_inv _ _ "" "" 0 C eq_refl eq_refl) as (F & _); [intros z w Z; discriminate|congruence]. Qed.

Lemma short_inv : forall s a la b t r w, s = (a ++ "::" ++ b)%string -> colons a la -> only_groups la ->
  s = (t ++ r)%string -> value hex_val 16 0 t = Some w -> stops hex_val r ->
  t <> "" /\ w <= 65535 /\
  ((la = [Group w] /\ r = ("::" ++ b)%string) \/
   (exists a' la', r = String ":" (a' ++ "::" ++ b) /\ colons a' la' /\ only_groups la' /\ la = Group w :: la')).
Proof.
  intros s a la b t r w Es C O E W R. destruct C as [t' v [H L]|t' q H|t' v r' l' [H L] C].
  - apply hexadecimal_value in H. destruct H as [N H].
    destruct (split_unique hex_val 16 t r t' ("::" ++ b) _ _ _ _ ltac:(congruence) W H R) as [-> ->].
    { intros c x X. injection X as <- _. reflexivity. }
    assert (w = v) by congruence. subst w. auto.
  - destruct (O (Quad q) (or_introl eq_refl)) as [v E']. discriminate.
  - apply hexadecimal_value in H. destruct H as [N H].
    assert (E' : (t ++ r)%string = (t' ++ ":" ++ r' ++ "::" ++ b)%string) by (rewrite <- E, Es; rewrite !app_assoc_s; reflexivity).
    destruct (split_unique hex_val 16 _ _ _ _ _ _ _ _ E' W H R) as [-> ->].
    { intros c x X. injection X as <- _. reflexivity. }
    assert (w = v) by congruence. subst w. split; [exact N|]. split; [exact L|]. right. exists r', l'.
    split; [reflexivity|]. split; [exact C|]. split; [|reflexivity]. intros c Hc. apply O. right. exact Hc.
Qed.

Lemma expand_end : forall es l, expand (es ++ l) (List.length es) = es ++ repeat 0 (16 - List.length es - List.length l) ++ l.
Proof.
  intros es l. unfold expand. rewrite firstn_app, firstn_all, Nat.sub_diag, firstn_O, app_nil_r.
  rewrite skipn_app, skipn_all, Nat.sub_diag. rewrite app_length. cbn [app skipn]. do 2 f_equal. f_equal. lia.
Qed.

Lemma v6_before : forall fuel es s, (exists g, List.length es = (2 * g)%nat /\ (8 <= fuel + g)%nat) -> (List.length es <= 16)%nat ->
  (s <> "" \/ (List.length es < 16)%nat) ->
  (exists l, colons s l /\ (List.length es + 2 * groups_in l = 16)%nat /\ v6_finish (v6_loop fuel es None s) = mkIp (es ++ entries l) true) \/
  (exists a la b lb, s = (a ++ "::" ++ b)%string /\ colons a la /\ only_groups la /\ some_colons b lb /\
     (List.length es + 2 * groups_in la + 2 * groups_in lb <= 14)%nat /\
     v6_finish (v6_loop fuel es None s) =
       mkIp (es ++ entries la ++ repeat 0 (16 - List.length es - 2 * groups_in la - 2 * groups_in lb) ++ entries lb) true) \/
  (v6_finish (v6_loop fuel es None s) = illegal /\ (forall l, colons s l -> (List.length es + 2 * groups_in l <> 16)%nat) /\
   (forall a la b lb, s = (a ++ "::" ++ b)%string -> colons a la -> only_groups la -> some_colons b lb ->
      (14 < List.length es + 2 * groups_in la + 2 * groups_in lb)%nat)).
Proof.
  induction fuel as [|fuel IH]; intros es s (g & G1 & G2) L Hs.
  - assert (List.length es = 16)%nat by lia. rewrite v6_full by lia. right. right. split; [|split].
    + cbn [v6_finish]. destruct (String.eqb_spec s ""); [destruct Hs; [congruence|lia]|reflexivity].
    + intros l C. pose proof (colons_size _ _ C). lia.
    + intros. lia.
  - destruct (Nat.eq_dec (List.length es) 16) as [Q|Q].
    { rewrite v6_full by lia. right. right. split; [|split].
      + cbn [v6_finish]. destruct (String.eqb_spec s ""); [destruct Hs; [congruence|lia]|reflexivity].
      + intros l C. pose proof (colons_size _ _ C). lia.
      + intros. lia. }
    destruct (group_read s) as (t & r & v & E & V & R & [(N & M & X)|(Bad & X)]).
    2:{ rewrite X by lia. right. right. split; [reflexivity|]. split.
        - intros l C. destruct (colons_inv _ _ _ _ _ C E V R) as (N & M & _). destruct Bad; [congruence|lia].
        - intros a la b lb Es C O _. destruct (short_inv _ _ _ _ _ _ _ Es C O E V R) as (N & M & _). destruct Bad; [congruence|lia]. }
    assert (Gr : group t v) by (split; [apply hexadecimal_value; auto|exact M]).
    rewrite E in X. pose proof (v6_round fuel es None t r v ltac:(lia) N M X) as Rd. cbv zeta in Rd. rewrite <- E in Rd. rewrite Rd. clear Rd.
    assert (Len : List.length (es ++ [N.shiftr v 8; v]) = (List.length es + 2)%nat) by (rewrite app_length; reflexivity).
    destruct r as [|c x].
    + rewrite app_nil_r_s in *. cbn [v6_finish String.eqb negb]. rewrite Len. unfold IPv6len.
      assert (One : forall l, colons s l -> l = [Group v]).
      { intros l C. destruct (colons_inv s l t "" v C) as (_ & _ & [[_ ->]|[(a & y & -> & _ & F)|(y & l' & F & _)]]); try discriminate; auto. rewrite app_nil_r_s. exact E. }
      assert (No : forall a la b lb, s = (a ++ "::" ++ b)%string -> colons a la -> only_groups la -> some_colons b lb -> False).
      { intros a la b lb Es C O _. destruct (short_inv s a la b t "" v Es C O) as (_ & _ & [[_ F]|(a' & la' & F & _)]); try discriminate; auto.
        rewrite app_nil_r_s. exact E. }
      destruct (Nat.ltb_spec (List.length es + 2) 16).
      * right. right. split; [reflexivity|]. split; [intros l C; rewrite (One l C); cbn; lia|]. intros. exfalso. eapply No; eauto.
      * left. exists [Group v]. split; [rewrite E; apply colons_group; exact Gr|]. split; [cbn; lia|]. reflexivity.
    + destruct (Ascii.eqb_spec c ".").
      { subst c. assert (No : forall a la b lb, s = (a ++ "::" ++ b)%string -> colons a la -> only_groups la -> some_colons b lb -> False).
        { intros a la b lb Es C O _. destruct (short_inv s a la b t _ v Es C O E V R) as (_ & _ & [[_ F]|(a' & la' & F & _)]); discriminate. }
        assert (Q4 : forall l, colons s l -> exists a, l = [Quad a] /\ ipv4_text s a).
        { intros l C. destruct (colons_inv _ _ _ _ _ C E V R) as (_ & _ & [[? ?]|[(a & y & -> & Ha & _)|(y & l' & F & _)]]); [discriminate|eauto|discriminate]. }
        cbn [andb]. destruct (Nat.eqb_spec (List.length es) 12) as [K|K]; cbn [negb].
        2:{ right. right. split; [reflexivity|]. split; [|intros; exfalso; eapply No; eauto]. intros l C. destruct (Q4 l C) as (a & -> & _). cbn. lia. }
        destruct (Nat.ltb_spec 16 (List.length es + 4)); [lia|].
        destruct (parseIPv4_spec s) as [(a & Ha & P)|(P & Nq)]; rewrite P.
        - destruct (ipv4_bytes _ _ Ha) as [La _]. cbn [legal IPv4 bytes]. replace (skipn 12 (v4InV6Prefix ++ a)) with a by reflexivity.
          assert (Len' : List.length (es ++ a) = (List.length es + 4)%nat) by (rewrite app_length; lia).
          cbn [v6_finish String.eqb negb]. rewrite Len'. unfold IPv6len. destruct (Nat.ltb_spec (List.length es + 4) 16); [lia|].
          left. exists [Quad a]. split; [apply colons_quad; exact Ha|]. split; [cbn; lia|]. cbn [entries flat_map entries_of]. rewrite app_nil_r. reflexivity.
        - cbn [legal illegal]. right. right. split; [reflexivity|]. split; [|intros; exfalso; eapply No; eauto].
          intros l C. destruct (Q4 l C) as (a & -> & Ha). destruct (Nq a Ha). }
      assert (Cs : forall l, colons s l -> c = ":"%char /\ exists l', colons x l' /\ l = Group v :: l').
      { intros l C. destruct (colons_inv _ _ _ _ _ C E V R) as (_ & _ & [[? ?]|[(b & y & -> & Hb & F)|(y & l' & F & C' & ->)]]); [discriminate|congruence|].
        injection F as -> ->. eauto. }
      assert (Ss : forall a la b lb, s = (a ++ "::" ++ b)%string -> colons a la -> only_groups la -> some_colons b lb ->
                c = ":"%char /\ ((la = [Group v] /\ x = String ":" b) \/ exists a' la', x = (a' ++ "::" ++ b)%string /\ colons a' la' /\ only_groups la' /\ la = Group v :: la')).
      { intros a la b lb Es C O _. destruct (short_inv s a la b t _ v Es C O E V R) as (_ & _ & [[-> F]|(a' & la' & F & C' & O' & ->)]); injection F as -> ->; eauto 8. }
      destruct x as [|d x'].
      { right. right. split; [reflexivity|]. split.
        - intros l C. destruct (Cs l C) as (_ & l' & C' & _). destruct (colons_nonempty _ C').
        - intros a la b lb Es C O B. destruct (Ss a la b lb Es C O B) as (_ & [[_ F]|(a' & la' & F & C' & _)]); [discriminate|]. destruct a'; discriminate. }
      destruct (Ascii.eqb_spec c ":"); cbn [negb].
      2:{ right. right. split; [reflexivity|]. split.
        - intros l C. destruct (Cs l C) as (F & _). congruence.
        - intros a la b lb Es C O B. destruct (Ss a la b lb Es C O B) as (F & _). congruence. }
      subst c. destruct (Ascii.eqb_spec d ":").
      { subst d. assert (NoC : forall l, colons s l -> False).
        { intros l C. destruct (Cs l C) as (_ & l' & C' & _). exact (colons_head _ _ C'). }
        assert (Sx : forall a la b lb, s = (a ++ "::" ++ b)%string -> colons a la -> only_groups la -> some_colons b lb -> la = [Group v] /\ b = x').
        { intros a la b lb Es C O B. destruct (Ss a la b lb Es C O B) as (_ & [[-> F]|(a' & la' & F & C' & _)]); [injection F as <-; auto|].
          destruct a' as [|z a']; [destruct (colons_nonempty _ C')|]. injection F as <- _. destruct (colons_head _ _ C'). }
        assert (Es : s = (t ++ "::" ++ x')%string) by (rewrite E; reflexivity).
        assert (Cg : colons t [Group v]) by (apply colons_group; exact Gr).
        assert (Og : only_groups [Group v]) by (intros z [<-|[]]; eauto).
        destruct (String.eqb_spec x' "").
        - subst x'. cbn [v6_finish String.eqb negb]. rewrite Len. unfold IPv6len. destruct (Nat.ltb_spec (List.length es + 2) 16).
          + right. left. exists t, [Group v], "", []. split; [exact Es|]. split; [exact Cg|]. split; [exact Og|]. split; [left; auto|].
            cbn [groups_in]. split; [lia|]. rewrite <- Len. pose proof (expand_end (es ++ [N.shiftr v 8; v]) []) as Ex. unfold expand in Ex. rewrite app_nil_r in Ex.
            rewrite Ex. f_equal. rewrite Len. cbn [entries flat_map entries_of app List.length]. rewrite <- app_assoc. cbn [app]. do 4 f_equal. f_equal. lia.
          + right. right. split; [reflexivity|]. split; [intros l C; destruct (NoC l C)|]. intros a la b lb E1 E2 E3 E4.
            destruct (Sx a la b lb E1 E2 E3 E4) as [-> ->]. cbn [groups_in]. lia.
        - destruct (v6_after fuel (es ++ [N.shiftr v 8; v]) (List.length (es ++ [N.shiftr v 8; v])) x') as [(l & C & K & P)|(P & No)]; [exists (S g); rewrite Len; lia|rewrite Len; lia|assumption| |].
          + right. left. exists t, [Group v], x', l. split; [exact Es|]. split; [exact Cg|]. split; [exact Og|]. split; [right; exact C|].
            rewrite Len in K. cbn [groups_in]. split; [lia|]. rewrite P, expand_end, Len, (entries_length _ (colons_fine _ _ C)). f_equal.
            cbn [entries flat_map entries_of]. rewrite <- app_assoc. cbn [app]. do 4 f_equal. f_equal. lia.
          + right. right. split; [exact P|]. split; [intros l C; destruct (NoC l C)|]. intros a la b lb E1 E2 E3 E4.
            destruct (Sx a la b lb E1 E2 E3 E4) as [-> ->]. destruct E4 as [[-> _]|C]; [congruence|]. specialize (No _ C). rewrite Len in No. cbn [groups_in]. lia. }
      destruct (IH (es ++ [N.shiftr v 8; v]) (String d x')) as [(l & C & K & P)|[(a & la & b & lb & Es & C & O & B & K & P)|(P & N1 & N2)]].
      * exists (S g). rewrite Len. lia.
      * rewrite Len. lia.
      * left. discriminate.
      * left. exists (Group v :: l). split; [rewrite E; exact (colons_more t v _ l Gr C)|]. rewrite Len in K. cbn [groups_in]. split; [lia|].
        rewrite P. f_equal. cbn [entries flat_map entries_of]. rewrite <- app_assoc. reflexivity.
      * right. left. exists (t ++ ":" ++ a)%string, (Group v :: la), b, lb. split; [rewrite E, Es, !app_assoc_s; reflexivity|].
        split; [exact (colons_more t v a la Gr C)|]. split; [intros z [<-|Hz]; [eauto|apply O; exact Hz]|]. split; [exact B|]. rewrite Len in K. cbn [groups_in].
        split; [lia|]. rewrite P, Len. f_equal. cbn [entries flat_map entries_of]. rewrite <- app_assoc. cbn [app]. do 4 f_equal. change (flat_map entries_of la) with (entries la). f_equal. f_equal. f_equal. lia.
      * right. right. split; [exact P|]. split.
        -- intros l C. destruct (Cs l C) as (_ & l' & C' & ->). specialize (N1 l' C'). rewrite Len in N1. cbn [groups_in]. lia.
        -- intros a la b lb Es C O B. destruct (Ss a la b lb Es C O B) as (_ & [[-> F]|(a' & la' & F & C' & O' & ->)]); [congruence|].
           specialize (N2 a' la' b lb F C' O' B). rewrite Len in N2. cbn [groups_in]. lia.
Qed.

Lemma entries_app : forall a b, entries (a ++ b) = entries a ++ entries b.
Proof. intros. apply flat_map_app. Qed.
Lemma entries_zero : forall k, entries (repeat (Group 0) k) = repeat 0 (2 * k).
Proof. induction k; [reflexivity|]. cbn [repeat entries flat_map entries_of]. change (flat_map entries_of (repeat (Group 0) k)) with (entries (repeat (Group 0) k)). rewrite IHk. replace (2 * S k)%nat with (S (S (2 * k))) by lia. reflexivity. Qed.

Lemma some_colons_size : forall s l, some_colons s l -> fine l.
Proof. intros s l [[-> ->]|C]; [intros a []|exact (colons_fine _ _ C)]. Qed.

Lemma parseIPv6_spec : forall s,
  (exists l, ipv6_text s l /\ parseIPv6 s = mkIp (entries l) true) \/ (parseIPv6 s = illegal /\ forall l, ~ ipv6_text s l).
Proof.
  intros s. unfold parseIPv6. destruct (String.prefix "::" s) eqn:P.
  - apply prefix_app in P. destruct P as [x ->]. cbn [append sdrop]. destruct (String.eqb_spec x "").
    + subst x. left. exists ([] ++ repeat (Group 0) (8 - groups_in [] - groups_in []) ++ []). split; [|reflexivity].
      apply (ipv6_short "" "" [] []); [left; auto|intros c []|left; auto|cbn; lia].
    + destruct (v6_after 8 [] 0 x) as [(l & C & K & E)|(E & No)]; [exists 0%nat; cbn; lia|cbn; lia|assumption| |].
      * left. exists ([] ++ repeat (Group 0) (8 - groups_in [] - groups_in l) ++ l). cbn [List.length plus] in K. split.
        -- apply (ipv6_short "" x [] l); [left; auto|intros c []|right; exact C|cbn; lia].
        -- rewrite E. f_equal. unfold expand. cbn [app firstn skipn groups_in]. rewrite entries_app, entries_zero, (entries_length _ (colons_fine _ _ C)).
           f_equal. f_equal. lia.
      * right. split; [exact E|]. intros l H. inversion H as [s' l' C G|s' t' l' r' C1 O C2 G E']; subst.
        -- exact (colons_head _ _ C).
        -- destruct C1 as [[-> ->]|C1].
           ++ cbn [append] in E'. assert (t' = x) by congruence. subst t'. destruct C2 as [[-> _]|C2]; [congruence|]. specialize (No _ C2). cbn in No, G. lia.
           ++ destruct s' as [|z s']; [exact (colons_nonempty _ C1)|]. cbn [append] in E'. assert (z = ":"%char) by congruence. subst. exact (colons_head _ _ C1).
  - apply prefix_false in P. destruct (v6_before 8 [] s) as [(l & C & K & E)|[(a & la & b & lb & Es & C & O & B & K & E)|(E & N1 & N2)]]; [exists 0%nat; cbn; lia|cbn; lia|right; cbn; lia| | |].
    + left. exists l. cbn in K. split; [apply ipv6_full; [exact C|lia]|exact E].
    + left. exists (la ++ repeat (Group 0) (8 - groups_in la - groups_in lb) ++ lb). cbn [List.length plus] in K. split.
      * subst s. apply ipv6_short; auto; [right; exact C|lia].
      * rewrite E. f_equal. cbn [app List.length]. rewrite !entries_app, entries_zero. f_equal. f_equal. f_equal. lia.
    + right. split; [exact E|]. intros l H. inversion H as [s' l' C G|s' t' l' r' C1 O C2 G E']; subst.
      * apply (N1 l C). cbn. lia.
      * destruct C1 as [[-> ->]|C1]; [apply P; exists t'; reflexivity|].
        specialize (N2 s' l' t' r' eq_refl C1 O C2). cbn [List.length plus] in N2. lia.
Qed.

Lemma hex_prefix : forall s, exists t r v, s = (t ++ r)%string /\ value hex_val 16 0 t = Some v /\ stops hex_val r.
Proof. intros s. destruct (group_read s) as (t & r & v & E & V & R & _). eauto 8. Qed.
Lemma ipv4_unique : forall s a b, ipv4_text s a -> ipv4_text s b -> a = b.
Proof. intros s a b H1 H2. apply parseIPv4_ok in H1. apply parseIPv4_ok in H2. rewrite H1 in H2. unfold IPv4 in H2. assert (E : v4InV6Prefix ++ a = v4InV6Prefix ++ b) by congruence. exact (app_inv_head _ _ _ E). Qed.
Lemma colons_unique : forall s l, colons s l -> forall l', colons s l' -> l = l'.
Proof.
  intros s l C. induction C as [t v [H L]|t a H|t v r l [H L] C IH]; intros l' C'.
  - apply hexadecimal_value in H. destruct H as [N H]. destruct (colons_inv t l' t "" v C') as (_ & _ & [[_ ->]|[(a & y & -> & _ & F)|(y & l'' & F & _)]]); auto; try discriminate.
    rewrite app_nil_r_s; auto.
  - destruct (hex_prefix t) as (t1 & r1 & w & E & W & R).
    destruct (colons_inv t _ t1 r1 w (colons_quad t a H) E W R) as (_ & _ & [[F ?]|[(a' & y & E1 & _ & F)|(y & l'' & F & _ & ?)]]); try discriminate.
    destruct (colons_inv t _ t1 r1 w C' E W R) as (_ & _ & [[F' ?]|[(b & z & -> & Hb & _)|(z & l'' & F' & _)]]); try congruence.
    f_equal. f_equal. exact (ipv4_unique _ _ _ H Hb).
  - apply hexadecimal_value in H. destruct H as [N H].
    destruct (colons_inv _ l' t (":" ++ r) v C' eq_refl H) as (_ & _ & [[F _]|[(a & y & -> & _ & F)|(y & l'' & F & C'' & ->)]]); try discriminate.
    + intros c x X. injection X as <- _. reflexivity.
    + cbn [append] in F. assert (y = r) by congruence. subst. f_equal. apply IH. exact C''.
Qed.
Lemma short_full : forall a la b, colons a la -> only_groups la -> forall l, colons (a ++ "::" ++ b) l -> False.
Proof.
  intros a la b C. induction C as [t v [H L]|t q H|t v r l [H L] C IH]; intros O l' C'.
  - apply hexadecimal_value in H. destruct H as [N H]. destruct (colons_inv _ l' t ("::" ++ b) v C' eq_refl H) as (_ & _ & [[F _]|[(a & y & -> & _ & F)|(y & l'' & F & C'' & ->)]]); try discriminate.
    + intros c x X. injection X as <- _. reflexivity.
    + cbn [append] in F. assert (y = String ":" b) by congruence. subst. exact (colons_head _ _ C'').
  - destruct (O _ (or_introl eq_refl)) as [v E]. discriminate.
  - apply hexadecimal_value in H. destruct H as [N H]. rewrite !app_assoc_s in C'.
    destruct (colons_inv _ l' t (":" ++ r ++ "::" ++ b) v C' eq_refl H) as (_ & _ & [[F _]|[(a & y & -> & _ & F)|(y & l'' & F & C'' & ->)]]); try discriminate.
    + intros c x X. injection X as <- _. reflexivity.
    + cbn [append] in F. assert (y = (r ++ "::" ++ b)%string) by (cbn [append]; congruence). subst. apply (IH (fun c Hc => O c (or_intror Hc)) _ C'').
Qed.
Lemma short_unique : forall a la b, colons a la -> only_groups la -> forall a' la' b', colons a' la' -> only_groups la' ->
  (a ++ "::" ++ b)%string = (a' ++ "::" ++ b')%string -> la = la' /\ b = b'.
Proof.
  intros a la b C. induction C as [t v [H L]|t q H|t v r l [H L] C IH]; intros O a' la' b' C' O' E.
  - apply hexadecimal_value in H. destruct H as [N H].
    destruct (short_inv _ a' la' b' t ("::" ++ b) v E C' O' eq_refl H) as (_ & _ & [[-> F]|(x & lx & F & Cx & Ox & ->)]).
    + intros c x X. injection X as <- _. reflexivity.
    + cbn [append] in F. split; [reflexivity|congruence].
    + cbn [append] in F. destruct x as [|z x]; [destruct (colons_nonempty _ Cx)|]. cbn [append] in F. assert (z = ":"%char) by congruence. subst. destruct (colons_head _ _ Cx).
  - destruct (O _ (or_introl eq_refl)) as [v E']. discriminate.
  - apply hexadecimal_value in H. destruct H as [N H]. rewrite !app_assoc_s in E.
    destruct (short_inv _ a' la' b' t (":" ++ r ++ "::" ++ b) v E C' O' eq_refl H) as (_ & _ & [[-> F]|(x & lx & F & Cx & Ox & ->)]).
    + intros c x X. injection X as <- _. reflexivity.
    + cbn [append] in F. destruct r as [|z r]; [destruct (colons_nonempty _ C)|]. cbn [append] in F. assert (z = ":"%char) by congruence. subst. destruct (colons_head _ _ C).
    + cbn [append] in F. assert (F' : (r ++ "::" ++ b)%string = (x ++ "::" ++ b')%string) by (cbn [append]; congruence).
      destruct (IH (fun c Hc => O c (or_intror Hc)) _ _ _ Cx Ox F') as [-> ->]. auto.
Qed.
Lemma ipv6_unique : forall s l l', ipv6_text s l -> ipv6_text s l' -> l = l'.
Proof.
  assert (Hd : forall t l, colons ("::" ++ t) l -> False) by (intros t l C; exact (colons_head _ _ C)).
  assert (Sc : forall t l l', some_colons t l -> some_colons t l' -> l = l').
  { intros t l l' [[-> ->]|C] [[E ->]|C']; auto; try (subst; destruct (colons_nonempty _ C)); try (destruct (colons_nonempty _ C')). exact (colons_unique _ _ C _ C'). }
  intros s l l' H1 H2. inversion H1 as [s1 l1 C1 G1|s1 t1 l1 r1 A1 O1 B1 G1 E1]; subst; inversion H2 as [s2 l2 C2 G2|s2 t2 l2 r2 A2 O2 B2 G2 E2]; subst.
  - exact (colons_unique _ _ C1 _ C2).
  - destruct A2 as [[-> ->]|A2]; [destruct (Hd _ _ C1)|]. destruct (short_full _ _ _ A2 O2 _ C1).
  - destruct A1 as [[-> ->]|A1]; [destruct (Hd _ _ C2)|]. destruct (short_full _ _ _ A1 O1 _ C2).
  - destruct A1 as [[-> ->]|A1]; destruct A2 as [[-> ->]|A2].
    + cbn [append] in E2. assert (t2 = t1) by congruence. subst. rewrite (Sc _ _ _ B1 B2). reflexivity.
    + destruct s2 as [|z s2]; [destruct (colons_nonempty _ A2)|]. cbn [append] in E2. assert (z = ":"%char) by congruence. subst. destruct (colons_head _ _ A2).
    + destruct s1 as [|z s1]; [destruct (colons_nonempty _ A1)|]. cbn [append] in E2. assert (z = ":"%char) by congruence. subst. destruct (colons_head _ _ A1).
    + destruct (short_unique _ _ t1 A1 O1 _ _ t2 A2 O2 (eq_sym E2)) as [-> ->]. rewrite (Sc _ _ _ B1 B2). reflexivity.
Qed.
Lemma parseIPv6_ok : forall s l, ipv6_text s l -> parseIPv6 s = mkIp (entries l) true.
Proof. intros s l H. destruct (parseIPv6_spec s) as [(l' & H' & E)|[_ N]]; [|destruct (N l H)]. rewrite (ipv6_unique _ _ _ H H'). exact E. Qed.

Lemma ipv6_size : forall s l, ipv6_text s l -> groups_in l = 8%nat /\ fine l.
Proof.
  assert (A : forall a b, groups_in (a ++ b) = (groups_in a + groups_in b)%nat) by (induction a as [|[v|q] a IH]; intros b; cbn; [reflexivity|rewrite IH; lia|rewrite IH; lia]).
  assert (Z : forall k, groups_in (repeat (Group 0) k) = k) by (induction k; cbn; auto).
  intros s l H. inversion H as [s1 l1 C1 G1|s1 t1 l1 r1 A1 O1 B1 G1 E1]; subst.
  - split; [exact G1|exact (colons_fine _ _ C1)].
  - rewrite !A, Z. split; [lia|]. intros a Ha. apply in_app_or in Ha. destruct Ha as [Ha|Ha]; [exact (some_colons_size _ _ A1 a Ha)|].
    apply in_app_or in Ha. destruct Ha as [Ha|Ha]; [apply repeat_spec in Ha; discriminate|exact (some_colons_size _ _ B1 a Ha)].
Qed.

(** ** The kinds of texts *)
Lemma value_lacks : forall t n w c, value hex_val 16 n t = Some w -> hex_val c = None -> lacks c t.
Proof.
  induction t as [|a t IH]; intros n w c V H; apply smem_lacks; [reflexivity|]. cbn [value] in V. destruct (hex_val a) eqn:A; [|discriminate].
  cbn [smem]. apply Bool.orb_false_iff. split; [apply Ascii.eqb_neq; congruence|]. apply smem_lacks. exact (IH _ _ _ V H).
Qed.
Lemma ipv4_first : forall s a, ipv4_text s a -> exists t r w, s = (t ++ String "." r)%string /\ value hex_val 16 0 t = Some w.
Proof.
  intros s a H. apply ipv4_dots in H. destruct H as (t1 & v1 & r1 & l1 & -> & [O1 O2] & D & ->). apply decimal_value in O1. destruct O1 as [N1 V1].
  destruct (dec_as_hex t1 0 0 v1 V1) as (h & Hh & Lh); try lia. inversion D as [|k t2 v2 r2 l2 O3 D2]; subst. exists t1, (t2 ++ r2)%string, h. auto.
Qed.
Lemma ipv6_first : forall s l, ipv6_text s l -> exists t r w, s = (t ++ String ":" r)%string /\ value hex_val 16 0 t = Some w.
Proof.
  assert (F : forall s l, colons s l -> (forall a, l <> [Quad a]) -> (exists t r w, s = (t ++ String ":" r)%string /\ value hex_val 16 0 t = Some w) \/
    exists t w, s = t /\ l = [Group w] /\ value hex_val 16 0 t = Some w).
  { intros s l C Nq. destruct C as [t v [H L]|t a H|t v r l [H L] C].
    - right. apply hexadecimal_value in H. destruct H as [_ H]. exists t, v. auto.
    - destruct (Nq a eq_refl).
    - left. apply hexadecimal_value in H. destruct H as [_ H]. exists t, r, v. auto. }
  intros s l H. inversion H as [s1 l1 C1 G1|s1 t1 l1 r1 A1 O1 B1 G1 E1]; subst.
  - destruct (F s l C1) as [X|(t & w & -> & -> & _)]; [intros a ->; discriminate|exact X|discriminate].
  - destruct A1 as [[-> ->]|A1]; [exists "", (":" ++ t1)%string, 0; auto|].
    destruct (F s1 l1 A1) as [(t & r & w & -> & W)|(t & w & -> & _ & W)].
    + intros a ->. destruct (O1 _ (or_introl eq_refl)) as [v E]. discriminate.
    + exists t, (r ++ "::" ++ t1)%string, w. rewrite app_assoc_s. auto.
    + exists t, (":" ++ t1)%string, w. auto.
Qed.
Lemma not_both : forall s a l, ipv4_text s a -> ipv6_text s l -> False.
Proof.
  intros s a l H4 H6. destruct (ipv4_first _ _ H4) as (t & r & w & E & W). destruct (ipv6_first _ _ H6) as (t' & r' & w' & E' & W').
  rewrite E in E'. destruct (split_unique hex_val 16 _ _ _ _ _ _ _ _ E' W W') as [_ F]; try discriminate; intros c x X; injection X as <- _; reflexivity.
Qed.
Lemma parse_by_skip : forall s t c r, lacks "." t -> lacks ":" t -> parse_by s (t ++ String c r) = parse_by s (String c r).
Proof.
  intros s t c r. induction t as [|a t IH]; intros H1 H2; [reflexivity|]. apply smem_lacks in H1. apply smem_lacks in H2. cbn [smem] in H1, H2.
  apply Bool.orb_false_iff in H1. apply Bool.orb_false_iff in H2. destruct H1 as [A1 H1]. destruct H2 as [A2 H2].
  cbn [append parse_by]. rewrite (Ascii.eqb_sym a "."), (Ascii.eqb_sym a ":"), A1, A2. apply IH; apply smem_lacks; assumption.
Qed.
Lemma parseIP_v4 : forall s a, ipv4_text s a -> parseIP s = IPv4 a.
Proof.
  intros s a H. rewrite <- (parseIPv4_ok _ _ H). destruct (ipv4_first _ _ H) as (t & r & w & -> & W). unfold parseIP.
  rewrite parse_by_skip; [reflexivity| |]; eapply value_lacks; eauto; reflexivity.
Qed.
Lemma parseIP_v6 : forall s l, ipv6_text s l -> parseIP s = mkIp (entries l) true.
Proof.
  intros s l H. rewrite <- (parseIPv6_ok _ _ H). destruct (ipv6_first _ _ H) as (t & r & w & -> & W). unfold parseIP.
  rewrite parse_by_skip; [reflexivity| |]; eapply value_lacks; eauto; reflexivity.
Qed.
Lemma parseIP_legal : forall s, legal (parseIP s) = true -> (exists a, ipv4_text s a) \/ (exists l, ipv6_text s l).
Proof.
  intros s. unfold parseIP. generalize s at 2. intros t. induction t as [|c t IH]; cbn [parse_by]; [discriminate|].
  destruct (Ascii.eqb c "."); [|destruct (Ascii.eqb c ":"); [|exact IH]]; intros H.
  - destruct (parseIPv4_spec s) as [(a & Ha & _)|[E _]]; [left; eauto|]. rewrite E in H. discriminate.
  - destruct (parseIPv6_spec s) as [(l & Hl & _)|[E _]]; [right; eauto|]. rewrite E in H. discriminate.
Qed.

Lemma colons_shape : forall s l, colons s l -> exists gs, Forall (fun v => v < 65536) gs /\
  (l = map Group gs \/ exists a, l = map Group gs ++ [Quad a] /\ List.length a = 4%nat /\ Forall (fun x => x < 256) a).
Proof.
  induction 1 as [t v [H L]|t a H|t v r l [H L] C (gs & F & IH)].
  - exists [v]. split; [apply Forall_cons; [lia|apply Forall_nil]|]. left. reflexivity.
  - exists []. split; [apply Forall_nil|]. right. exists a. split; [reflexivity|]. apply (ipv4_bytes _ _ H).
  - exists (v :: gs). split; [apply Forall_cons; [lia|exact F]|]. destruct IH as [->|(a & -> & A)]; [left; reflexivity|right; exists a; auto].
Qed.
Lemma groups_map : forall gs, groups_in (map Group gs) = List.length gs.
Proof. induction gs; cbn; auto. Qed.
Lemma groups_app : forall a b, groups_in (a ++ b) = (groups_in a + groups_in b)%nat.
Proof. induction a as [|[v|q] a IH]; intros b; cbn; [reflexivity|rewrite IH; lia|rewrite IH; lia]. Qed.
Lemma only_groups_map : forall l, only_groups l -> exists gs, l = map Group gs.
Proof.
  induction l as [|c l IH]; intros H; [exists []; reflexivity|]. destruct (H c (or_introl eq_refl)) as [v ->].
  destruct (IH (fun c Hc => H c (or_intror Hc))) as [gs ->]. exists (v :: gs). reflexivity.
Qed.
Lemma map_group_inj : forall a b, map Group a = map Group b -> a = b.
Proof. induction a as [|x a IH]; intros [|y b] E; try discriminate; auto. injection E as -> E. f_equal. auto. Qed.
Lemma ipv6_shape : forall s l, ipv6_text s l -> exists gs, Forall (fun v => v < 65536) gs /\
  ((l = map Group gs /\ List.length gs = 8%nat) \/
   exists a, l = map Group gs ++ [Quad a] /\ List.length gs = 6%nat /\ List.length a = 4%nat /\ Forall (fun x => x < 256) a).
Proof.
  intros s l H. assert (X : exists gs, Forall (fun v => v < 65536) gs /\
    (l = map Group gs \/ exists a, l = map Group gs ++ [Quad a] /\ List.length a = 4%nat /\ Forall (fun x => x < 256) a)).
  { inversion H as [s1 l1 C1 G1|s1 t1 l1 r1 A1 O1 B1 G1 E1]; subst; [exact (colons_shape _ _ C1)|].
    assert (Z : Forall (fun v => v < 65536) (repeat 0 (8 - groups_in l1 - groups_in r1))) by (apply Forall_forall; intros x Hx; apply repeat_spec in Hx; subst; reflexivity).
    assert (Zm : repeat (Group 0) (8 - groups_in l1 - groups_in r1) = map Group (repeat 0 (8 - groups_in l1 - groups_in r1))).
    { generalize (8 - groups_in l1 - groups_in r1)%nat. induction n; cbn; congruence. }
    rewrite Zm. assert (P1 : exists g1, Forall (fun v => v < 65536) g1 /\ l1 = map Group g1).
    { destruct A1 as [[_ ->]|A1]; [exists []; split; [apply Forall_nil|reflexivity]|]. destruct (colons_shape _ _ A1) as (g1 & F1 & [->|(a & -> & _)]); [eauto|].
      destruct (O1 (Quad a)) as [v E]; [apply in_or_app; right; left; reflexivity|discriminate]. }
    destruct P1 as (g1 & F1 & ->).
    assert (P2 : exists g2, Forall (fun v => v < 65536) g2 /\ (r1 = map Group g2 \/ exists a, r1 = map Group g2 ++ [Quad a] /\ List.length a = 4%nat /\ Forall (fun x => x < 256) a)).
    { destruct B1 as [[_ ->]|B1]; [exists []; split; [apply Forall_nil|left; reflexivity]|exact (colons_shape _ _ B1)]. }
    destruct P2 as (g2 & F2 & P2). exists (g1 ++ repeat 0 (8 - groups_in (map Group g1) - groups_in r1) ++ g2). split.
    - apply Forall_app. split; [exact F1|]. apply Forall_app. split; assumption.
    - rewrite !map_app. destruct P2 as [->|(a & -> & A)]; [left; reflexivity|]. right. exists a. rewrite <- !app_assoc. auto. }
  destruct X as (gs & F & X). exists gs. split; [exact F|]. destruct (ipv6_size _ _ H) as [Sz _].
  destruct X as [->|(a & -> & A & B)].
  - rewrite groups_map in Sz. left. auto.
  - right. exists a. rewrite groups_app, groups_map in Sz. cbn in Sz. split; [reflexivity|]. split; [lia|]. auto.
Qed.

(** ** Masks and bits *)
Lemma land_agree : forall x y m, N.land x m = N.land y m <-> forall i, N.testbit m i = true -> N.testbit x i = N.testbit y i.
Proof.
  intros x y m. split.
  - intros H i Hi. apply (f_equal (fun z => N.testbit z i)) in H. rewrite !N.land_spec, Hi, !Bool.andb_true_r in H. exact H.
  - intros H. apply N.bits_inj. intros i. rewrite !N.land_spec. destruct (N.testbit m i) eqn:E; [rewrite (H i E); reflexivity|rewrite !Bool.andb_false_r; reflexivity].
Qed.
Lemma high_bit : forall x k i, x < 2 ^ k -> k <= i -> N.testbit x i = false.
Proof.
  intros x k i L H. destruct (N.eq_dec x 0) as [->|N]; [apply N.bits_0|]. apply N.bits_above_log2. apply N.log2_lt_pow2; [lia|].
  eapply N.lt_le_trans; [exact L|]. apply N.pow_le_mono_r; lia.
Qed.
Lemma cases8 : forall i, i < 8 -> i = 0 \/ i = 1 \/ i = 2 \/ i = 3 \/ i = 4 \/ i = 5 \/ i = 6 \/ i = 7.
Proof. lia. Qed.
Lemma cases16 : forall i, i < 16 -> i < 8 \/ i = 8 \/ i = 9 \/ i = 10 \/ i = 11 \/ i = 12 \/ i = 13 \/ i = 14 \/ i = 15.
Proof. lia. Qed.

Lemma byte_part : forall signed n x y, x < 256 -> y < 256 -> n < 8 ->
  (N.land x (part_mask signed n) = N.land y (part_mask signed n) <-> firstn (N.to_nat n) (bits8 x) = firstn (N.to_nat n) (bits8 y)).
Proof.
  intros signed n x y Hx Hy Hn. rewrite land_agree.
  assert (Hi : forall i, 8 <= i -> N.testbit x i = N.testbit y i) by (intros i H; rewrite !(high_bit _ 8) by assumption; reflexivity).
  split.
  - intros H. destruct (cases8 n Hn) as [->|[->|[->|[->|[->|[->|[->| ->]]]]]]]; destruct signed; lazy [N.to_nat Pos.to_nat Pos.iter_op Nat.add firstn bits8 map];
      repeat (apply f_equal2; [apply H; reflexivity|]); reflexivity.
  - intros H i M. destruct (N.lt_ge_cases i 8) as [L|L]; [|exact (Hi i L)].
    destruct (cases8 n Hn) as [->|[->|[->|[->|[->|[->|[->| ->]]]]]]]; destruct signed; lazy [N.to_nat Pos.to_nat Pos.iter_op Nat.add firstn bits8 map] in H;
      destruct (cases8 i L) as [->|[->|[->|[->|[->|[->|[->| ->]]]]]]]; try discriminate M; congruence.
Qed.
Lemma byte_full : forall x y, x < 256 -> y < 256 -> (N.land x 255 = N.land y 255 <-> bits8 x = bits8 y).
Proof.
  intros x y Hx Hy. rewrite land_agree. split.
  - intros H. unfold bits8. cbn [map]. repeat (apply f_equal2; [apply H; reflexivity|]). reflexivity.
  - intros H i M. destruct (N.lt_ge_cases i 8) as [L|L]; [|rewrite !(high_bit _ 8) by assumption; reflexivity].
    unfold bits8 in H. cbn [map] in H. destruct (cases8 i L) as [->|[->|[->|[->|[->|[->|[->| ->]]]]]]]; congruence.
Qed.
Lemma bits8_length : forall x, List.length (bits8 x) = 8%nat. Proof. reflexivity. Qed.
Lemma bits16_length : forall x, List.length (bits16 x) = 16%nat. Proof. reflexivity. Qed.

(** The comparison of masked elements. *)
Fixpoint agree (a b m : list N) : Prop :=
  match a, b, m with x :: a', y :: b', k :: m' => N.land x k = N.land y k /\ agree a' b' m' | _, _, _ => True end.
Lemma same_under_spec : forall a b m, List.length a = List.length b -> (List.length a <= List.length m)%nat ->
  exists r, same_under a b m = Ok r /\ (r = true <-> agree a b m).
Proof.
  induction a as [|x a IH]; intros [|y b] m L M; try discriminate; [exists true; cbn; tauto|].
  destruct m as [|k m]; [cbn in M; lia|]. cbn [same_under agree]. destruct (N.eqb_spec (N.land x k) (N.land y k)) as [E|E].
  - destruct (IH b m) as (r & -> & H); [cbn in L; lia|cbn in M; lia|]. exists r. split; [reflexivity|]. tauto.
  - exists false. split; [reflexivity|]. split; [discriminate|tauto].
Qed.
Definition masked (b m : list N) : list N := map (fun q => N.land (fst q) (snd q)) (combine b m).
Lemma masked_agree : forall b a m, agree (masked b m) a m <-> agree b a m.
Proof.
  induction b as [|x b IH]; intros a m; [reflexivity|]. destruct m as [|k m]; [destruct a; reflexivity|]. destruct a as [|y a]; [reflexivity|].
  cbn [masked combine map agree fst snd]. change (map _ (combine b m)) with (masked b m). rewrite IH, <- N.land_assoc, N.land_diag. reflexivity.
Qed.
Lemma masked_length : forall b m, List.length (masked b m) = Nat.min (List.length b) (List.length m).
Proof. intros. unfold masked. rewrite map_length. apply combine_length. Qed.
Lemma mask_length : forall signed l n, List.length (mask_from signed l n) = l.
Proof. intros signed l. induction l; intros n; [reflexivity|]. cbn [mask_from]. destruct (8 <=? n); cbn; rewrite IHl; reflexivity. Qed.

Lemma firstn_step : forall k (a : list bool) b n, List.length a = k -> (k <= n)%nat -> firstn n (a ++ b) = a ++ firstn (n - k) b.
Proof. intros k a b n <- L. rewrite firstn_app, firstn_all2 by exact L. reflexivity. Qed.
Lemma firstn_short : forall k (a : list bool) b n, List.length a = k -> (n <= k)%nat -> firstn n (a ++ b) = firstn n a.
Proof. intros k a b n <- L. rewrite firstn_app. replace (n - List.length a)%nat with 0%nat by lia. rewrite firstn_O, app_nil_r. reflexivity. Qed.
Lemma app_same_length : forall (a b c d : list bool), List.length a = List.length c -> (a ++ b = c ++ d <-> a = c /\ b = d).
Proof.
  induction a as [|x a IH]; intros b [|y c] d L; try discriminate; [cbn; tauto|]. cbn [app]. split.
  - intros E. injection E as -> E. apply IH in E; [|cbn in L; lia]. destruct E as [-> ->]. auto.
  - intros [E ->]. congruence.
Qed.

Lemma agree_v4 : forall signed b a n, List.length b = List.length a -> Forall (fun x => x < 256) b -> Forall (fun x => x < 256) a ->
  (agree b a (mask_from signed (List.length b) n) <-> firstn (N.to_nat n) (flat_map bits8 b) = firstn (N.to_nat n) (flat_map bits8 a)).
Proof.
  intros signed. induction b as [|x b IH]; intros [|y a] n L Fb Fa; try discriminate; [cbn; rewrite firstn_nil; tauto|].
  apply Forall_inv in Fb as Hx. apply Forall_inv in Fa as Hy. apply Forall_inv_tail in Fb. apply Forall_inv_tail in Fa.
  assert (L' : List.length b = List.length a) by (cbn in L; lia).
  cbn [List.length mask_from flat_map]. destruct (N.leb_spec 8 n).
  - cbn [agree]. rewrite (IH a (n - 8) L' Fb Fa). rewrite !(firstn_step 8) by (try reflexivity; lia).
    rewrite app_same_length by reflexivity. rewrite byte_full by assumption. replace (N.to_nat (n - 8)) with (N.to_nat n - 8)%nat by lia. reflexivity.
  - cbn [agree]. rewrite (IH a 0 L' Fb Fa). rewrite !(firstn_short 8) by (try reflexivity; lia). rewrite byte_part by assumption.
    cbn [N.to_nat firstn]. tauto.
Qed.

(** ** IPv6 masks *)
Definition pair_of (v : N) : list N := [N.shiftr v 8; v].
Lemma shiftr_bit : forall v i, N.testbit (N.shiftr v 8) i = N.testbit v (i + 8).
Proof. intros. apply N.shiftr_spec'. Qed.
Lemma cases16' : forall n, n < 16 -> n = 0 \/ n = 1 \/ n = 2 \/ n = 3 \/ n = 4 \/ n = 5 \/ n = 6 \/ n = 7 \/
  n = 8 \/ n = 9 \/ n = 10 \/ n = 11 \/ n = 12 \/ n = 13 \/ n = 14 \/ n = 15.
Proof. lia. Qed.
Lemma bits_from : forall v w, bits16 v = bits8 (N.shiftr v 8) ++ bits8 w -> v < 65536 -> bits8 v = bits8 w.
Proof. intros v w H _. unfold bits16, bits8 in *. cbn [map app] in *. congruence. Qed.
Lemma bits16_split : forall v, bits16 v = bits8 (N.shiftr v 8) ++ bits8 v.
Proof. intros v. unfold bits16, bits8. cbn [map app]. rewrite !shiftr_bit. reflexivity. Qed.
Lemma shift_small : forall v, v < 65536 -> N.shiftr v 8 < 256.
Proof. intros v H. rewrite N.shiftr_div_pow2. apply N.div_lt_upper_bound; [discriminate|]. exact H. Qed.

Lemma low_full : forall v w, N.land v 255 = N.land w 255 <-> bits8 v = bits8 w.
Proof.
  intros v w. rewrite land_agree. split.
  - intros H. unfold bits8. cbn [map]. repeat (apply f_equal2; [apply H; reflexivity|]). reflexivity.
  - intros H i M. destruct (N.lt_ge_cases i 8) as [L|L]; [|rewrite (high_bit 255 8) in M by (try lia; reflexivity); discriminate].
    unfold bits8 in H. cbn [map] in H. destruct (cases8 i L) as [->|[->|[->|[->|[->|[->|[->| ->]]]]]]]; congruence.
Qed.
Lemma low_part : forall n v w, v < 65536 -> w < 65536 -> n < 8 -> N.shiftr v 8 = N.shiftr w 8 ->
  (N.land v (part_mask true n) = N.land w (part_mask true n) <-> firstn (N.to_nat n) (bits8 v) = firstn (N.to_nat n) (bits8 w)).
Proof.
  intros n v w Hv Hw Hn Sh. rewrite land_agree.
  assert (Hi : forall i, 8 <= i -> N.testbit v i = N.testbit w i).
  { intros i H. replace i with ((i - 8) + 8) by lia. rewrite <- !shiftr_bit, Sh. reflexivity. }
  split.
  - intros H. destruct (cases8 n Hn) as [->|[->|[->|[->|[->|[->|[->| ->]]]]]]]; lazy [N.to_nat Pos.to_nat Pos.iter_op Nat.add firstn bits8 map];
      repeat (apply f_equal2; [apply H; reflexivity|]); reflexivity.
  - intros H i M. destruct (N.lt_ge_cases i 8) as [L|L]; [|exact (Hi i L)].
    destruct (cases8 n Hn) as [->|[->|[->|[->|[->|[->|[->| ->]]]]]]]; lazy [N.to_nat Pos.to_nat Pos.iter_op Nat.add firstn bits8 map] in H;
      destruct (cases8 i L) as [->|[->|[->|[->|[->|[->|[->| ->]]]]]]]; try discriminate M; congruence.
Qed.
Lemma bits8_inj : forall x y, x < 256 -> y < 256 -> bits8 x = bits8 y -> x = y.
Proof.
  intros x y Hx Hy H. apply N.bits_inj. intros i. destruct (N.lt_ge_cases i 8) as [L|L]; [|rewrite !(high_bit _ 8) by assumption; reflexivity].
  unfold bits8 in H. cbn [map] in H. destruct (cases8 i L) as [->|[->|[->|[->|[->|[->|[->| ->]]]]]]]; congruence.
Qed.
Lemma agree_group : forall v w n, v < 65536 -> w < 65536 ->
  (agree (pair_of v) (pair_of w) (mask_from true 2 n) <-> firstn (N.to_nat n) (bits16 v) = firstn (N.to_nat n) (bits16 w)).
Proof.
  intros v w n Hv Hw. pose proof (shift_small v Hv) as Sv. pose proof (shift_small w Hw) as Sw. rewrite !bits16_split. cbn [mask_from].
  destruct (N.leb_spec 8 n).
  - rewrite !(firstn_step 8) by (try reflexivity; lia). rewrite app_same_length by reflexivity. unfold pair_of. cbn [agree].
    rewrite (byte_full _ _ Sv Sw). split; intros [E F].
    + split; [exact E|]. apply (bits8_inj _ _ Sv Sw) in E. destruct (N.leb_spec 8 (n - 8)).
      * destruct F as [F _]. apply low_full in F. congruence.
      * destruct F as [F _]. apply low_part in F; auto. replace (N.to_nat n - 8)%nat with (N.to_nat (n - 8)) by lia. exact F.
    + split; [exact E|]. apply (bits8_inj _ _ Sv Sw) in E. destruct (N.leb_spec 8 (n - 8)).
      * split; [|exact I]. apply low_full. rewrite !firstn_all2 in F by (rewrite bits8_length; lia). exact F.
      * split; [|exact I]. apply low_part; auto. replace (N.to_nat (n - 8)) with (N.to_nat n - 8)%nat by lia. exact F.
  - rewrite !(firstn_short 8) by (try reflexivity; lia). unfold pair_of. replace (8 <=? 0) with false by reflexivity. cbn [agree].
    rewrite (byte_part true n _ _ Sv Sw) by assumption. replace (part_mask true 0) with 0 by reflexivity. rewrite !N.land_0_r. tauto.
Qed.
Lemma agree_app : forall a a' m b b' m', List.length a = List.length a' -> List.length m = List.length a ->
  (agree (a ++ b) (a' ++ b') (m ++ m') <-> agree a a' m /\ agree b b' m').
Proof.
  induction a as [|x a IH]; intros [|x' a'] [|k m] b b' m' L M; try discriminate; [cbn; tauto|].
  cbn [app agree]. rewrite IH by (cbn in L, M; lia). tauto.
Qed.
Lemma mask_app : forall signed k l n, mask_from signed (k + l) n = mask_from signed k n ++ mask_from signed l (n - 8 * N.of_nat k).
Proof.
  intros signed. induction k; intros l n; [cbn [Nat.add mask_from app]; f_equal; lia|]. cbn [Nat.add mask_from].
  destruct (N.leb_spec 8 n); cbn [app]; rewrite IHk; do 3 f_equal; lia.
Qed.
Definition fits (c : chunk) : Prop := match c with Group v => v < 65536 | Quad a => List.length a = 4%nat /\ Forall (fun x => x < 256) a end.
Lemma agree_chunk : forall c d n, fits c -> fits d -> kind c = kind d ->
  (agree (entries_of c) (entries_of d) (mask_from true (List.length (entries_of c)) n) <->
   firstn (N.to_nat n) (chunk_bits c) = firstn (N.to_nat n) (chunk_bits d)).
Proof.
  intros [v|a] [w|b] n; try discriminate; cbn [fits kind entries_of chunk_bits].
  - intros Hv Hw _. exact (agree_group v w n Hv Hw).
  - intros [La Fa] [Lb Fb] _. apply agree_v4; congruence || assumption.
Qed.
Lemma chunk_lengths : forall c, fits c -> List.length (chunk_bits c) = (8 * List.length (entries_of c))%nat.
Proof.
  intros [v|a]; [reflexivity|]. intros [L _]. cbn [entries_of chunk_bits]. clear L. induction a as [|x a IH]; [reflexivity|].
  cbn [flat_map List.length]. rewrite app_length, IH, bits8_length. lia.
Qed.
Lemma kind_lengths : forall c d, fits c -> fits d -> kind c = kind d -> List.length (entries_of c) = List.length (entries_of d).
Proof. intros [v|a] [w|b]; try discriminate; [reflexivity|]. intros [A _] [B _] _. cbn [entries_of]. congruence. Qed.
Lemma agree_v6 : forall l l' n, Forall fits l -> Forall fits l' -> map kind l = map kind l' ->
  (agree (entries l) (entries l') (mask_from true (List.length (entries l)) n) <->
   firstn (N.to_nat n) (flat_map chunk_bits l) = firstn (N.to_nat n) (flat_map chunk_bits l')).
Proof.
  induction l as [|c l IH]; intros [|d l'] n F F' K; try discriminate; [cbn; rewrite firstn_nil; tauto|].
  injection K as Kc K. apply Forall_inv in F as Fc. apply Forall_inv in F' as Fd. apply Forall_inv_tail in F. apply Forall_inv_tail in F'.
  unfold entries. cbn [flat_map]. fold (entries l) (entries l'). rewrite app_length, mask_app.
  rewrite agree_app; [|exact (kind_lengths _ _ Fc Fd Kc)|apply mask_length].
  rewrite (agree_chunk c d n Fc Fd Kc), (IH l' _ F F' K), !firstn_app.
  rewrite app_same_length by (rewrite !firstn_length, !chunk_lengths, (kind_lengths _ _ Fc Fd Kc) by assumption; reflexivity).
  rewrite !chunk_lengths, (kind_lengths _ _ Fc Fd Kc) by assumption.
  replace (N.to_nat (n - 8 * N.of_nat (List.length (entries_of d)))) with (N.to_nat n - 8 * List.length (entries_of d))%nat by lia. reflexivity.
Qed.
Lemma ipv6_fits : forall s l, ipv6_text s l -> Forall fits l.
Proof.
  intros s l H. destruct (ipv6_shape _ _ H) as (gs & F & X). assert (G : Forall fits (map Group gs)).
  { clear - F. induction F; constructor; auto. }
  destruct X as [[-> _]|(a & -> & _ & A)]; [exact G|]. apply Forall_app. split; [exact G|]. constructor; [exact A|constructor].
Qed.

(** ** To4 *)
Lemma To4_v4 : forall a, List.length a = 4%nat -> To4 (IPv4 a) = Ok (mkIp a true).
Proof. intros [|a [|b [|c [|d [|]]]]] H; try discriminate. reflexivity. Qed.
Lemma entries_16 : forall s l, ipv6_text s l -> List.length (entries l) = 16%nat.
Proof.
  intros s l H. destruct (ipv6_shape _ _ H) as (gs & _ & [[-> L]|(a & -> & L & A & _)]).
  - do 9 (destruct gs as [|? gs]; try discriminate). reflexivity.
  - do 7 (destruct gs as [|? gs]; try discriminate). do 5 (destruct a as [|? a]; try discriminate). reflexivity.
Qed.
Lemma entries_sixth : forall s l, ipv6_text s l -> exists l5 v r, l = l5 ++ Group v :: r /\ entries l = entries l5 ++ N.shiftr v 8 :: v :: entries r /\
  List.length (entries l5) = 10%nat /\ List.length (entries r) = 4%nat /\ v < 65536 /\ exists gs, l5 = map Group gs /\ List.length gs = 5%nat.
Proof.
  intros s l H. destruct (ipv6_shape _ _ H) as (gs & F & [[-> L]|(a & -> & L & A & _)]).
  - destruct gs as [|g1 [|g2 [|g3 [|g4 [|g5 [|g6 [|g7 [|g8 [|]]]]]]]]]; try discriminate.
    exists (map Group [g1; g2; g3; g4; g5]), g6, (map Group [g7; g8]). repeat (split; [reflexivity|]). split.
    + rewrite Forall_forall in F. apply F. cbn. auto 7.
    + eauto.
  - destruct gs as [|g1 [|g2 [|g3 [|g4 [|g5 [|g6 [|]]]]]]]; try discriminate.
    exists (map Group [g1; g2; g3; g4; g5]), g6, [Quad a]. repeat (split; [reflexivity|]). split; [cbn; rewrite app_nil_r; exact A|]. split.
    + rewrite Forall_forall in F. apply F. cbn. auto 7.
    + eauto.
Qed.
Lemma nth_mid : forall (l : list N) x y r k, List.length l = k -> nth k (l ++ x :: y :: r) 0 = x /\ nth (S k) (l ++ x :: y :: r) 0 = y.
Proof. induction l as [|a l IH]; intros x y r k <-; [auto|]. apply (IH x y r _ eq_refl). Qed.
Lemma To4_v6 : forall s l, ipv6_text s l -> To4 (mkIp (entries l) true) = Ok (mkIp (entries l) false).
Proof.
  intros s l H. unfold To4. cbn [bytes]. rewrite (entries_16 _ _ H). cbn [Nat.eqb Nat.ltb Nat.leb].
  destruct (entries_sixth _ _ H) as (l5 & v & r & _ & E & L & _). rewrite E. destruct (nth_mid (entries l5) (N.shiftr v 8) v (entries r) 10 L) as [-> ->].
  destruct (N.eqb_spec v 255) as [->|]; [replace (N.shiftr 255 8 =? 255) with false by reflexivity; rewrite Bool.andb_false_r; reflexivity|].
  rewrite !Bool.andb_false_r. reflexivity.
Qed.

(** The masked IPv6 network turns into an IPv4 one only when it is IPv4-mapped. *)
Lemma part_even : forall signed n, n < 8 -> N.testbit (part_mask signed n) 0 = false \/ n = 0.
Proof. intros [|] n H; destruct (cases8 n H) as [->|[->|[->|[->|[->|[->|[->| ->]]]]]]]; auto. Qed.
Lemma part_low : forall v n, n < 8 -> N.land v (part_mask true n) <> 255.
Proof.
  intros v n H E. apply (f_equal (fun x => N.testbit x 0)) in E. rewrite N.land_spec in E.
  assert (X : N.testbit (part_mask true n) 0 = false) by (destruct (cases8 n H) as [->|[->|[->|[->|[->|[->|[->| ->]]]]]]]; reflexivity).
  rewrite X, Bool.andb_false_r in E. discriminate.
Qed.
Lemma mask_full : forall signed k n, 8 * N.of_nat k <= n -> mask_from signed k n = repeat 255 k.
Proof.
  intros signed. induction k; intros n H; [reflexivity|]. cbn [mask_from repeat]. destruct (N.leb_spec 8 n); [|lia].
  f_equal. apply IHk. lia.
Qed.
Lemma masked_app : forall a b m m', List.length a = List.length m -> masked (a ++ b) (m ++ m') = masked a m ++ masked b m'.
Proof.
  unfold masked. induction a as [|x a IH]; intros b [|k m] m' L; try discriminate; [reflexivity|]. cbn [app combine map]. f_equal. apply IH. cbn in L. lia.
Qed.
Lemma group_zero : forall v, v < 65536 -> N.land (N.shiftr v 8) 255 = 0 -> N.land v 255 = 0 -> v = 0.
Proof.
  intros v H A B. apply N.bits_inj. intros i. rewrite N.bits_0. destruct (N.lt_ge_cases i 8) as [L|L].
  - apply (f_equal (fun x => N.testbit x i)) in B. rewrite N.land_spec, N.bits_0 in B.
    destruct (cases8 i L) as [->|[->|[->|[->|[->|[->|[->| ->]]]]]]]; apply Bool.andb_false_iff in B; destruct B as [B|B]; try discriminate B; exact B.
  - destruct (N.lt_ge_cases i 16) as [L'|L']; [|apply (high_bit _ 16); assumption].
    apply (f_equal (fun x => N.testbit x (i - 8))) in A. rewrite N.land_spec, N.bits_0, shiftr_bit in A. replace (i - 8 + 8) with i in A by lia.
    assert (L2 : i - 8 < 8) by lia. remember (i - 8) as j.
    destruct (cases8 j L2) as [E|[E|[E|[E|[E|[E|[E|E]]]]]]]; rewrite E in A; apply Bool.andb_false_iff in A; destruct A as [A|A]; try discriminate A; exact A.
Qed.
Lemma group_ones : forall v, v < 65536 -> N.land (N.shiftr v 8) 255 = 255 -> N.land v 255 = 255 -> v = 65535.
Proof.
  intros v H A B. change 255 with (N.ones 8) in A, B. rewrite N.land_ones in A, B. rewrite N.shiftr_div_pow2 in A. change (N.ones 8) with 255 in A, B.
  change (2 ^ 8) with 256 in A, B. rewrite (N.mod_small (v / 256)) in A by (apply N.div_lt_upper_bound; [discriminate|exact H]).
  rewrite (N.div_mod v 256) by discriminate. rewrite A, B. reflexivity.
Qed.
Lemma To4_net : forall s l n, ipv6_text s l -> ~ mapped_net l n ->
  To4 (mkIp (masked (entries l) (mask_from true 16 n)) true) = Ok (mkIp (masked (entries l) (mask_from true 16 n)) false).
Proof.
  intros s l n H Nm. unfold To4. cbn [bytes]. rewrite masked_length, (entries_16 _ _ H), mask_length. cbn [Nat.min Nat.eqb Nat.ltb Nat.leb andb].
  destruct (forallb _ _ && _ && _) eqn:E; [|reflexivity]. exfalso. apply Nm. clear Nm.
  apply andb_prop in E. destruct E as [E E11]. apply andb_prop in E. destruct E as [E E10]. apply N.eqb_eq in E10. apply N.eqb_eq in E11.
  destruct (entries_sixth _ _ H) as (l5 & v & r & -> & X & L5 & Lr & Hv & gs & -> & Lg). rewrite X in *.
  change 16%nat with (10 + (2 + 4))%nat in E, E10, E11. rewrite !mask_app in E, E10, E11. rewrite masked_app in E, E10, E11 by (rewrite mask_length; exact L5).
  assert (Lm : List.length (masked (entries (map Group gs)) (mask_from true 10 n)) = 10%nat) by (rewrite masked_length, L5, mask_length; reflexivity).
  set (n10 := n - 8 * N.of_nat 10) in *.
  assert (M2 : exists m1 m2, mask_from true 2 n10 = [m1; m2] /\ (n < 96 -> exists k, k < 8 /\ m2 = part_mask true k) /\ (96 <= n -> m1 = 255 /\ m2 = 255)).
  { cbn [mask_from]. destruct (N.leb_spec 8 n10) as [G|G].
    - destruct (N.leb_spec 8 (n10 - 8)) as [G'|G']; eexists; eexists; (split; [reflexivity|]); split; intros; try (exfalso; lia); auto. exists (n10 - 8). auto.
    - eexists. eexists. split; [reflexivity|]. split; intros; [exists 0; split; [lia|reflexivity]|exfalso; lia]. }
  destruct M2 as (m1 & m2 & M2 & Small & Full). rewrite M2 in E, E10, E11.
  change (masked (N.shiftr v 8 :: v :: entries r) ([m1; m2] ++ mask_from true 4 (n10 - 8 * N.of_nat 2)))
    with (N.land (N.shiftr v 8) m1 :: N.land v m2 :: masked (entries r) (mask_from true 4 (n10 - 8 * N.of_nat 2))) in E, E10, E11.
  destruct (nth_mid _ (N.land (N.shiftr v 8) m1) (N.land v m2) (masked (entries r) (mask_from true 4 (n10 - 8 * N.of_nat 2))) 10 Lm) as [Y1 Y2].
  rewrite Y1 in E10. rewrite Y2 in E11.
  assert (Big : 96 <= n).
  { destruct (N.le_gt_cases 96 n) as [|Lt]; [assumption|]. destruct (Small Lt) as (k & Hk & ->). destruct (part_low v k Hk E11). }
  destruct (Full Big) as [-> ->].
  split; [exact Big|]. exists r.
  rewrite (group_ones v Hv E10 E11). rewrite firstn_app, Lm, firstn_all2 in E by lia. rewrite forallb_app in E. apply andb_prop in E. destruct E as [E _].
  rewrite mask_full in E by lia. destruct gs as [|g1 [|g2 [|g3 [|g4 [|g5 [|]]]]]]; try discriminate. unfold masked in E. cbn -[N.land N.shiftr N.eqb] in E.
  assert (Fg : Forall fits (map Group [g1; g2; g3; g4; g5])) by (pose proof (ipv6_fits _ _ H) as Fa; apply Forall_app in Fa; tauto).
  cbn [map] in Fg. inversion Fg as [|? ? F1 Fg1]; subst. inversion Fg1 as [|? ? F2 Fg2]; subst. inversion Fg2 as [|? ? F3 Fg3]; subst.
  inversion Fg3 as [|? ? F4 Fg4]; subst. inversion Fg4 as [|? ? F5 Fg5]; subst. cbn [fits] in F1, F2, F3, F4, F5.
  repeat (apply andb_prop in E; let A := fresh "A" in destruct E as [A E]; apply N.eqb_eq in A).
  rewrite (group_zero g1), (group_zero g2), (group_zero g3), (group_zero g4), (group_zero g5) by assumption. reflexivity.
Qed.

(** ** Networks *)
Lemma dtoi_exact : forall t, (exists v, decimal t v /\ v < big /\ dtoi t = (v, String.length t)) \/
  ((forall v, decimal t v -> big <= v) /\ exists n k, dtoi t = (n, k) /\ (big <=? n) || Nat.eqb k 0 || negb (Nat.eqb k (String.length t)) = true).
Proof.
  intros s. rewrite dtoi_go. destruct (go_split dec_val 10 big ltac:(lia) s 0 0 ltac:(reflexivity)) as (t & r & v & -> & V & R & A & B).
  destruct (N.le_gt_cases big v) as [L|L].
  - right. split.
    + intros w D. apply decimal_value in D. destruct D as [_ D].
      destruct (split_unique dec_val 10 t r (t ++ r) "" 0 0 v w) as [E _]; auto; [rewrite app_nil_r_s; reflexivity|intros c x X; discriminate|].
      rewrite <- E in D. congruence.
    + destruct (B L) as (k & c & d & E & _). exists big, (0 + k)%nat. split; [exact E|reflexivity].
  - specialize (A L). cbn [Nat.add] in A. destruct r as [|c r].
    + rewrite app_nil_r_s in *. destruct t as [|a t].
      * right. split; [intros w D; apply decimal_value in D; destruct D as [D _]; congruence|]. exists v, 0%nat. split; [exact A|].
        rewrite Bool.orb_true_r. reflexivity.
      * left. exists v. split; [apply decimal_value; split; [discriminate|exact V]|]. auto.
    + right. split.
      * intros w D. apply decimal_value in D. destruct D as [_ D].
        destruct (split_unique dec_val 10 t (String c r) (t ++ String c r) "" 0 0 v w) as [_ E]; auto; [rewrite app_nil_r_s; reflexivity|intros x y X; discriminate|discriminate].
      * exists v, (String.length t). split; [exact A|]. rewrite length_app_s. cbn [String.length].
        destruct (Nat.eqb_spec (String.length t) (String.length t + S (String.length r))); [lia|]. apply Bool.orb_true_r.
Qed.

Lemma lacks_app2 : forall c a b, lacks c a -> lacks c b -> lacks c (a ++ b).
Proof.
  intros c a b A B. apply smem_lacks in A. apply smem_lacks in B. apply smem_lacks. induction a as [|x a IH]; [exact B|].
  cbn [append smem] in *. apply Bool.orb_false_iff in A. destruct A as [A1 A2]. rewrite A1. exact (IH A2).
Qed.
Lemma dec_lacks : forall t v, decimal t v -> lacks "/" t.
Proof.
  intros t v H. apply decimal_value in H. destruct H as [_ H]. revert H. generalize 0. induction t as [|c t IH]; intros n V; apply smem_lacks; [reflexivity|].
  cbn [value] in V. destruct (dec_val c) eqn:A; [|discriminate]. cbn [smem]. apply Bool.orb_false_iff. split.
  - apply Ascii.eqb_neq. intros <-. discriminate.
  - apply smem_lacks. exact (IH _ V).
Qed.
Lemma lacks_ch : forall c x t, c <> x -> lacks c t -> lacks c (String x t).
Proof. intros c x t N H. apply smem_lacks in H. apply smem_lacks. cbn [smem]. rewrite H. destruct (Ascii.eqb_spec c x); [congruence|reflexivity]. Qed.
Lemma ipv4_lacks : forall s a, ipv4_text s a -> lacks "/" s.
Proof.
  intros s a (t1 & t2 & t3 & t4 & v1 & v2 & v3 & v4 & -> & _ & [O1 _] & [O2 _] & [O3 _] & [O4 _]).
  apply dec_lacks in O1. apply dec_lacks in O2. apply dec_lacks in O3. apply dec_lacks in O4.
  repeat (apply lacks_app2; [assumption|]; apply lacks_ch; [discriminate|]). exact O4.
Qed.
Lemma colons_lacks : forall s l, colons s l -> lacks "/" s.
Proof.
  assert (G : forall t v, group t v -> lacks "/" t).
  { intros t v [H _]. apply hexadecimal_value in H. destruct H as [_ H]. eapply value_lacks; [exact H|reflexivity]. }
  induction 1 as [t v H|t a H|t v r l H C IH]; [exact (G _ _ H)|exact (ipv4_lacks _ _ H)|].
  apply lacks_app2; [exact (G _ _ H)|]. apply lacks_ch; [discriminate|exact IH].
Qed.
Lemma ipv6_lacks : forall s l, ipv6_text s l -> lacks "/" s.
Proof.
  assert (N : lacks "/" "") by (apply smem_lacks; reflexivity).
  assert (Sc : forall s l, some_colons s l -> lacks "/" s) by (intros s l [[-> _]|H]; [exact N|exact (colons_lacks _ _ H)]).
  intros s l H. destruct H as [s l C _|s t l r A _ B _]; [exact (colons_lacks _ _ C)|].
  apply lacks_app2; [exact (Sc _ _ A)|]. apply lacks_ch; [discriminate|]. apply lacks_ch; [discriminate|]. exact (Sc _ _ B).
Qed.

Lemma first_slash : forall a b, lacks "/" a -> first_occurrence "/" (a ++ "/" ++ b) a b.
Proof.
  intros a b L. split; [reflexivity|]. intros a' b' E. cbn [append] in E. destruct (Nat.le_gt_cases (String.length a) (String.length a')) as [|Lt]; [assumption|].
  exfalso. revert a' Lt E. induction a as [|x a IH]; intros a' Lt E; [cbn in Lt; lia|]. apply smem_lacks in L. cbn [smem] in L.
  apply Bool.orb_false_iff in L. destruct L as [L1 L2]. destruct a' as [|y a'].
  - cbn [append] in E. injection E as -> _. discriminate L1.
  - cbn [append] in E. injection E as -> E. apply smem_lacks in L2. apply (IH L2 a'); [cbn in Lt; lia|exact E].
Qed.

(** Either the text is a network, and what the parser makes of it, or it is refused. *)

Lemma list_eqb_refl : forall l, list_eqb l l = true.
Proof.
  intros l. unfold list_eqb. rewrite Nat.eqb_refl. cbn [andb]. induction l as [|x l IH]; [reflexivity|]. cbn [combine forallb fst snd]. rewrite N.eqb_refl. exact IH.
Qed.
Lemma Mask_v4 : forall a m, List.length a = 4%nat -> List.length m = 4%nat -> Mask (IPv4 a) m = mkIp (masked a m) true.
Proof.
  intros a m La Lm. unfold Mask, IPv4. cbn [bytes]. rewrite Lm, app_length, La. cbn [Nat.eqb andb List.length v4InV6Prefix Nat.add].
  rewrite Lm. cbn [Nat.eqb]. replace (firstn 12 (v4InV6Prefix ++ a)) with v4InV6Prefix by reflexivity.
  rewrite list_eqb_refl. cbn [andb]. replace (skipn 12 (v4InV6Prefix ++ a)) with a by reflexivity.
  rewrite La. reflexivity.
Qed.
Lemma Mask_v6 : forall b m, List.length b = 16%nat -> List.length m = 16%nat -> Mask (mkIp b true) m = mkIp (masked b m) true.
Proof. intros b m Lb Lm. unfold Mask. cbn [bytes]. rewrite Lm, Lb. cbn [Nat.eqb andb]. rewrite Lm. cbn [Nat.eqb andb]. rewrite Lb. reflexivity. Qed.

Lemma parseCIDR_spec : forall signed s,
  (exists a n, v4_net s a n /\ parseCIDR signed s = Ok (IPv4 a, mkIp (masked a (mask_from signed 4 n)) true, mask_from signed 4 n)) \/
  (exists l n, v6_net s l n /\ parseCIDR signed s = Ok (mkIp (entries l) true, mkIp (masked (entries l) (mask_from signed 16 n)) true, mask_from signed 16 n)) \/
  (parseCIDR signed s = Throw ParserError /\ (forall a n, ~ v4_net s a n) /\ (forall l n, ~ v6_net s l n)).
Proof.
  intros signed s. unfold parseCIDR. destruct (sfind "/" s) as [pos|] eqn:F.
  2:{ right. right. split; [reflexivity|]. pose proof (proj1 (sfind_none "/" s ltac:(discriminate)) F) as No.
      split; intros x n (addr & bits & -> & _); apply No; exists addr, bits; reflexivity. }
  destruct (sfind_some _ _ _ F) as [Lp Fo]. cbn [String.length] in Fo. set (addr := stake pos s) in *. set (mask := sdrop (pos + 1) s) in *.
  pose proof (proj1 Fo) as Es.
  assert (Un : forall addr' bits', s = network addr' bits' -> lacks "/" addr' -> addr' = addr /\ bits' = mask).
  { intros addr' bits' E L. pose proof (first_slash addr' bits' L) as Fo'. change (addr' ++ "/" ++ bits')%string with (network addr' bits') in Fo'. rewrite <- E in Fo'.
    destruct (first_occurrence_unique "/" _ _ _ _ _ ltac:(discriminate) Fo' Fo) as [-> ->]. auto. }
  assert (N4 : (forall a, ~ ipv4_text addr a) -> forall a n, ~ v4_net s a n).
  { intros No a n (addr' & bits' & E & H & _). destruct (Un _ _ E (ipv4_lacks _ _ H)) as [-> _]. exact (No _ H). }
  assert (N6 : (forall l, ~ ipv6_text addr l) -> forall l n, ~ v6_net s l n).
  { intros No a n (addr' & bits' & E & H & _). destruct (Un _ _ E (ipv6_lacks _ _ H)) as [-> _]. exact (No _ H). }
  assert (D4 : forall k, (forall v, decimal mask v -> k < v) -> k = 32 -> forall a n, ~ v4_net s a n).
  { intros k No -> a n (addr' & bits' & E & H & D & Le). destruct (Un _ _ E (ipv4_lacks _ _ H)) as [_ ->]. specialize (No _ D). lia. }
  assert (D6 : forall k, (forall v, decimal mask v -> k < v) -> k = 128 -> forall a n, ~ v6_net s a n).
  { intros k No -> a n (addr' & bits' & E & H & D & Le). destruct (Un _ _ E (ipv6_lacks _ _ H)) as [_ ->]. specialize (No _ D). lia. }
  assert (Dn : forall v w, decimal mask v -> decimal mask w -> v = w).
  { intros v w A B. apply decimal_value in A. apply decimal_value in B. destruct A, B. congruence. }
  destruct (parseIPv4_spec addr) as [(a & H4 & ->)|[-> No4]].
  - cbn [legal IPv4]. pose proof (ipv4_bytes _ _ H4) as [La _].
    destruct (dtoi_exact mask) as [(v & D & Lv & ->)|(No & n & k & -> & Bad)].
    + assert (Bv : (big <=? v) = false) by (apply N.leb_gt; exact Lv). rewrite Bv. apply decimal_value in D as D'. destruct D' as [Nm _].
      assert (Zk : Nat.eqb (String.length mask) 0 = false) by (destruct mask; [congruence|reflexivity]). rewrite Zk, Nat.eqb_refl. cbn [negb orb].
      change (8 * N.of_nat IPv4len) with 32. destruct (N.ltb_spec 32 v) as [Lt|Le].
      * right. right. split; [reflexivity|]. split.
        -- apply (D4 32); [intros w W; rewrite <- (Dn _ _ D W); exact Lt|reflexivity].
        -- apply N6. intros l Hl. exact (not_both _ _ _ H4 Hl).
      * left. exists a, v. split; [exists addr, mask; auto|]. unfold CIDRMask. change IPv4len with 4%nat. fold (IPv4 a). rewrite Mask_v4 by (try exact La; apply mask_length). reflexivity.
    + assert (Bad' : (big <=? n) || Nat.eqb k 0 || negb (Nat.eqb k (String.length mask)) || (8 * N.of_nat IPv4len <? n) = true) by (rewrite Bad; reflexivity).
      cbn [negb orb]. rewrite Bad'. right. right. split; [reflexivity|]. split.
      * apply (D4 32); [intros w W; specialize (No _ W); unfold big in No; lia|reflexivity].
      * apply N6. intros l Hl. exact (not_both _ _ _ H4 Hl).
  - cbn [legal illegal]. destruct (parseIPv6_spec addr) as [(l & H6 & ->)|[-> No6]].
    2:{ right. right. destruct (dtoi mask) as [n k]. split; [reflexivity|]. split; [apply N4; exact No4|apply N6; exact No6]. }
    cbn [legal]. destruct (dtoi_exact mask) as [(v & D & Lv & ->)|(No & n & k & -> & Bad)].
    + assert (Bv : (big <=? v) = false) by (apply N.leb_gt; exact Lv). rewrite Bv. apply decimal_value in D as D'. destruct D' as [Nm _].
      assert (Zk : Nat.eqb (String.length mask) 0 = false) by (destruct mask; [congruence|reflexivity]). rewrite Zk, Nat.eqb_refl. cbn [negb orb].
      change (8 * N.of_nat IPv6len) with 128. destruct (N.ltb_spec 128 v) as [Lt|Le].
      * right. right. split; [reflexivity|]. split; [apply N4; exact No4|].
        apply (D6 128); [intros w W; rewrite <- (Dn _ _ D W); exact Lt|reflexivity].
      * right. left. exists l, v. split; [exists addr, mask; auto|]. unfold CIDRMask. change IPv6len with 16%nat.
        rewrite Mask_v6 by (try exact (entries_16 _ _ H6); apply mask_length). reflexivity.
    + assert (Bad' : (big <=? n) || Nat.eqb k 0 || negb (Nat.eqb k (String.length mask)) || (8 * N.of_nat IPv6len <? n) = true) by (rewrite Bad; reflexivity).
      cbn [negb orb]. rewrite Bad'. right. right. split; [reflexivity|]. split; [apply N4; exact No4|].
      apply (D6 128); [intros w W; specialize (No _ W); unfold big in No; lia|reflexivity].
Qed.
Lemma parseCIDR_v4 : forall signed s a n, v4_net s a n ->
  parseCIDR signed s = Ok (IPv4 a, mkIp (masked a (mask_from signed 4 n)) true, mask_from signed 4 n).
Proof.
  intros signed s a n H. destruct (parseCIDR_spec signed s) as [(a' & n' & H' & ->)|[(l & n' & H' & _)|(_ & No & _)]]; [| |destruct (No _ _ H)].
  - destruct H as (ad & bi & -> & A & D & _). destruct H' as (ad' & bi' & E & A' & D' & _).
    pose proof (first_slash ad bi (ipv4_lacks _ _ A)) as F. pose proof (first_slash ad' bi' (ipv4_lacks _ _ A')) as F'.
    fold (network ad bi) in F. fold (network ad' bi') in F'. rewrite <- E in F'.
    destruct (first_occurrence_unique "/" _ _ _ _ _ ltac:(discriminate) F F') as [<- <-]. rewrite (ipv4_unique _ _ _ A A').
    apply decimal_value in D. apply decimal_value in D'. destruct D, D'. replace n' with n by congruence. reflexivity.
  - exfalso. destruct H as (ad & bi & -> & A & D & _). destruct H' as (ad' & bi' & E & A' & D' & _).
    pose proof (first_slash ad bi (ipv4_lacks _ _ A)) as F. pose proof (first_slash ad' bi' (ipv6_lacks _ _ A')) as F'.
    fold (network ad bi) in F. fold (network ad' bi') in F'. rewrite <- E in F'.
    destruct (first_occurrence_unique "/" _ _ _ _ _ ltac:(discriminate) F F') as [<- <-]. exact (not_both _ _ _ A A').
Qed.
Lemma parseCIDR_v6 : forall signed s l n, v6_net s l n ->
  parseCIDR signed s = Ok (mkIp (entries l) true, mkIp (masked (entries l) (mask_from signed 16 n)) true, mask_from signed 16 n).
Proof.
  intros signed s a n H. destruct (parseCIDR_spec signed s) as [(l & n' & H' & _)|[(a' & n' & H' & ->)|(_ & _ & No)]]; [| |destruct (No _ _ H)].
  - exfalso. destruct H as (ad & bi & -> & A & D & _). destruct H' as (ad' & bi' & E & A' & D' & _).
    pose proof (first_slash ad bi (ipv6_lacks _ _ A)) as F. pose proof (first_slash ad' bi' (ipv4_lacks _ _ A')) as F'.
    fold (network ad bi) in F. fold (network ad' bi') in F'. rewrite <- E in F'.
    destruct (first_occurrence_unique "/" _ _ _ _ _ ltac:(discriminate) F F') as [<- <-]. exact (not_both _ _ _ A' A).
  - destruct H as (ad & bi & -> & A & D & _). destruct H' as (ad' & bi' & E & A' & D' & _).
    pose proof (first_slash ad bi (ipv6_lacks _ _ A)) as F. pose proof (first_slash ad' bi' (ipv6_lacks _ _ A')) as F'.
    fold (network ad bi) in F. fold (network ad' bi') in F'. rewrite <- E in F'.
    destruct (first_occurrence_unique "/" _ _ _ _ _ ltac:(discriminate) F F') as [<- <-]. rewrite (ipv6_unique _ _ _ A A').
    apply decimal_value in D. apply decimal_value in D'. destruct D, D'. replace n' with n by congruence. reflexivity.
Qed.

(** ** Containment *)
Lemma net_v4 : forall b m, List.length b = 4%nat -> List.length m = 4%nat -> networkNumberAndMask (mkIp b true) m = Ok (b, m).
Proof. intros b m Lb Lm. unfold networkNumberAndMask, To4. cbn [bytes]. rewrite Lb. cbn [Nat.eqb bind legal negb andb bytes]. rewrite Lm. reflexivity. Qed.
Lemma match_v4 : forall signed s a t b n, ipv4_text s a -> v4_net t b n ->
  exists r, IPMatch signed s t = Ok r /\ (r = true <-> firstn (N.to_nat n) (flat_map bits8 a) = firstn (N.to_nat n) (flat_map bits8 b)).
Proof.
  intros signed s a t b n A B. pose proof (ipv4_bytes _ _ A) as [La Fa]. pose proof B as (ad & bi & _ & Bt & _). pose proof (ipv4_bytes _ _ Bt) as [Lb Fb].
  unfold IPMatch. rewrite (parseIP_v4 _ _ A). cbn [legal IPv4 negb]. rewrite (parseCIDR_v4 signed _ _ _ B). cbn [bind legal IPv4 negb].
  unfold contains. rewrite net_v4 by (try (rewrite masked_length, Lb, mask_length; reflexivity); apply mask_length). cbn [bind].
  fold (IPv4 a). rewrite (To4_v4 _ La). cbn [bind legal bytes fst snd]. rewrite masked_length, mask_length, La, Lb. cbn [Nat.min Nat.eqb negb].
  destruct (same_under_spec (masked b (mask_from signed 4 n)) a (mask_from signed 4 n)) as (r & -> & H).
  - rewrite masked_length, mask_length, La, Lb. reflexivity.
  - rewrite masked_length, mask_length, Lb. reflexivity.
  - exists r. split; [reflexivity|]. rewrite H, masked_agree. rewrite <- Lb at 1. rewrite agree_v4 by congruence || assumption. split; intros; symmetry; assumption.
Qed.
Lemma match_6_in_4 : forall signed s l t b n, ipv6_text s l -> v4_net t b n -> IPMatch signed s t = Ok false.
Proof.
  intros signed s l t b n A B. pose proof B as (ad & bi & _ & Bt & _). pose proof (ipv4_bytes _ _ Bt) as [Lb Fb].
  unfold IPMatch. rewrite (parseIP_v6 _ _ A). cbn [legal negb]. rewrite (parseCIDR_v4 signed _ _ _ B). cbn [bind legal IPv4 negb].
  unfold contains. rewrite net_v4 by (try (rewrite masked_length, Lb, mask_length; reflexivity); apply mask_length). cbn [bind].
  rewrite (To4_v6 _ _ A). cbn [bind legal bytes fst]. rewrite masked_length, mask_length, Lb, (entries_16 _ _ A). reflexivity.
Qed.
Lemma net_v6 : forall t l n, ipv6_text t l -> ~ mapped_net l n ->
  networkNumberAndMask (mkIp (masked (entries l) (mask_from true 16 n)) true) (mask_from true 16 n) =
  Ok (masked (entries l) (mask_from true 16 n), mask_from true 16 n).
Proof.
  intros t l n H Nm. unfold networkNumberAndMask. rewrite (To4_net _ _ _ H Nm). cbn [bind legal bytes negb andb].
  rewrite masked_length, (entries_16 _ _ H), mask_length. reflexivity.
Qed.
Lemma match_4_in_6 : forall s a t l n, ipv4_text s a -> v6_net t l n -> ~ mapped_net l n -> IPMatch true s t = Ok false.
Proof.
  intros s a t l n A B Nm. pose proof B as (ad & bi & _ & Bt & _). pose proof (ipv4_bytes _ _ A) as [La _].
  unfold IPMatch. rewrite (parseIP_v4 _ _ A). cbn [legal IPv4 negb]. rewrite (parseCIDR_v6 true _ _ _ B). cbn [bind legal negb].
  unfold contains. rewrite (net_v6 _ _ _ Bt Nm). cbn [bind]. fold (IPv4 a). rewrite (To4_v4 _ La). cbn [bind legal bytes fst].
  rewrite masked_length, mask_length, La, (entries_16 _ _ Bt). reflexivity.
Qed.
Lemma match_v6 : forall s l t r n, ipv6_text s l -> v6_net t r n -> map kind l = map kind r -> ~ mapped_net r n ->
  exists x, IPMatch true s t = Ok x /\ (x = true <-> firstn (N.to_nat n) (flat_map chunk_bits l) = firstn (N.to_nat n) (flat_map chunk_bits r)).
Proof.
  intros s l t r n A B K Nm. pose proof B as (ad & bi & _ & Bt & _).
  unfold IPMatch. rewrite (parseIP_v6 _ _ A). cbn [legal negb]. rewrite (parseCIDR_v6 true _ _ _ B). cbn [bind legal negb].
  unfold contains. rewrite (net_v6 _ _ _ Bt Nm). cbn [bind]. rewrite (To4_v6 _ _ A). cbn [bind legal bytes fst snd].
  rewrite masked_length, mask_length, (entries_16 _ _ A), (entries_16 _ _ Bt). cbn [Nat.min Nat.eqb negb].
  destruct (same_under_spec (masked (entries r) (mask_from true 16 n)) (entries l) (mask_from true 16 n)) as (x & -> & H).
  - rewrite masked_length, mask_length, (entries_16 _ _ A), (entries_16 _ _ Bt). reflexivity.
  - rewrite masked_length, mask_length, (entries_16 _ _ Bt). reflexivity.
  - exists x. split; [reflexivity|]. rewrite H, masked_agree. rewrite <- (entries_16 _ _ Bt) at 1.
    rewrite agree_v6 by (try (eapply ipv6_fits; eassumption); symmetry; exact K). split; intros; symmetry; assumption.
Qed.

(** ** No undefined behaviour *)
Lemma To4_16 : forall b, List.length b = 16%nat -> forall x, exists q, To4 (mkIp b x) = Ok q /\
  ((legal q = true /\ List.length (bytes q) = 4%nat) \/ (legal q = false /\ bytes q = b)).
Proof.
  intros b L x. unfold To4. cbn [bytes]. rewrite L. cbn [Nat.eqb Nat.ltb Nat.leb andb]. destruct (forallb _ _ && _ && _).
  - eexists. split; [reflexivity|]. left. split; [reflexivity|]. cbn [bytes]. rewrite firstn_length, skipn_length, L. reflexivity.
  - eexists. split; [reflexivity|]. right. auto.
Qed.
Lemma contains_ok : forall b m p, (List.length b = 4%nat \/ List.length b = 16%nat) -> List.length m = List.length b -> List.length (bytes p) = 16%nat ->
  exists r, contains (mkIp b true) m p = Ok r.
Proof.
  intros b m p Lb Lm Lp. assert (X : exists x k, networkNumberAndMask (mkIp b true) m = Ok (x, k) /\ List.length x = List.length k).
  { destruct Lb as [Lb|Lb]; [exists b, m; split; [apply net_v4; congruence|congruence]|]. unfold networkNumberAndMask.
    destruct (To4_16 b Lb true) as (q & -> & [[Q1 Q2]|[Q1 Q2]]); cbn [bind bytes]; rewrite Q1, Lb, Lm, Lb; cbn [negb andb Nat.eqb]; rewrite Q2.
    - eexists. eexists. split; [reflexivity|]. rewrite skipn_length, Lm, Lb. exact Q2.
    - rewrite Lb. cbn [Nat.eqb]. eexists. eexists. split; [reflexivity|]. congruence. }
  destruct X as (x & k & X & Lx). unfold contains. rewrite X. cbn [bind]. destruct p as [pb pl]. destruct (To4_16 pb Lp pl) as (q & -> & _). cbn [bind fst snd].
  destruct (Nat.eqb_spec (List.length (bytes (if legal q then q else mkIp pb pl))) (List.length x)) as [E|E]; cbn [negb]; [|exists false; reflexivity].
  destruct (same_under_spec x (bytes (if legal q then q else mkIp pb pl)) k) as (r & R & _); [congruence|lia|]. exists r. exact R.
Qed.
Lemma match_total : forall signed s t,
  (((exists a, ipv4_text s a) \/ (exists l, ipv6_text s l)) /\ ((exists a n, v4_net t a n) \/ (exists l n, v6_net t l n)) /\ exists r, IPMatch signed s t = Ok r) \/
  (((exists a, ipv4_text s a) \/ (exists l, ipv6_text s l)) /\ ~ ((exists a n, v4_net t a n) \/ (exists l n, v6_net t l n)) /\ IPMatch signed s t = Throw ParserError) \/
  (~ ((exists a, ipv4_text s a) \/ (exists l, ipv6_text s l)) /\ IPMatch signed s t = Throw IllegalArgument).
Proof.
  intros signed s t. assert (D : (((exists a, ipv4_text s a) \/ (exists l, ipv6_text s l)) /\ legal (parseIP s) = true /\ List.length (bytes (parseIP s)) = 16%nat) \/
    (~ ((exists a, ipv4_text s a) \/ (exists l, ipv6_text s l)) /\ legal (parseIP s) = false)).
  { destruct (legal (parseIP s)) eqn:E.
    - left. pose proof (parseIP_legal _ E) as X. split; [exact X|]. split; [reflexivity|]. destruct X as [[a A]|[l A]].
      + rewrite (parseIP_v4 _ _ A). destruct (ipv4_bytes _ _ A) as [L _]. cbn [bytes IPv4]. rewrite app_length, L. reflexivity.
      + rewrite (parseIP_v6 _ _ A). exact (entries_16 _ _ A).
    - right. split; [|reflexivity]. intros [[a A]|[l A]]; [rewrite (parseIP_v4 _ _ A) in E|rewrite (parseIP_v6 _ _ A) in E]; discriminate. }
  unfold IPMatch. destruct D as [(A & -> & L)|[A ->]]; cbn [negb]; [|auto].
  destruct (parseCIDR_spec signed t) as [(a & n & B & ->)|[(l & n & B & ->)|(-> & N4 & N6)]]; cbn [bind legal IPv4 negb].
  - left. split; [exact A|]. split; [left; eauto|]. destruct B as (ad & bi & _ & Bt & _). destruct (ipv4_bytes _ _ Bt) as [Lb _].
    apply contains_ok; [|rewrite masked_length, !mask_length, Lb; reflexivity|exact L]. rewrite masked_length, mask_length, Lb. auto.
  - left. split; [exact A|]. split; [right; eauto|]. destruct B as (ad & bi & _ & Bt & _). pose proof (entries_16 _ _ Bt) as Lb.
    apply contains_ok; [|rewrite masked_length, !mask_length, Lb; reflexivity|exact L]. rewrite masked_length, mask_length, Lb. auto.
  - right. left. split; [exact A|]. split; [|reflexivity]. intros [(a & n & H)|(l & n & H)]; [exact (N4 _ _ H)|exact (N6 _ _ H)].
Qed.
Lemma net_slash : forall t, ((exists a n, v4_net t a n) \/ (exists l n, v6_net t l n)) -> ~ lacks "/" t.
Proof. intros t [(a & n & ad & bi & -> & _)|(a & n & ad & bi & -> & _)] H; apply H; exists ad, bi; reflexivity. Qed.

(** An IPv6 address is in no IPv4-mapped network. *)
Lemma match_6_in_mapped : forall signed s l t r n, ipv6_text s l -> v6_net t r n -> mapped_net r n -> IPMatch signed s t = Ok false.
Proof.
  intros signed s l t r n A B (Hn & r' & ->). pose proof B as (ad & bi & _ & Bt & _). pose proof (entries_16 _ _ Bt) as L16.
  unfold IPMatch. rewrite (parseIP_v6 _ _ A). cbn [legal negb]. rewrite (parseCIDR_v6 signed _ _ _ B). cbn [bind legal negb].
  assert (L4 : List.length (entries r') = 4%nat) by (unfold entries in *; rewrite flat_map_app, app_length in L16; cbn in L16; lia).
  assert (T : exists q, To4 (mkIp (masked (entries (map Group [0; 0; 0; 0; 0; 65535] ++ r')) (mask_from signed 16 n)) true) = Ok (mkIp q true) /\ List.length q = 4%nat).
  { unfold entries in *. rewrite flat_map_app. change 16%nat with (12 + 4)%nat. rewrite mask_app, (mask_full signed 12) by lia.
    rewrite masked_app by reflexivity. set (z := masked (flat_map entries_of r') (mask_from signed 4 (n - 8 * N.of_nat 12))).
    assert (Lz : List.length z = 4%nat) by (unfold z; rewrite masked_length, L4, mask_length; reflexivity).
    destruct z as [|z1 [|z2 [|z3 [|z4 [|]]]]]; try discriminate. eexists. split; reflexivity. }
  destruct T as (q & T & Lq). unfold contains, networkNumberAndMask. rewrite T. cbn [bind legal bytes negb andb].
  rewrite mask_length, Lq. cbn [Nat.eqb andb bind fst snd]. rewrite (To4_v6 _ _ A). cbn [bind legal bytes]. rewrite (entries_16 _ _ A), Lq. reflexivity.
Qed.
