(** Property C60, continued: the positions FindAllOccurences gives. *)
From Coq Require Import Lia Sorted.
From Verif Require Import Base M_Util.

(** [pat] is found in [s] at position [p]. *)
Definition found (pat s : string) (p : nat) : Prop := String.substring p (String.length pat) s = pat.

Lemma prefix_found : forall pat s, String.prefix pat s = true <-> found pat s 0.
Proof.
  unfold found. induction pat as [|c pat IH]; intros [|d s]; simpl; try (split; intros; (reflexivity || discriminate)).
  destruct (Ascii.ascii_dec c d) as [->|N].
  - rewrite IH. split; intros H; [rewrite H; reflexivity|inversion H; congruence].
  - split; [discriminate|]. intros H. inversion H. congruence.
Qed.
Lemma found_nothing : forall pat p, pat <> "" -> ~ found pat "" p.
Proof. unfold found. intros [|c pat] [|p] N H; simpl in H; congruence. Qed.

Lemma occ_spec : forall pat s pos skip, pat <> "" ->
  let ps := occ_aux pat pos skip s in
  (forall p, In p ps -> exists k, p = pos + k /\ skip <= k /\ found pat s k) /\
  StronglySorted (fun p q => p + String.length pat <= q) ps /\
  (forall k, skip <= k -> found pat s k -> exists p, In p ps /\ p <= pos + k < p + String.length pat).
Proof.
  intros pat s. induction s as [|c s IH]; intros pos skip N; cbn [occ_aux]; cbv zeta.
  - split; [intros p []|]. split; [constructor|]. intros k _ H. destruct (found_nothing _ _ N H).
  - assert (L : 0 < String.length pat) by (destruct pat; simpl; [congruence|lia]).
    destruct skip as [|k0].
    + destruct (String.prefix pat (String c s)) eqn:P.
      * destruct (IH (S pos) (pred (String.length pat)) N) as (A & B & C). split; [|split].
        -- intros p [<-|I]; [exists 0; split; [lia|]; split; [lia|]; apply prefix_found; auto|].
           destruct (A p I) as (k & -> & L1 & F). exists (S k). split; [lia|]. split; [lia|]. exact F.
        -- constructor; auto. apply Forall_forall. intros p I. destruct (A p I) as (k & -> & L1 & F). lia.
        -- intros k _ F. destruct (le_lt_dec (String.length pat) k) as [G|G].
           ++ destruct k as [|k]; [lia|]. destruct (C k) as (p & I & R); [lia|exact F|]. exists p. split; [right; exact I|lia].
           ++ exists pos. split; [left; reflexivity|lia].
      * destruct (IH (S pos) 0 N) as (A & B & C). split; [|split]; auto.
        -- intros p I. destruct (A p I) as (k & -> & L1 & F). exists (S k). split; [lia|]. split; [lia|]. exact F.
        -- intros [|k] _ F; [apply prefix_found in F; congruence|]. destruct (C k) as (p & I & R); [lia|exact F|]. exists p. split; auto. lia.
    + destruct (IH (S pos) k0 N) as (A & B & C). split; [|split]; auto.
      * intros p I. destruct (A p I) as (k & -> & L1 & F). exists (S k). split; [lia|]. split; [lia|]. exact F.
      * intros [|k] G F; [lia|]. destruct (C k) as (p & I & R); [lia|exact F|]. exists p. split; auto. lia.
Qed.

(** Every position given is an occurrence, they come in ascending order and do not
    overlap, and every other occurrence overlaps one that begins before it. *)
Theorem C60_occurrences : forall data pat, pat <> "" ->
  let ps := FindAllOccurences data pat in
  (forall p, In p ps -> found pat data p) /\
  StronglySorted (fun p q => p + String.length pat <= q) ps /\
  (forall q, found pat data q -> exists p, In p ps /\ p <= q < p + String.length pat).
Proof.
  intros data pat N. destruct (occ_spec pat data 0 0 N) as (A & B & C). split; [|split]; auto.
  - intros p I. destruct (A p I) as (k & -> & _ & F). exact F.
  - intros q F. destruct (C q) as (p & I & R); [lia|exact F|]. exists p. auto.
Qed.
Print Assumptions C60_occurrences.
(** So the list is the only one: two lists with these properties are equal. *)
Lemma sorted_unique : forall n (R : nat -> Prop) l l', 0 < n ->
  (forall p, In p l -> R p) -> StronglySorted (fun p q => p + n <= q) l -> (forall q, R q -> (exists b, In b l /\ b <= q < b + n)) ->
  (forall p, In p l' -> R p) -> StronglySorted (fun p q => p + n <= q) l' -> (forall q, R q -> (exists b, In b l' /\ b <= q < b + n)) ->
  l = l'.
Proof.
  intros n R l. revert R. induction l as [|a l IH]; intros R [|b l'] N A1 A2 A3 B1 B2 B3; auto.
  - destruct (A3 b) as (? & [] & _). apply B1. simpl. auto.
  - destruct (B3 a) as (? & [] & _). apply A1. simpl. auto.
  - inversion A2 as [|? ? A2' A4]; subst. inversion B2 as [|? ? B2' B4]; subst. rewrite Forall_forall in A4, B4.
    assert (E : a = b).
    { destruct (A3 b) as (x & [<-|I] & L); [apply B1; simpl; auto| |].
      - destruct (B3 a) as (y & [<-|J] & L'); [apply A1; simpl; auto|lia|]. specialize (B4 y J). lia.
      - specialize (A4 x I). destruct (B3 a) as (y & [<-|J] & L'); [apply A1; simpl; auto|lia|]. specialize (B4 y J). lia. }
    subst b. f_equal. apply (IH (fun q => R q /\ a + n <= q)); auto.
    + intros p I. split; [apply A1; simpl; auto|apply A4; auto].
    + intros q [Q1 Q2]. destruct (A3 q Q1) as (x & [<-|I] & L); [lia|]. exists x. auto.
    + intros p I. split; [apply B1; simpl; auto|apply B4; auto].
    + intros q [Q1 Q2]. destruct (B3 q Q1) as (x & [<-|I] & L); [lia|]. exists x. auto.
Qed.
Theorem C60_occurrences_unique : forall data pat ps, pat <> "" ->
  (forall p, In p ps -> found pat data p) ->
  StronglySorted (fun p q => p + String.length pat <= q) ps ->
  (forall q, found pat data q -> exists p, In p ps /\ p <= q < p + String.length pat) ->
  FindAllOccurences data pat = ps.
Proof.
  intros data pat ps N A B C. destruct (C60_occurrences data pat N) as (A' & B' & C').
  apply (sorted_unique (String.length pat) (found pat data)); auto. destruct pat; [congruence|cbn; lia].
Qed.
Print Assumptions C60_occurrences_unique.

Example C60_occurrences_case : FindAllOccurences "aaaXaa, aab" "aa" = [0; 4; 8] /\ found "aa" "aaaXaa, aab" 1.
Proof. split; vm_compute; reflexivity. Qed.
