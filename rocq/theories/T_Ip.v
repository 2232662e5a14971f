(** Properties of IP address matching: C56, C57, C58, C59, C68. *)
From Verif Require Import Base P_Base M_Util M_Ip S_Text P_Text S_Ip P_Ip.
From Coq Require Import Lia.
Open Scope N_scope.

(** Concrete addresses for the examples. *)
Lemma v4_of : forall s a, List.length a = 4%nat -> parseIPv4 s = IPv4 a -> ipv4_text s a.
Proof.
  intros s a L H. destruct (parseIPv4_spec s) as [(b & B & E)|[E _]]; [|rewrite E in H; discriminate].
  rewrite E in H. injection H as H. rewrite <- H. exact B.
Qed.
Lemma group_of : forall t v, t <> "" -> value hex_val 16 0 t = Some v -> v <= 65535 -> group t v.
Proof. intros t v N V L. split; [apply hexadecimal_value; auto|exact L]. Qed.
Lemma decimal_of : forall t v, t <> "" -> value dec_val 10 0 t = Some v -> decimal t v.
Proof. intros t v N V. apply decimal_value. auto. Qed.
Definition net_v4_of : forall addr bits a n, ipv4_text addr a -> decimal bits n -> n <= 32 -> v4_net (network addr bits) a n.
Proof. intros. exists addr, bits. auto. Qed.
Definition net_v6_of : forall addr bits l n, ipv6_text addr l -> decimal bits n -> n <= 128 -> v6_net (network addr bits) l n.
Proof. intros. exists addr, bits. auto. Qed.
Ltac grp := apply group_of; [discriminate|reflexivity|lia].

Lemma v6_db8 : ipv6_text "2001:db8::1" (map Group [8193; 3512; 0; 0; 0; 0; 0; 1]).
Proof.
  apply (ipv6_short "2001:db8" "1" [Group 8193; Group 3512] [Group 1]).
  - right. apply (colons_more "2001" 8193 "db8"); [grp|]. apply colons_group. grp.
  - intros c [<-|[<-|[]]]; eauto.
  - right. apply colons_group. grp.
  - cbn. lia.
Qed.
Lemma v6_net16 : v6_net "2001::/16" (map Group [8193; 0; 0; 0; 0; 0; 0; 0]) 16.
Proof.
  apply (net_v6_of "2001::" "16"); [|apply decimal_of; [discriminate|reflexivity]|lia].
  apply (ipv6_short "2001" "" [Group 8193] []).
  - right. apply colons_group. grp.
  - intros c [<-|[]]; eauto.
  - left. auto.
  - cbn. lia.
Qed.
Lemma v6_net33 : v6_net "2001:db8::/33" (map Group [8193; 3512; 0; 0; 0; 0; 0; 0]) 33.
Proof.
  apply (net_v6_of "2001:db8::" "33"); [|apply decimal_of; [discriminate|reflexivity]|lia].
  apply (ipv6_short "2001:db8" "" [Group 8193; Group 3512] []).
  - right. apply (colons_more "2001" 8193 "db8"); [grp|]. apply colons_group. grp.
  - intros c [<-|[<-|[]]]; eauto.
  - left. auto.
  - cbn. lia.
Qed.
Lemma v6_mapped : forall s a, ipv4_text s a -> ipv6_text ("::ffff:" ++ s) (map Group [0; 0; 0; 0; 0; 65535] ++ [Quad a]).
Proof.
  intros s a H. apply (ipv6_short "" ("ffff:" ++ s) [] [Group 65535; Quad a]).
  - left. auto.
  - intros c [].
  - right. apply (colons_more "ffff" 65535 s); [grp|]. apply colons_quad. exact H.
  - cbn. lia.
Qed.
Lemma v6_mapped96 : v6_net "::ffff:0:0/96" (map Group [0; 0; 0; 0; 0; 65535; 0; 0]) 96.
Proof.
  apply (net_v6_of "::ffff:0:0" "96"); [|apply decimal_of; [discriminate|reflexivity]|lia].
  apply (ipv6_short "" "ffff:0:0" [] [Group 65535; Group 0; Group 0]).
  - left. auto.
  - intros c [].
  - right. apply (colons_more "ffff" 65535 "0:0"); [grp|]. apply (colons_more "0" 0 "0"); [grp|]. apply colons_group. grp.
  - cbn. lia.
Qed.

(** ** C56: an IPv4 address is in an IPv4 network exactly when the first bits agree,
    whether plain char is signed or not *)
Theorem C56_containment : forall signed s a addr b bits n, ipv4_text s a -> ipv4_text addr b -> decimal bits n -> n <= 32 ->
  exists r, IPMatch signed s (network addr bits) = Ok r /\
    (r = true <-> firstn (N.to_nat n) (flat_map bits8 a) = firstn (N.to_nat n) (flat_map bits8 b)).
Proof. intros signed s a addr b bits n A B D L. exact (match_v4 signed s a _ b n A (net_v4_of _ _ _ _ B D L)). Qed.

Example C56_example : ipv4_text "192.168.2.123" [192; 168; 2; 123] /\ ipv4_text "192.168.2.0" [192; 168; 2; 0] /\ decimal "24" 24 /\
  IPMatch true "192.168.2.123" (network "192.168.2.0" "24") = Ok true /\ IPMatch false "192.168.3.1" "192.168.2.0/24" = Ok false /\
  IPMatch true "192.168.3.1" "192.168.2.0/23" = Ok true /\ IPMatch true "1.2.3.4" "200.0.0.0/0" = Ok true.
Proof.
  split; [apply v4_of; reflexivity|]. split; [apply v4_of; reflexivity|]. split; [apply decimal_of; [discriminate|reflexivity]|].
  repeat split; vm_compute; reflexivity.
Qed.

(** ** C57: the IPv4 parser accepts exactly four decimal numbers up to 255 with dots in
    between, and gives those numbers (after the twelve bytes that mark IPv4).  Numbers
    may have any number of leading zeros and are decimal all the same. *)
Theorem C57_exact : forall s,
  (legal (parseIPv4 s) = true <-> exists a, ipv4_text s a) /\
  (forall a, ipv4_text s a -> bytes (parseIPv4 s) = [0; 0; 0; 0; 0; 0; 0; 0; 0; 0; 255; 255] ++ a).
Proof.
  intros s. split.
  - destruct (parseIPv4_spec s) as [(a & A & ->)|[-> No]]; split; try discriminate; eauto. intros [a A]. destruct (No _ A).
  - intros a A. rewrite (parseIPv4_ok _ _ A). reflexivity.
Qed.
Example C57_example : ipv4_text "010.0.0.255" [10; 0; 0; 255] /\ legal (parseIPv4 "1.2.3") = false /\ legal (parseIPv4 "1.2.3.256") = false /\
  legal (parseIPv4 "1.2.3.4 ") = false /\ legal (parseIPv4 "1..2.3") = false.
Proof. split; [apply v4_of; reflexivity|]. repeat split. Qed.

(** ** C58: the IPv6 parser *)

(** The accepted texts are exactly the textual forms.  (A group may have more than four
    digits when the first ones are zero: [hexadecimal] does not count them.) *)
Theorem C58_accepts : forall s, legal (parseIPv6 s) = true <-> exists l, ipv6_text s l.
Proof. intros s. destruct (parseIPv6_spec s) as [(l & L & ->)|[-> No]]; split; try discriminate; eauto. intros [l L]. destruct (No _ L). Qed.
(** A text has one reading. *)
Theorem C58_one_reading : forall s l r, ipv6_text s l -> ipv6_text s r -> l = r.
Proof. exact ipv6_unique. Qed.

(** The sixteen bytes come out right when every group is below 256.  Missing: larger
    groups, for which it is false (next theorem): the second element of a group is the
    whole group and not its low byte. *)
Theorem C58_bytes_partial : forall s l, ipv6_text s l -> (forall v, In (Group v) l -> v < 256) -> bytes (parseIPv6 s) = address l.
Proof.
  intros s l H G. rewrite (parseIPv6_ok _ _ H). cbn [bytes]. unfold entries, address. clear H.
  induction l as [|c l IH]; [reflexivity|]. cbn [flat_map]. f_equal; [|apply IH; intros v Hv; apply G; right; exact Hv].
  destruct c as [v|a]; [|reflexivity]. cbn [entries_of bytes_of]. do 2 f_equal. specialize (G v (or_introl eq_refl)).
  change 255 with (N.ones 8). rewrite N.land_ones. symmetry. apply N.mod_small. exact G.
Qed.
Theorem C58_bytes_refuted : forall s l v, ipv6_text s l -> In (Group v) l -> 256 <= v -> bytes (parseIPv6 s) <> address l.
Proof.
  intros s l v H I G E. rewrite (parseIPv6_ok _ _ H) in E. cbn [bytes] in E. clear H. unfold entries, address in E.
  induction l as [|c l IH]; [destruct I|]. cbn [flat_map] in E.
  assert (X : entries_of c = bytes_of c /\ flat_map entries_of l = flat_map bytes_of l).
  { destruct c as [w|a]; cbn [entries_of bytes_of app] in E; [injection E as E1 E2; split; [cbn; congruence|exact E2]|].
    apply app_inv_head in E. auto. }
  destruct X as [X1 X2]. destruct I as [->|I]; [|exact (IH I X2)]. injection X1 as X1.
  assert (N.land v 255 < 256); [|lia]. change 255 with (N.ones 8). rewrite N.land_ones. apply N.mod_lt. discriminate.
Qed.
Example C58_example : ipv6_text "2001:db8::1" (map Group [8193; 3512; 0; 0; 0; 0; 0; 1]) /\ In (Group 8193) (map Group [8193; 3512; 0; 0; 0; 0; 0; 1]) /\
  address (map Group [8193; 3512; 0; 0; 0; 0; 0; 1]) = [32; 1; 13; 184; 0; 0; 0; 0; 0; 0; 0; 0; 0; 0; 0; 1] /\
  bytes (parseIPv6 "2001:db8::1") = [32; 8193; 13; 3512; 0; 0; 0; 0; 0; 0; 0; 0; 0; 0; 0; 1] /\
  legal (parseIPv6 "1::2::3") = false /\ legal (parseIPv6 "1:2:3:4:5:6:7") = false /\ legal (parseIPv6 "12345::") = false /\ legal (parseIPv6 "00001::") = true.
Proof. split; [exact v6_db8|]. split; [left; reflexivity|]. repeat split; vm_compute; reflexivity. Qed.
Example C58_bytes_example : exists s l, ipv6_text s l /\ (forall v, In (Group v) l -> v < 256) /\ bytes (parseIPv6 s) = [0; 16; 0; 0; 0; 0; 0; 0; 0; 0; 0; 0; 1; 2; 3; 4].
Proof.
  exists "10::1.2.3.4", ([Group 16] ++ repeat (Group 0) 5 ++ [Quad [1; 2; 3; 4]]). split; [|split].
  - apply (ipv6_short "10" "1.2.3.4" [Group 16] [Quad [1; 2; 3; 4]]).
    + right. apply colons_group. grp.
    + intros c [<-|[]]; eauto.
    + right. apply colons_quad. apply v4_of; reflexivity.
    + cbn. lia.
  - intros v H. cbn in H. destruct H as [H|[H|[H|[H|[H|[H|[H|[]]]]]]]]; try discriminate H; injection H as <-; lia.
  - vm_compute. reflexivity.
Qed.

(** ** C59: ipMatch on any two strings *)

(** No undefined behaviour, and which error: the first string has to be an address, the
    second a network. *)
Theorem C59_total : forall signed s t,
  (is_address s -> is_network t -> exists r, IPMatch signed s t = Ok r) /\
  (is_address s -> ~ is_network t -> IPMatch signed s t = Throw ParserError) /\
  (~ is_address s -> IPMatch signed s t = Throw IllegalArgument).
Proof.
  intros signed s t. unfold is_address, is_network. destruct (match_total signed s t) as [(A & B & R)|[(A & B & R)|(A & R)]]; (split; [|split]); intros; solve [tauto|exact R|destruct (A H)].
Qed.
Theorem C59_no_ub : forall signed s t u, IPMatch signed s t <> UB u.
Proof. intros signed s t u. destruct (match_total signed s t) as [(_ & _ & r & ->)|[(_ & _ & ->)|(_ & ->)]]; discriminate. Qed.
(** False: a plain address as the second argument.  It is never compared, whatever it
    is: the call throws, even for an address and itself. *)
Theorem C59_plain_refuted : forall signed s t, is_address s -> is_address t -> IPMatch signed s t = Throw ParserError.
Proof.
  intros signed s t A B. destruct (C59_total signed s t) as (_ & H & _). apply (H A). intros N. apply (net_slash _ N).
  destruct B as [[a B]|[l B]]; [exact (ipv4_lacks _ _ B)|exact (ipv6_lacks _ _ B)].
Qed.
(** False: an IPv4-mapped address is never in the network of its own IPv4 address. *)
Theorem C59_mapped_refuted : forall signed s a, ipv4_text s a ->
  IPMatch signed s (network s "32") = Ok true /\ ipv6_text ("::ffff:" ++ s) (map Group [0; 0; 0; 0; 0; 65535] ++ [Quad a]) /\
  IPMatch signed ("::ffff:" ++ s) (network s "32") = Ok false.
Proof.
  intros signed s a A. assert (D : decimal "32" 32) by (apply decimal_of; [discriminate|reflexivity]). split; [|split].
  - destruct (C56_containment signed s a s a "32" 32 A A D) as (r & -> & H); [lia|]. f_equal. apply H. reflexivity.
  - exact (v6_mapped s a A).
  - apply (match_6_in_4 signed _ _ _ a 32 (v6_mapped s a A)). apply net_v4_of; [exact A|exact D|lia].
Qed.
Example C59_example : is_address "10.0.0.1" /\ is_network "10.0.0.0/8" /\ IPMatch true "10.0.0.1" "10.0.0.0/8" = Ok true /\
  IPMatch true "10.0.0.1" "10.0.0.1" = Throw ParserError /\ IPMatch true "10.0.0.1" "10.0.0.0/33" = Throw ParserError /\
  IPMatch true "ten" "10.0.0.0/8" = Throw IllegalArgument /\ IPMatch true "::ffff:10.0.0.1" "10.0.0.1/32" = Ok false.
Proof.
  split; [left; exists [10; 0; 0; 1]; apply v4_of; reflexivity|]. split.
  - left. exists [10; 0; 0; 0], 8. apply (net_v4_of "10.0.0.0" "8"); [apply v4_of; reflexivity|apply decimal_of; [discriminate|reflexivity]|lia].
  - repeat split; vm_compute; reflexivity.
Qed.

(** ** C68: IPv6 networks *)

(** Where plain char is signed, for an address and a network written alike that is not
    IPv4-mapped: exact.  Missing: the other cases, for which it is false (below). *)
Theorem C68_containment_partial : forall s l t r n, ipv6_text s l -> v6_net t r n -> written_alike l r -> ~ mapped_net r n ->
  exists x, IPMatch true s t = Ok x /\
    (x = true <-> firstn (N.to_nat n) (flat_map chunk_bits l) = firstn (N.to_nat n) (flat_map chunk_bits r)).
Proof. exact match_v6. Qed.
(** An address of one family is in no network of the other. *)
Theorem C68_families_partial : forall s a l t u b r n m, ipv4_text s a -> ipv6_text t l -> v4_net u b n ->
  IPMatch true t u = Ok false /\ (forall w, v6_net w r m -> ~ mapped_net r m -> IPMatch true s w = Ok false).
Proof. intros s a l t u b r n m A L B. split; [exact (match_6_in_4 true _ _ _ _ _ L B)|]. intros w W Nm. exact (match_4_in_6 _ _ _ _ _ A W Nm). Qed.
(** False: no IPv6 address is in an IPv4-mapped network, not even the network's own
    address. *)
Theorem C68_mapped_refuted : forall signed s l t r n, ipv6_text s l -> v6_net t r n -> mapped_net r n -> IPMatch signed s t = Ok false.
Proof. exact match_6_in_mapped. Qed.
(** False: the same address written in two ways. *)
Theorem C68_written_refuted : exists s l t r n, ipv6_text s l /\ v6_net t r n /\ ~ mapped_net r n /\
  flat_map chunk_bits l = flat_map chunk_bits r /\ IPMatch true s t = Ok false.
Proof.
  exists "::1.2.3.4", (repeat (Group 0) 6 ++ [Quad [1; 2; 3; 4]]), "::102:304/127", (repeat (Group 0) 6 ++ [Group 258; Group 772]), 127.
  split; [|split; [|split; [|split; vm_compute; reflexivity]]].
  - apply (ipv6_short "" "1.2.3.4" [] [Quad [1; 2; 3; 4]]); [left; auto|intros c []| |cbn; lia]. right. apply colons_quad. apply v4_of; reflexivity.
  - apply (net_v6_of "::102:304" "127"); [|apply decimal_of; [discriminate|reflexivity]|lia].
    apply (ipv6_short "" "102:304" [] [Group 258; Group 772]); [left; auto|intros c []| |cbn; lia].
    right. apply (colons_more "102" 258 "304"); [grp|]. apply colons_group. grp.
  - intros (_ & r & E). discriminate E.
Qed.
(** False where plain char is unsigned. *)
Theorem C68_unsigned_char_refuted : exists s l t r n, ipv6_text s l /\ v6_net t r n /\ written_alike l r /\ ~ mapped_net r n /\
  firstn (N.to_nat n) (flat_map chunk_bits l) = firstn (N.to_nat n) (flat_map chunk_bits r) /\ IPMatch false s t = Ok false.
Proof.
  exists "2001:db8::1", (map Group [8193; 3512; 0; 0; 0; 0; 0; 1]), "2001::/16", (map Group [8193; 0; 0; 0; 0; 0; 0; 0]), 16.
  split; [exact v6_db8|]. split; [exact v6_net16|]. split; [reflexivity|]. split; [intros (H & _); lia|]. split; vm_compute; reflexivity.
Qed.
Example C68_example : ipv6_text "2001:db8::1" (map Group [8193; 3512; 0; 0; 0; 0; 0; 1]) /\
  v6_net "2001:db8::/33" (map Group [8193; 3512; 0; 0; 0; 0; 0; 0]) 33 /\
  written_alike (map Group [8193; 3512; 0; 0; 0; 0; 0; 1]) (map Group [8193; 3512; 0; 0; 0; 0; 0; 0]) /\
  ~ mapped_net (map Group [8193; 3512; 0; 0; 0; 0; 0; 0]) 33 /\
  IPMatch true "2001:db8::1" "2001:db8::/33" = Ok true /\ IPMatch true "2001:db8:8000::1" "2001:db8::/33" = Ok false /\
  mapped_net (map Group [0; 0; 0; 0; 0; 65535; 0; 0]) 96 /\ IPMatch true "::ffff:1.2.3.4" "::ffff:0:0/96" = Ok false /\
  IPMatch true "1.2.3.4" "::ffff:0:0/96" = Ok true /\ IPMatch true "1.2.3.4" "::ffff:102:300/105" = Ok false.
Proof.
  split; [exact v6_db8|]. split; [exact v6_net33|]. split; [reflexivity|]. split; [intros (H & _); lia|].
  split; [vm_compute; reflexivity|]. split; [vm_compute; reflexivity|]. split; [split; [lia|]; exists (map Group [0; 0]); reflexivity|].
  repeat split; vm_compute; reflexivity.
Qed.

Print Assumptions C56_containment.
Print Assumptions C57_exact.
Print Assumptions C58_accepts.
Print Assumptions C58_one_reading.
Print Assumptions C58_bytes_partial.
Print Assumptions C58_bytes_refuted.
Print Assumptions C59_total.
Print Assumptions C59_no_ub.
Print Assumptions C59_plain_refuted.
Print Assumptions C59_mapped_refuted.
Print Assumptions C68_containment_partial.
Print Assumptions C68_families_partial.
Print Assumptions C68_mapped_refuted.
Print Assumptions C68_written_refuted.
Print Assumptions C68_unsigned_char_refuted.
