(** Specification vocabulary for IP addresses. *)
From Verif Require Import Base S_Text.
From Coq Require Import NArith.
Open Scope N_scope.

(** Numerals: [reads digit base t v] when [t] is one or more digits of value [v]. *)
Definition dec_digit (c : ascii) (d : N) : Prop := exists k, sget k "0123456789" = Some c /\ d = N.of_nat k.
Definition hex_digit (c : ascii) (d : N) : Prop :=
  exists k, (sget k "0123456789abcdef" = Some c \/ sget k "0123456789ABCDEF" = Some c) /\ d = N.of_nat k.
Inductive reads (digit : ascii -> N -> Prop) (base : N) : string -> N -> Prop :=
| reads_one : forall c d, digit c d -> reads digit base (String c "") d
| reads_more : forall t v c d, reads digit base t v -> digit c d -> reads digit base (t ++ String c "") (base * v + d).
Definition decimal : string -> N -> Prop := reads dec_digit 10.
Definition hexadecimal : string -> N -> Prop := reads hex_digit 16.

(** Four decimal numbers up to 255 with dots in between. *)
Definition octet (t : string) (v : N) : Prop := decimal t v /\ v <= 255.
Definition ipv4_text (s : string) (a : list N) : Prop :=
  exists t1 t2 t3 t4 v1 v2 v3 v4, s = (t1 ++ "." ++ t2 ++ "." ++ t3 ++ "." ++ t4)%string /\ a = [v1; v2; v3; v4] /\
    octet t1 v1 /\ octet t2 v2 /\ octet t3 v3 /\ octet t4 v4.

(** Groups of hexadecimal numbers up to 0xFFFF with colons in between; the last may be an
    IPv4 address in place of two groups. *)
Inductive chunk := Group (v : N) | Quad (a : list N).
Definition group (t : string) (v : N) : Prop := hexadecimal t v /\ v <= 65535.
Inductive colons : string -> list chunk -> Prop :=
| colons_group : forall t v, group t v -> colons t [Group v]
| colons_quad : forall t a, ipv4_text t a -> colons t [Quad a]
| colons_more : forall t v r l, group t v -> colons r l -> colons (t ++ ":" ++ r) (Group v :: l).
Fixpoint groups_in (l : list chunk) : nat :=
  match l with
  | [] => 0
  | Group _ :: l' => 1 + groups_in l'
  | Quad _ :: l' => 2 + groups_in l'
  end.
Definition some_colons (s : string) (l : list chunk) : Prop := (s = "" /\ l = []) \/ colons s l.
Definition only_groups (l : list chunk) : Prop := forall c, In c l -> exists v, c = Group v.

(** The text of an IPv6 address: eight groups, or fewer with one "::" for the missing
    ones, which are zero. *)
Inductive ipv6_text : string -> list chunk -> Prop :=
| ipv6_full : forall s l, colons s l -> groups_in l = 8%nat -> ipv6_text s l
| ipv6_short : forall s t l r, some_colons s l -> only_groups l -> some_colons t r -> (groups_in l + groups_in r <= 7)%nat ->
    ipv6_text (s ++ "::" ++ t) (l ++ repeat (Group 0) (8 - groups_in l - groups_in r) ++ r).

(** The elements the parser stores: for a group its high byte and then the whole group
    (not its low byte), for a trailing IPv4 address its four bytes. *)
Definition entries_of (c : chunk) : list N := match c with Group v => [N.shiftr v 8; v] | Quad a => a end.
Definition entries (l : list chunk) : list N := flat_map entries_of l.
(** The sixteen bytes of the address. *)
Definition bytes_of (c : chunk) : list N := match c with Group v => [N.shiftr v 8; N.land v 255] | Quad a => a end.
Definition address (l : list chunk) : list N := flat_map bytes_of l.

(** The bits of numbers, the highest first. *)
Definition bits8 (x : N) : list bool := map (N.testbit x) [7; 6; 5; 4; 3; 2; 1; 0].
Definition bits16 (x : N) : list bool := map (N.testbit x) [15; 14; 13; 12; 11; 10; 9; 8; 7; 6; 5; 4; 3; 2; 1; 0].
Definition chunk_bits (c : chunk) : list bool :=
  match c with Group v => bits16 v | Quad a => flat_map bits8 a end.

(** A network: an address, a slash and a number of bits. *)
Definition network (addr : string) (bits : string) : string := (addr ++ "/" ++ bits)%string.
Definition v4_net (s : string) (a : list N) (n : N) : Prop := exists addr bits, s = network addr bits /\ ipv4_text addr a /\ decimal bits n /\ n <= 32.
Definition v6_net (s : string) (l : list chunk) (n : N) : Prop := exists addr bits, s = network addr bits /\ ipv6_text addr l /\ decimal bits n /\ n <= 128.
Definition is_address (s : string) : Prop := (exists a, ipv4_text s a) \/ (exists l, ipv6_text s l).
Definition is_network (s : string) : Prop := (exists a n, v4_net s a n) \/ (exists l n, v6_net s l n).
(** A network inside ::ffff:0:0/96, the IPv4-mapped addresses. *)
Definition mapped_net (l : list chunk) (n : N) : Prop :=
  96 <= n /\ exists r, l = map Group [0; 0; 0; 0; 0; 65535] ++ r.
(** Two addresses are written alike when both or neither end in an IPv4 address. *)
Definition kind (c : chunk) : bool := match c with Group _ => true | Quad _ => false end.
Definition written_alike (l r : list chunk) : Prop := map kind l = map kind r.
