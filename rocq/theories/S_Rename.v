(** What it means that two enforcers hold the same policy under different names. *)
From Verif Require Import Base M_RoleManager M_Model M_Enforcer S_Policy S_Roles S_Sync.

(** Different names stay different. *)
Definition one_to_one (rho : string -> string) : Prop := forall x y, rho x = rho y -> x = y.

(** The rules of the second enforcer are those of the first, in any order, with every value
    [x] written [rho x]. *)
Definition renamed (rho : string -> string) (e1 e2 : enforcer) : Prop :=
  (forall r, In r (stored e2 "p" "p") <-> exists q, In q (stored e1 "p" "p") /\ r = map rho q) /\
  (forall pt r, In r (stored e2 "g" pt) <-> exists q, In q (stored e1 "g" pt) /\ r = map rho q).
(** The same with the order of the rules of type p kept. *)
Definition renamed_in_order (rho : string -> string) (e1 e2 : enforcer) : Prop :=
  stored e2 "p" "p" = map (map rho) (stored e1 "p" "p") /\ renamed rho e1 e2.
