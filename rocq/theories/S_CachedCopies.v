(** Vocabulary of property C101. *)
From Verif Require Import Base M_Util M_RoleManager M_Model M_Persist M_Evaluator M_Enforcer M_Cached M_Copies M_CachedCopies S_History S_Cached S_Sync S_Rbac.

(** What is done with a cached enforcer and its copies: requests, safe calls (S_Sync.v,
    S_Rbac.v), the functions of the cache, copies and moves. *)
Definition family_caction (rules : rule -> Prop) (k : nat) (a : caction) : Prop :=
  match a with
  | CCall _ q =>
      match q with
      | QOther c => safe_call rules c /\ shaped_call k c
      | QEnforce m ps => plain_request m ps
      | QEnforceMap _ _ => False
      | QBatch rs => Forall (plain_request "") rs
      | _ => True
      end
  | CCopy _ | CMove _ => True
  end.

(** Actions that leave the entries and the switch of cache [j] alone: anything through other
    enforcers, and through [j] anything but its functions of the cache and moving it away. *)
Definition spares (j : nat) (a : caction) : Prop :=
  match a with
  | CCall i q => i = j -> keeps_cache q
  | CCopy _ => True
  | CMove i => i <> j
  end.

(** An enforcer that does not answer from its cache. *)
Definition unaided (c : cached) : Prop := c_on c = false \/ c_map c = [].
