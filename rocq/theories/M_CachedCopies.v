(** Several CachedEnforcer objects that share their parts.

    include/casbin/enforcer_cached.h:26-33 and casbin/enforcer_cached.cpp:105-115: the copy
    constructor copies the pointers and switches of the Enforcer (M_Copies.v), the entries
    of the cache and its switch.  The move constructor is declared noexcept but passes its
    argument on as an lvalue, so that the Enforcer is copied, too; only the entries of the
    cache are moved.  An unordered_map that was moved from is valid with unspecified
    entries; the model follows the implementations, which leave it empty.  There is no
    assignment: the mutex of the cache is neither copyable nor movable. *)
From Verif Require Import Base M_Util M_RoleManager M_Model M_Persist M_Evaluator M_Enforcer M_Cached M_Copies S_History S_Cached.

(** One CachedEnforcer object: its Enforcer, the entries of its cache and its switch. *)
Record chandle := mkCH { ch_base : handle; ch_map : list (string * bool); ch_on : bool }.
Record cprogram := mkCP { cp_ob : objects; cp_hs : list chandle }.

(** The object as a member function sees it. *)
Definition cview (ob : objects) (h : chandle) : cached := mkC (view ob (ch_base h)) (ch_map h) (ch_on h).

Inductive caction :=
| CCall (i : nat) (q : ccall)      (* a call through enforcer i *)
| CCopy (i : nat)                  (* CachedEnforcer f(e_i); *)
| CMove (i : nat).                 (* CachedEnforcer f(std::move(e_i)); *)

(** The call of the Enforcer that decides which pointers change (M_Copies.write_back):
    requests and the functions of the cache change none but that to a missing evaluator. *)
Definition base_call (q : ccall) : call := match q with QOther c => c | _ => KEnforce "" [] end.

(** enforcer_cached.cpp:105-115 for CCopy and CMove. *)
Definition cact (o : oracle) (a : caction) (p : cprogram) : cprogram * res unit :=
  match a with
  | CCall i q =>
      match nth_error (cp_hs p) i with
      | Some h => let (c, out) := c_run o q (cview (cp_ob p) h) in
                  let (ob, b) := write_back (base_call q) (cp_ob p) (ch_base h) (c_base c) in
                  (mkCP ob (put (cp_hs p) i (mkCH b (c_map c) (c_on c))), out)
      | None => (p, UB OutOfBounds)
      end
  | CCopy i =>
      match nth_error (cp_hs p) i with
      | Some h => (mkCP (cp_ob p) (cp_hs p ++ [h]), Ok tt)
      | None => (p, UB OutOfBounds)
      end
  | CMove i =>
      match nth_error (cp_hs p) i with
      | Some h => (mkCP (cp_ob p) (put (cp_hs p) i (mkCH (ch_base h) [] (ch_on h)) ++ [h]), Ok tt)
      | None => (p, UB OutOfBounds)
      end
  end.

(** A program that starts with one cached enforcer. *)
Definition calone (e : enforcer) : cprogram :=
  mkCP (pr_ob (alone e)) (map (fun h => mkCH h [] true) (pr_hs (alone e))).

(** The state after a sequence of actions without undefined behaviour. *)
Inductive cacts (o : oracle) : cprogram -> list caction -> cprogram -> Prop :=
| cacts_nil : forall p, cacts o p [] p
| cacts_step : forall p a as' p1 out p2, cact o a p = (p1, out) -> (forall u, out <> UB u) -> cacts o p1 as' p2 ->
    cacts o p (a :: as') p2.

(** Enforcer [i] of the program. *)
Definition cached_of (p : cprogram) (i : nat) : option cached :=
  option_map (cview (cp_ob p)) (nth_error (cp_hs p) i).
