(** Several enforcer objects that share their parts.

    include/casbin/enforcer.h:33-44, 58: every part of an Enforcer except the switches is
    held by a shared_ptr.  The class declares no copy constructor and no assignment, so
    the compiler's copy the pointers and the switches; CachedEnforcer's copy constructor
    (enforcer_cached.cpp:105-109) calls the one of Enforcer.  An enforcer made by the
    constructor from a model (enforcer.cpp:271-288) keeps the pointer it is given.

    [objects] is the memory the pointers lead to; a [handle] is one Enforcer object:
    addresses of its parts and its own switches.  A member function called through a
    handle is the function of M_Enforcer.v on the parts the handle leads to. *)
From Verif Require Import Base M_Util M_RoleManager M_Model M_Persist M_Evaluator M_Enforcer S_History.

Record objects := mkObj {
  ob_models : list model;
  ob_heap : heap;                  (* role managers *)
  ob_adapters : list adapter;
  ob_watchers : list nat;
  ob_evs : list evaluator;
  ob_fs : fs }.
Record handle := mkHandle {
  hd_model : nat;
  hd_rm : nat;
  hd_adapter : option nat;
  hd_watcher : option nat;
  hd_ev : option nat;
  hd_enabled : bool;
  hd_auto_save : bool;
  hd_auto_build : bool;
  hd_notify : bool }.

(** What a pointer leads to; [None] for the null pointer. *)
Definition deref {A} (l : list A) (i : option nat) : option A :=
  match i with Some k => nth_error l k | None => None end.

(** The enforcer as a member function sees it. *)
Definition view (ob : objects) (h : handle) : enforcer :=
  mkE (nth (hd_model h) (ob_models ob) []) (ob_heap ob) (hd_rm h) (deref (ob_adapters ob) (hd_adapter h))
      (deref (ob_watchers ob) (hd_watcher h)) (ob_fs ob) (deref (ob_evs ob) (hd_ev h))
      (hd_enabled h) (hd_auto_save h) (hd_auto_build h) (hd_notify h).

Fixpoint put {A} (l : list A) (i : nat) (a : A) : list A :=
  match l, i with
  | [], _ => []
  | _ :: t, 0 => a :: t
  | x :: t, S k => x :: put t k a
  end.
(** Write the new state of a part: in place, or as a new object when the pointer was
    null or the call replaces the part. *)
Definition store {A} (fresh : bool) (l : list A) (i : option nat) (v : option A) : list A * option nat :=
  match v with
  | None => (l, None)
  | Some a => match i with
              | Some k => if fresh then (l ++ [a], Some (List.length l)) else (put l k a, Some k)
              | None => (l ++ [a], Some (List.length l))
              end
  end.
Definition is_SetModel (c : call) : bool := match c with KSetModel _ => true | _ => false end.
Definition is_SetAdapter (c : call) : bool := match c with KSetAdapter _ => true | _ => false end.
Definition is_SetWatcher (c : call) : bool := match c with KSetWatcher => true | _ => false end.
Definition is_SetEvaluator (c : call) : bool := match c with KSetEvaluator => true | _ => false end.

(** A call through a handle.  SetModel (enforcer.cpp:376-380), SetAdapter (388-390),
    SetWatcher (393-399) and SetEvaluator (402-404) change the pointer, all other calls
    work on the object behind it; the first request makes an evaluator
    (enforcer.cpp:587-590 [make_shared<ExprtkEvaluator>]). *)
Definition write_back (c : call) (ob : objects) (h : handle) (e : enforcer) : objects * handle :=
  let (ms, mi) := if is_SetModel c then (ob_models ob ++ [e_model e], List.length (ob_models ob))
                  else (put (ob_models ob) (hd_model h) (e_model e), hd_model h) in
  let (ads, ai) := store (is_SetAdapter c) (ob_adapters ob) (hd_adapter h) (e_adapter e) in
  let (ws, wi) := store (is_SetWatcher c) (ob_watchers ob) (hd_watcher h) (e_watcher e) in
  let (evs, vi) := store (is_SetEvaluator c) (ob_evs ob) (hd_ev h) (e_ev e) in
  (mkObj ms (e_heap e) ads ws evs (e_fs e),
   mkHandle mi (e_rm e) ai wi vi (e_enabled e) (e_auto_save e) (e_auto_build e) (e_notify e)).

(** The program: its objects and its enforcers. *)
Record program := mkProg { pr_ob : objects; pr_hs : list handle }.
Inductive action :=
| Call (i : nat) (c : call)        (* a call through enforcer i *)
| Copy (i : nat)                   (* Enforcer f(e_i); *)
| Assign (i j : nat)               (* e_i = e_j; *)
| Onto (i : nat).                  (* Enforcer f(e_i.GetModel()); *)

(** enforcer.cpp:286-288, 271-279, 340-350: the constructor from a model without adapter. *)
Definition new_on (ob : objects) (h : handle) : objects * handle :=
  (mkObj (ob_models ob) (ob_heap ob ++ [new_rm 10]) (ob_adapters ob) (ob_watchers ob) (ob_evs ob) (ob_fs ob),
   mkHandle (hd_model h) (List.length (ob_heap ob)) None None None true true true true).

Definition act (o : oracle) (a : action) (p : program) : program * res unit :=
  match a with
  | Call i c =>
      match nth_error (pr_hs p) i with
      | Some h => let (e, out) := run o c (view (pr_ob p) h) in
                  let (ob, h') := write_back c (pr_ob p) h e in
                  (mkProg ob (put (pr_hs p) i h'), out)
      | None => (p, UB OutOfBounds)
      end
  | Copy i =>
      match nth_error (pr_hs p) i with
      | Some h => (mkProg (pr_ob p) (pr_hs p ++ [h]), Ok tt)
      | None => (p, UB OutOfBounds)
      end
  | Assign i j =>
      match nth_error (pr_hs p) j with
      | Some h => (mkProg (pr_ob p) (put (pr_hs p) i h), Ok tt)
      | None => (p, UB OutOfBounds)
      end
  | Onto i =>
      match nth_error (pr_hs p) i with
      | Some h => let (ob, h') := new_on (pr_ob p) h in (mkProg ob (pr_hs p ++ [h']), Ok tt)
      | None => (p, UB OutOfBounds)
      end
  end.

(** A program that starts with one enforcer. *)
Definition alone (e : enforcer) : program :=
  let at0 {A} (v : option A) := match v with Some a => ([a], Some 0) | None => ([], None) end in
  let (ads, ai) := at0 (e_adapter e) in
  let (ws, wi) := at0 (e_watcher e) in
  let (evs, vi) := at0 (e_ev e) in
  mkProg (mkObj [e_model e] (e_heap e) ads ws evs (e_fs e))
         [mkHandle 0 (e_rm e) ai wi vi (e_enabled e) (e_auto_save e) (e_auto_build e) (e_notify e)].

(** The state after a sequence of actions without undefined behaviour. *)
Inductive acts (o : oracle) : program -> list action -> program -> Prop :=
| acts_nil : forall p, acts o p [] p
| acts_step : forall p a as' p1 out p2, act o a p = (p1, out) -> (forall u, out <> UB u) -> acts o p1 as' p2 ->
    acts o p (a :: as') p2.

(** Enforcer [i] of the program. *)
Definition enforcer_of (p : program) (i : nat) : option enforcer :=
  option_map (view (pr_ob p)) (nth_error (pr_hs p) i).
