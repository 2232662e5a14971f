(** Vocabulary of property C91. *)
From Verif Require Import Base M_Util M_Cached M_CachedThreads S_History S_Cached.

(** What the threads share besides the mutex: the cache, its switch, and the enforcer
    behind it (model, role manager, evaluator). *)
Inductive place_in_memory := TheCache | TheSwitch | TheEngine.

(** What the next step of a thread touches, and whether it writes.  For the C++ library
    operator[] of an unordered_map writes; an evaluation sets the variables of the one
    evaluator. *)
Definition touches (t : thread) : option (place_in_memory * bool) :=
  match t_at t with
  | PIdle =>
      match t_todo t with
      | [] => None
      | OAsk _ :: _ => Some (TheSwitch, false)
      | OInvalidate :: _ => Some (TheCache, true)
      | OEnable _ :: _ => Some (TheSwitch, true)
      | OOther _ :: _ => Some (TheEngine, true)
      end
  | PCount _ => Some (TheCache, false)
  | PRead _ | PWrite _ _ => Some (TheCache, true)
  | PEval _ _ => Some (TheEngine, true)
  | PLock1 _ | PLock2 _ _ | PUnlockMiss _ | PUnlockHit _ _ | PUnlock2 _ _ => None
  end.
(** A data race: two threads are about to touch the same thing and one of them writes. *)
Definition race_on (x : place_in_memory) (w : world) : Prop :=
  exists i j t t' wr wr', i <> j /\ nth_error (w_threads w) i = Some t /\ nth_error (w_threads w) j = Some t' /\
    touches t = Some (x, wr) /\ touches t' = Some (x, wr') /\ (wr = true \/ wr' = true).

(** Threads that only ask; each has a list of requests. *)
Definition asking (c : cached) (programs : list (list request)) : world :=
  mkW c None (map (fun qs => mkT (map OAsk qs) PIdle []) programs).
(** Threads with any calls. *)
Definition calling (c : cached) (programs : list (list op)) : world :=
  mkW c None (map (fun ops => mkT ops PIdle []) programs).

(** Everything was asked and answered. *)
Definition finished (w : world) : Prop := forall t, In t (w_threads w) -> t_at t = PIdle /\ t_todo t = [].
