(** Specification of stopping automatic loading. *)
From Verif Require Import Base M_Ticker.

(** The owner is in Ticker::stop, on behalf of [c], after it cleared the flag. *)
Definition stopping (c : ocall) (w : aworld) : Prop := In (a_owner w) [OLock c; OTimers c; OLoads c; OUnlock c].
(** The circular wait: the owner holds the ticker's mutex and waits for the timer thread,
    which waits for the mutex. *)
Definition circular_wait (w : aworld) : Prop :=
  exists c, a_owner w = OTimers c /\ a_mutex w = Some Owner /\ a_timer w = Some TLock.
Definition running_loads (l : list load_at) : nat := List.length (List.filter (fun x => match x with LRuns => true | LDone => false end) l).
