(** Model of one CachedEnforcer used by several threads: casbin/enforcer_cached.cpp cut
    into the steps between which another thread may run.  A request is a matcher ("" for
    the model's own) and a positional request of strings. *)
From Verif Require Export Base M_Util M_Cached S_History.

Definition request := (string * list string)%type.
(** What a thread does with the enforcer: a request, InvalidateCache, EnableCache, or a
    function that is not overridden. *)
Inductive op := OAsk (q : request) | OInvalidate | OEnable (b : bool) | OOther (c : call).

(** Where a thread is inside EnforceWithMatcher; [PIdle] is between two calls. *)
Inductive place :=
| PIdle
| PLock1 (q : request)                  (* enforcer_cached.cpp:122 locker.lock() *)
| PCount (q : request)                  (* :123 m.count(key) *)
| PUnlockMiss (q : request)             (* :125 locker.unlock() *)
| PRead (q : request)                   (* :129 m[key] *)
| PUnlockHit (q : request) (b : bool)   (* :130 locker.unlock() *)
| PEval (q : request) (keep : bool)     (* :178 (keep = false) and :196 Enforcer::EnforceWithMatcher *)
| PLock2 (q : request) (b : bool)       (* :135 locker.lock() *)
| PWrite (q : request) (b : bool)       (* :136 m[key] = res *)
| PUnlock2 (q : request) (b : bool).    (* :137 locker.unlock() *)

(** A thread: the calls it still makes, its place, and what it was answered. *)
Record thread := mkT { t_todo : list op; t_at : place; t_said : list (request * res bool) }.
(** The enforcer, the thread that holds the mutex, the threads. *)
Record world := mkW { w_c : cached; w_lock : option nat; w_threads : list thread }.

Definition key_of (q : request) : string := cache_key (map DStr (snd q)) (fst q).
Definition said (t : thread) (q : request) (out : res bool) : thread := mkT (t_todo t) PIdle (t_said t ++ [(q, out)]).
Definition goto (t : thread) (p : place) : thread := mkT (t_todo t) p (t_said t).

Section Threads.
  Variable o : oracle.

  (** One step of thread [i]; [None] when it waits for the mutex or has nothing to do.
      The evaluation of a request is one step: that two threads are in it at the same
      time is undefined behaviour, which S_CachedThreads.v describes. *)
  Definition t_step (i : nat) (c : cached) (lock : option nat) (t : thread) : option (cached * option nat * thread) :=
    match t_at t with
    | PIdle =>
        match t_todo t with
        | [] => None
        (* :177 if (!enableCache) *)
        | OAsk q :: ops => Some (c, lock, mkT ops (if c_on c then PLock1 q else PEval q false) (t_said t))
        | OInvalidate :: ops => Some (fst (InvalidateCache c), lock, mkT ops PIdle (t_said t))
        | OEnable b :: ops => Some (fst (EnableCache b c), lock, mkT ops PIdle (t_said t))
        | OOther k :: ops => Some (fst (inherited (run o k) c), lock, mkT ops PIdle (t_said t))
        end
    | PLock1 q => match lock with None => Some (c, Some i, goto t (PCount q)) | Some _ => None end
    | PCount q => Some (c, lock, goto t (match aget (key_of q) (c_map c) with Some _ => PRead q | None => PUnlockMiss q end))
    | PUnlockMiss q => Some (c, None, goto t (PEval q true))
    | PRead q =>
        (* operator[] makes an entry when there is none *)
        match aget (key_of q) (c_map c) with
        | Some b => Some (c, lock, goto t (PUnlockHit q b))
        | None => Some (mkC (c_base c) (aset (key_of q) false (c_map c)) (c_on c), lock, goto t (PUnlockHit q false))
        end
    | PUnlockHit q b => Some (c, None, said t q (Ok b))
    | PEval q keep =>
        let (c', out) := inherited (EnforceWithMatcher o (fst q) (map DStr (snd q))) c in
        Some (c', lock, match out with Ok b => if keep then goto t (PLock2 q b) else said t q (Ok b) | _ => said t q out end)
    | PLock2 q b => match lock with None => Some (c, Some i, goto t (PWrite q b)) | Some _ => None end
    | PWrite q b => Some (mkC (c_base c) (aset (key_of q) b (c_map c)) (c_on c), lock, goto t (PUnlock2 q b))
    | PUnlock2 q b => Some (c, None, said t q (Ok b))
    end.

  Fixpoint put_thread (l : list thread) (i : nat) (t : thread) : list thread :=
    match l, i with
    | [], _ => []
    | _ :: r, 0 => t :: r
    | x :: r, S k => x :: put_thread r k t
    end.
  (** Thread [i] makes a step. *)
  Inductive moves : world -> nat -> world -> Prop :=
  | moves_step : forall w i t c' lock' t', nth_error (w_threads w) i = Some t ->
      t_step i (w_c w) (w_lock w) t = Some (c', lock', t') ->
      moves w i (mkW c' lock' (put_thread (w_threads w) i t')).
  (** The threads run in the order of a schedule. *)
  Inductive scheduled : world -> list nat -> world -> Prop :=
  | sched_nil : forall w, scheduled w [] w
  | sched_step : forall w i w1 is w2, moves w i w1 -> scheduled w1 is w2 -> scheduled w (i :: is) w2.
End Threads.
