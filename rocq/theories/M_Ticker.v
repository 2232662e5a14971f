(** Model of automatic loading: casbin/util/ticker.cpp and casbin/enforcer_synced.cpp:104-127.

    One thread owns the enforcer and starts and stops automatic loading; the ticker's timer
    loop and every load run in threads of their own (std::async with std::launch::async).
    The threads interleave in any order, memory is sequentially consistent, a sleep or a
    load ends at any time after it began.  A load that throws ends too: its future keeps the
    exception and wait() does not rethrow it. *)
From Verif Require Import Base.

(** ticker.cpp:52-60 [timer_loop]: at the test of _running, at the lock, holding the lock
    before a load is started, sleeping with the lock held, at the end. *)
Inductive timer_at := TCheck | TLock | THolds | TSleeps | TDone.
(** The thread of std::async(std::launch::async, _onTick). *)
Inductive load_at := LRuns | LDone.
(** The two calls of the owner; a SyncedEnforcer that is destroyed stops its ticker
    (ticker.cpp:31-33), which is StopAutoLoadPolicy here. *)
Inductive ocall := Start | Stop.
(** Where the owner is: between calls; in Ticker::stop (ticker.cpp:41-50) on behalf of
    StopAutoLoadPolicy, or on behalf of StartAutoLoadPolicy when the previous ticker is
    replaced and ~Ticker stops it; in Ticker::start (ticker.cpp:35-39); before it returns;
    after dereferencing a ticker that does not exist. *)
Inductive owner_at :=
| OIdle
| OFlag (c : ocall)    (* "_running = false" is next *)
| OLock (c : ocall)    (* the lock_guard of stop() is next *)
| OTimers (c : ocall)  (* waiting for _futures1, the lock held *)
| OLoads (c : ocall)   (* waiting for _futures2, the lock held *)
| OUnlock (c : ocall)
| OStart               (* ticker->start() is next *)
| OFinish (c : ocall)
| OCrashed.
Inductive holder := Owner | Timer.

(** autoLoadRunning, whether the unique_ptr holds a ticker, and of that ticker _running, the
    owner of _tickIntervalMutex, the timer thread (start() is called once on each ticker, so
    _futures1 has at most one element) and the threads in _futures2. *)
Record aworld := mkA {
  a_auto : bool;
  a_ticker : bool;
  a_running : bool;
  a_mutex : option holder;
  a_timer : option timer_at;
  a_loads : list load_at;
  a_owner : owner_at;
  a_todo : list ocall }.

(** What is observed: calls and returns of the owner, the start and end of loads. *)
Inductive aevent := ACall (c : ocall) | AReturn (c : ocall) | ALoadStarts | ALoadEnds.

Definition timers_done (t : option timer_at) : Prop := t = None \/ t = Some TDone.
Definition loads_done (l : list load_at) : Prop := Forall (fun x => x = LDone) l.

Inductive amoves : aworld -> option aevent -> aworld -> Prop :=
(* enforcer_synced.cpp:105-116 [StartAutoLoadPolicy] *)
| a_start_again : forall tk r m t l td,
    amoves (mkA true tk r m t l OIdle (Start :: td)) (Some (ACall Start)) (mkA true tk r m t l (OFinish Start) td)
| a_start_first : forall r m t l td,
    amoves (mkA false false r m t l OIdle (Start :: td)) (Some (ACall Start)) (mkA true false r m t l OStart td)
| a_start_replace : forall r m t l td,
    amoves (mkA false true r m t l OIdle (Start :: td)) (Some (ACall Start)) (mkA true true r m t l (OFlag Start) td)
(* ticker.cpp:35-39 [start] on the new ticker *)
| a_started : forall au tk r m t l td,
    amoves (mkA au tk r m t l OStart td) None (mkA au true true m (Some TCheck) l (OFinish Start) td)
(* enforcer_synced.cpp:124-127 [StopAutoLoadPolicy]: "ticker->stop()" on a null unique_ptr *)
| a_stop_nothing : forall au r m t l td,
    amoves (mkA au false r m t l OIdle (Stop :: td)) (Some (ACall Stop)) (mkA au false r m t l OCrashed td)
| a_stop : forall au r m t l td,
    amoves (mkA au true r m t l OIdle (Stop :: td)) (Some (ACall Stop)) (mkA au true r m t l (OFlag Stop) td)
(* ticker.cpp:41-50 [stop] *)
| a_flag : forall au tk r m t l c td,
    amoves (mkA au tk r m t l (OFlag c) td) None (mkA au tk false m t l (OLock c) td)
| a_lock : forall au tk r t l c td,
    amoves (mkA au tk r None t l (OLock c) td) None (mkA au tk r (Some Owner) t l (OTimers c) td)
| a_wait_timers : forall au tk r m t l c td, timers_done t ->
    amoves (mkA au tk r m t l (OTimers c) td) None (mkA au tk r m t l (OLoads c) td)
| a_wait_loads : forall au tk r m t l c td, loads_done l ->
    amoves (mkA au tk r m t l (OLoads c) td) None (mkA au tk r m t l (OUnlock c) td)
(* enforcer_synced.cpp:126: autoLoadRunning = false *)
| a_stopped : forall au tk r m t l td,
    amoves (mkA au tk r m t l (OUnlock Stop) td) None (mkA false tk r None t l (OFinish Stop) td)
(* enforcer_synced.cpp:113: the old ticker is gone, the new one has no threads yet *)
| a_replaced : forall au tk r m t l td,
    amoves (mkA au tk r m t l (OUnlock Start) td) None (mkA au tk false None None [] OStart td)
| a_return : forall au tk r m t l c td,
    amoves (mkA au tk r m t l (OFinish c) td) (Some (AReturn c)) (mkA au tk r m t l OIdle td)
(* ticker.cpp:52-60 [timer_loop] *)
| a_check_on : forall au tk m l ow td,
    amoves (mkA au tk true m (Some TCheck) l ow td) None (mkA au tk true m (Some TLock) l ow td)
| a_check_off : forall au tk m l ow td,
    amoves (mkA au tk false m (Some TCheck) l ow td) None (mkA au tk false m (Some TDone) l ow td)
| a_timer_lock : forall au tk r l ow td,
    amoves (mkA au tk r None (Some TLock) l ow td) None (mkA au tk r (Some Timer) (Some THolds) l ow td)
| a_tick : forall au tk r m l ow td,
    amoves (mkA au tk r m (Some THolds) l ow td) (Some ALoadStarts) (mkA au tk r m (Some TSleeps) (l ++ [LRuns]) ow td)
| a_wake : forall au tk r m l ow td,
    amoves (mkA au tk r m (Some TSleeps) l ow td) None (mkA au tk r None (Some TCheck) l ow td)
(* enforcer_synced.cpp:109-112, the load itself (its effect is M_Synced's) *)
| a_load_ends : forall au tk r m t l1 l2 ow td,
    amoves (mkA au tk r m t (l1 ++ LRuns :: l2) ow td) (Some ALoadEnds) (mkA au tk r m t (l1 ++ LDone :: l2) ow td).

(** A run of [n] steps with what was observed. *)
Inductive runs : nat -> aworld -> list aevent -> aworld -> Prop :=
| r_nil : forall w, runs 0 w [] w
| r_step : forall n w ev w1 evs w2, amoves w ev w1 -> runs n w1 evs w2 ->
    runs (S n) w (match ev with Some x => x :: evs | None => evs end) w2.

(** A new synchronised enforcer whose owner will make these calls. *)
Definition fresh (program : list ocall) : aworld := mkA false false false None None [] OIdle program.
