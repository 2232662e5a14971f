(** Model of how a watcher is connected to an enforcer: persist/watcher.h
    [SetUpdateCallback], enforcer.cpp [SetWatcher], enforcer_synced.cpp [SetWatcher]. *)
From Verif Require Export Base M_Util M_RoleManager M_Model M_Persist M_Evaluator M_Enforcer M_OwnWatcher M_Synced.

(** A function that is not virtual is chosen by the type of the pointer: Watcher, or the
    class of the caller. *)
Inductive seen_as := AsWatcher | AsOwnClass.
(** persist/watcher.h:30-33 [SetUpdateCallback] of Watcher is a template, so it is not
    virtual, and does nothing.  Simplification: the function of that name in a class of the
    caller keeps the callback it is given; the callback is all we model of such a watcher. *)
Definition SetUpdateCallback (s : seen_as) (f : M unit) (callback : option (M unit)) : option (M unit) :=
  match s with
  | AsWatcher => callback
  | AsOwnClass => Some f
  end.
(** enforcer.cpp:393-399 [SetWatcher] with a watcher of the caller: the watcher, seen as
    Watcher, is given LoadPolicy. *)
Definition SetWatcher_own (e : enforcer) (callback : option (M unit)) : enforcer * option (M unit) :=
  (fst (SetWatcher e), SetUpdateCallback AsWatcher LoadPolicy callback).

(** A synchronised enforcer: the enforcer it is, and its own member [watcher]
    (enforcer_synced.h:35), with the number of times that watcher was told. *)
Record synced := mkSynced { sy_e : enforcer; sy_watcher : option nat }.
(** enforcer_synced.cpp:135-138 [SetWatcher]. *)
Definition sy_SetWatcher (s : synced) : synced := mkSynced (sy_e s) (Some 0).
(** Every other call: the code never reads [watcher]; it tells m_watcher. *)
Definition sy_call (o : oracle) (c : scall) (s : synced) : option synced :=
  match exec false (code o c) (sy_e s) with
  | Finished e' _ => Some (mkSynced e' (sy_watcher s))
  | LocksItself => None
  end.
