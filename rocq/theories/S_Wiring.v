(** Vocabulary of property C96: what a watcher given with SetWatcher can do. *)
From Verif Require Import Base M_Util M_RoleManager M_Model M_Persist M_Evaluator M_Enforcer M_OwnWatcher M_Synced M_Wiring S_Policy S_History S_Notify S_Cluster.

(** ** Enforcers that share a storage, each with a watcher of the caller's own class *)
(** The calls the storage has received; each enforcer with the callback its watcher has. *)
Record hub := mkHub { h_log : list acall; h_nodes : list (enforcer * option (M unit)) }.
Inductive hact :=
| HCall (i : nat) (c : call)      (* a call through the i-th enforcer *)
| HSetWatcher (i : nat)           (* SetWatcher of the i-th enforcer, with its watcher *)
| HWire (i : nat).                (* the caller gives LoadPolicy to the watcher itself *)

(** The [i]-th becomes [a], the others do [f]. *)
Fixpoint rest_do {A} (f : A -> A) (i : nat) (a : A) (l : list A) : list A :=
  match l, i with
  | [], _ => []
  | _ :: t, 0 => a :: map f t
  | x :: t, S k => f x :: rest_do f k a t
  end.
(** A watcher that hears of a change by another enforcer runs its callback, if it has one. *)
Definition hears_of (log : list acall) (x : enforcer * option (M unit)) : enforcer * option (M unit) :=
  match snd x with
  | Some f => (fst (f (with_log log (fst x))), Some f)
  | None => x
  end.
Definition hub_step (o : oracle) (h : hub) (a : hact) : hub :=
  match a with
  | HCall i c =>
      match nth_error (h_nodes h) i with
      | None => h
      | Some (e0, cb) =>
          let e := with_log (h_log h) e0 in
          let e' := fst (run o c e) in
          mkHub (told e') (rest_do (fun x => if Nat.ltb (heard e) (heard e') then hears_of (told e') x else x) i (e', cb) (h_nodes h))
      end
  | HSetWatcher i =>
      match nth_error (h_nodes h) i with
      | None => h
      | Some (e, cb) => mkHub (h_log h) (rest_do (fun x => x) i (SetWatcher_own e cb) (h_nodes h))
      end
  | HWire i =>
      match nth_error (h_nodes h) i with
      | None => h
      | Some (e, cb) => mkHub (h_log h) (rest_do (fun x => x) i (e, SetUpdateCallback AsOwnClass LoadPolicy cb) (h_nodes h))
      end
  end.
Definition hub_run (o : oracle) (h : hub) (l : list hact) : hub := fold_left (hub_step o) l h.
Definition no_callbacks (h : hub) : Prop := Forall (fun x => snd x = None) (h_nodes h).
Definition all_wired (h : hub) : Prop := Forall (fun x => snd x = Some LoadPolicy) (h_nodes h).
(** Actions that do not wire a watcher by hand and are no calls through the [j]-th enforcer. *)
Definition elsewhere (j : nat) (a : hact) : Prop :=
  match a with HCall i _ => i <> j | HSetWatcher _ => True | HWire _ => False end.
(** The enforcers alone. *)
Definition cluster_of (h : hub) : cluster := mkCluster (h_log h) (map fst (h_nodes h)).

(** ** A synchronised enforcer *)
Inductive sact := YSetWatcher | YCall (c : scall).
Inductive synced_run (o : oracle) : synced -> list sact -> synced -> Prop :=
| sy_nil : forall s, synced_run o s [] s
| sy_set : forall s l s', synced_run o (sy_SetWatcher s) l s' -> synced_run o s (YSetWatcher :: l) s'
| sy_step : forall s c s1 l s', sy_call o c s = Some s1 -> synced_run o s1 l s' -> synced_run o s (YCall c :: l) s'.
