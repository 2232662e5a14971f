(** Vocabulary of property C93: enforcers that share one storage through adapters of the
    user's own and are told of each other's changes by a watcher.  An enforcer that is told
    of a change loads the policy.  enforcer.cpp:393-399 [SetWatcher] means to make LoadPolicy
    the callback of the watcher, but the callback is dropped (watcher.h:30-33), so the user
    has to wire the watchers to LoadPolicy. *)
From Verif Require Import Base M_Util M_RoleManager M_Model M_Persist M_Evaluator M_Enforcer S_Policy S_Persist S_History S_Notify.

(** [heard_by_storage]: the calls the storage has received from all of them, oldest first. *)
Record cluster := mkCluster { heard_by_storage : list acall; nodes : list enforcer }.

(** An enforcer whose adapter stands for a storage that has received these calls. *)
Definition with_log (log : list acall) (e : enforcer) : enforcer :=
  match e_adapter e with
  | Some (AUser u) => set_adapter (Some (AUser (mkUA (ua_batch u) (ua_filtered u) (ua_valid u) (ua_resp u) (ua_load u) (ua_save u) log))) e
  | _ => e
  end.
Definition node (w : cluster) (i : nat) : option enforcer := option_map (with_log (heard_by_storage w)) (nth_error (nodes w) i).

(** The [i]-th becomes [e], the others do [f]. *)
Fixpoint others_do (f : enforcer -> enforcer) (i : nat) (e : enforcer) (l : list enforcer) : list enforcer :=
  match l, i with
  | [], _ => []
  | _ :: t, 0 => e :: map f t
  | x :: t, S k => f x :: others_do f k e t
  end.

(** Call [c] through the [i]-th enforcer.  If its watcher was told of something, the watchers
    of the others call back and each of them loads the policy.  Simplification: they do so
    after the call, once for all the changes it made. *)
Definition cluster_step (o : oracle) (w : cluster) (a : nat * call) : cluster :=
  match node w (fst a) with
  | None => w
  | Some e =>
      let e' := fst (run o (snd a) e) in
      mkCluster (told e')
        (others_do (fun x => if Nat.ltb (heard e) (heard e') then fst (LoadPolicy (with_log (told e') x)) else x) (fst a) e' (nodes w))
  end.
(** A history in which every call through an enforcer returned. *)
Inductive works (o : oracle) : cluster -> list (nat * call) -> cluster -> Prop :=
| works_nil : forall w, works o w [] w
| works_step : forall w i c h w' e, node w i = Some e -> snd (run o c e) = Ok tt ->
    works o (cluster_step o w (i, c)) h w' -> works o w ((i, c) :: h) w'.

(** What a storage that does as it is told has, after a call and after many. *)
Definition obeyed (T : table) (c : acall) : table :=
  match c with
  | CAdd sec pt r => fun s q x => T s q x \/ (s = sec /\ q = pt /\ x = r)
  | CRemove sec pt r => fun s q x => T s q x /\ ~ (s = sec /\ q = pt /\ x = r)
  | CRemoveFiltered sec pt i vals => fun s q x => T s q x /\ ~ (s = sec /\ q = pt /\ qualifies i vals x)
  | CAddMany sec pt rs => fun s q x => T s q x \/ (s = sec /\ q = pt /\ In x rs)
  | CRemoveMany sec pt rs => fun s q x => T s q x /\ ~ (s = sec /\ q = pt /\ In x rs)
  end.
Definition has_after (T0 : table) (log : list acall) : table := fold_left obeyed log T0.

(** Two tables have the same policy and grouping rules. *)
Definition same_table (T U : table) : Prop := forall s q x, s = "p" \/ s = "g" -> (T s q x <-> U s q x).

(** A storage that started with the rules [T0] and does as it is told: asked for the policy
    it gives a line for each rule it has, as far as rules can be written as lines. *)
Definition reliable (T0 : table) (load : list acall -> list string * option exn) : Prop :=
  forall log, (forall s q x, s = "p" \/ s = "g" -> has_after T0 log s q x -> plain_type s q /\ plain_rule x) ->
  exists lines rs, load log = (lines, None) /\ lines_mean eq lines rs /\ NoDup rs /\
    (forall kr, In kr rs -> section_of (fst kr) = "p" \/ section_of (fst kr) = "g") /\
    forall s q x, s = "p" \/ s = "g" -> section_of q = s -> (In (q, x) rs <-> has_after T0 log s q x).

(** An enforcer that takes part: auto-save and notification are on, there is a watcher, the
    adapter stands for the storage [load], the types have the letter of their section, and
    rules are among [rules]. *)
Record takes_part (rules : rule -> Prop) (load : list acall -> list string * option exn) (e : enforcer) : Prop := mkPart {
  tp_adapter : exists u, e_adapter e = Some (AUser u) /\ ua_batch u = true /\ ua_load u = load;
  tp_save : e_auto_save e = true;
  tp_notify : e_notify e = true;
  tp_watcher : e_watcher e <> None;
  tp_types : forall sec pt, sec = "p" \/ sec = "g" -> declared e sec pt -> plain_type sec pt;
  tp_rules : forall sec pt, NoDup (stored e sec pt) /\ forall r, In r (stored e sec pt) -> rules r }.

(** The calls that may be made: those that forward what they do, and they leave the
    watcher alone. *)
Definition cluster_call (rules : rule -> Prop) (c : call) : Prop :=
  forwarded rules c /\ match c with KSetWatcher => False | KEnableAutoNotify b => b = true | _ => True end.

(** An enforcer takes part and has the rules of a storage that received [log]. *)
Definition up_to_date (rules : rule -> Prop) (T0 : table) (load : list acall -> list string * option exn) (log : list acall) (e : enforcer) : Prop :=
  takes_part rules load e /\ same_table (policy e) (has_after T0 log).
(** All have the rules of the storage, and the same policy types. *)
Definition in_step (rules : rule -> Prop) (T0 : table) (load : list acall -> list string * option exn) (w : cluster) : Prop :=
  (forall i e, node w i = Some e -> up_to_date rules T0 load (heard_by_storage w) e) /\
  (forall i j e e', node w i = Some e -> node w j = Some e' -> same_types e e').
