(** Vocabulary of property C90: several enforcers, in one process or in many, over the
    same files.  Each has everything of its own but the files; a call is made through one
    of them and sees the files as they are then.  Simplification: calls happen one after
    the other, so nobody sees a file half written. *)
From Verif Require Import Base M_Util M_RoleManager M_Model M_Persist M_Evaluator M_Enforcer S_History.

Record fleet := mkFleet { disk : fs; members : list enforcer }.

(** The [i]-th enforcer with the files as they are. *)
Definition member (w : fleet) (i : nat) : option enforcer :=
  match nth_error (members w) i with Some e => Some (set_fs (disk w) e) | None => None end.

Fixpoint replace_nth {A} (l : list A) (i : nat) (a : A) : list A :=
  match l, i with
  | [], _ => []
  | _ :: t, 0 => a :: t
  | x :: t, S k => x :: replace_nth t k a
  end.

(** Call [c] through the [i]-th enforcer: what it leaves on the disk is there for all. *)
Definition fleet_step (o : oracle) (w : fleet) (a : nat * call) : fleet :=
  match member w (fst a) with
  | None => w
  | Some e => let e' := fst (run o (snd a) e) in mkFleet (e_fs e') (replace_nth (members w) (fst a) e')
  end.
Definition fleet_run (o : oracle) (w : fleet) (h : list (nat * call)) : fleet := fold_left (fleet_step o) h w.

Definition saves (a : nat * call) : Prop := snd a = KSavePolicy.
(** The calls of a history made through one enforcer. *)
Definition own_calls (j : nat) (h : list (nat * call)) : list (nat * call) :=
  List.filter (fun a => Nat.eqb (fst a) j) h.
