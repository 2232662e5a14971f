(** Vocabulary of property C98. *)
From Verif Require Import Base M_Pool.

(** Threads that each ask for a list of functions, in a process whose pool is empty, as it
    is at the start. *)
Definition threads (programs : list (list fcall)) : process := mkP [] (map (fun cs => mkFT cs FIdle []) programs).
(** Threads that each make one enforcement, with an enforcer of its own. *)
Definition enforcements (es : list enforcer) : process := threads (map (fun e => map snd (loads (e_model e))) es).

(** Does the next step of a thread touch the pool, and does it write?  For the C++ library
    operator[] of an unordered_map writes. *)
Definition pool_access (t : fthread) : option bool :=
  match ft_at t with
  | FIdle => None
  | FFind _ => Some false
  | FFetch _ | FStore _ | FClear _ => Some true
  end.
(** A data race on the pool. *)
Definition pool_race (w : process) : Prop :=
  exists i j t t' wr wr', i <> j /\ nth_error (p_threads w) i = Some t /\ nth_error (p_threads w) j = Some t' /\
    pool_access t = Some wr /\ pool_access t' = Some wr' /\ (wr = true \/ wr' = true).

(** Every call was made and answered. *)
Definition all_given (w : process) : Prop := forall t, In t (p_threads w) -> ft_at t = FIdle /\ ft_todo t = [].

(** Schedules in which no thread asks for a function while another one waits for its own:
    one thread at a time is inside the call. *)
Definition one_inside (w : process) : Prop :=
  forall i j t t', nth_error (p_threads w) i = Some t -> nth_error (p_threads w) j = Some t' ->
    ft_at t <> FIdle -> ft_at t' <> FIdle -> i = j.
Inductive by_turns : process -> list nat -> process -> Prop :=
| turns_nil : forall w, by_turns w [] w
| turns_step : forall w i w' is w'', f_moves w i w' -> one_inside w' -> by_turns w' is w'' -> by_turns w (i :: is) w''.
