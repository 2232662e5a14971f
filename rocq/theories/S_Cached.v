(** Histories of calls on a cached enforcer. *)
From Verif Require Import Base M_Cached S_Text S_History.

(** A request through the cache, or any other call. *)
Inductive ccall :=
| QEnforce (matcher : string) (params : list data)
| QEnforceMap (matcher : string) (params : list (string * data))
| QBatch (reqs : list (list data))
| QImplicitUsers (perm : list string)
| QOther (c : call)                    (* not overridden: adding, removing, loading, switches, ... *)
| QEnableCache (b : bool)
| QInvalidate.

Definition c_drop {A} (x : CM A) : CM unit := fun c => let (c', out) := x c in (c', let! _ := out in Ok tt).
Definition c_run (o : oracle) (q : ccall) : CM unit :=
  match q with
  | QEnforce m ps => c_drop (c_EnforceWithMatcher o m ps)
  | QEnforceMap m ps => c_drop (c_EnforceWithMatcherMap o m ps)
  | QBatch rs => c_drop (c_BatchEnforce o rs)
  | QImplicitUsers perm => c_drop (c_GetImplicitUsersForPermission o perm)
  | QOther c => inherited (run o c)
  | QEnableCache b => EnableCache b
  | QInvalidate => InvalidateCache
  end.
(** The state after a history; calls that throw are included, calls with undefined
    behaviour end it. *)
Inductive c_reaches (o : oracle) : cached -> list ccall -> cached -> Prop :=
| c_nil : forall c, c_reaches o c [] c
| c_step : forall c q qs c1 out c2,
    c_run o q c = (c1, out) -> (forall u, out <> UB u) -> c_reaches o c1 qs c2 -> c_reaches o c (q :: qs) c2.

(** Histories that do not touch the cache from outside. *)
Definition keeps_cache (q : ccall) : Prop :=
  match q with QEnableCache _ | QInvalidate => False | _ => True end.

(** A sequence of requests, each with its matcher ("" for the model's own). *)
Fixpoint c_ask (o : oracle) (qs : list (string * list string)) (c : cached) : cached :=
  match qs with
  | [] => c
  | (matcher, req) :: qs' => c_ask o qs' (fst (c_EnforceWithMatcher o matcher (map DStr req) c))
  end.
(** Values without the character the cache separates them with. *)
Definition no_dollar (q : string * list string) : Prop := forall v, In v (snd q) -> lacks "$" v.
