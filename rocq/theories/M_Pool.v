(** Model of ExprtkFunctionFactory::GetExprtkFunction (include/casbin/model/exprtk_config.h:244-305)
    and of the enforcements that call it, cut into the steps between which another thread
    may run.  The pool is a static variable, so all enforcers of the process share it. *)
From Verif Require Export Base M_Util M_RoleManager M_Effector M_Model M_Load M_Eval M_Evaluator M_Enforcer.

(** exprtk_config.h:230-242 [ExprtkFunctionType], without Unknown, which nobody asks for. *)
Inductive ftype := TG | TKeyMatch | TKeyMatch2 | TKeyMatch3 | TKeyMatch4 | TRegexMatch | TIpMatch | TKeyGet | TKeyGet2 | TKeyGet3.
Definition ftype_number (t : ftype) : nat :=
  match t with
  | TG => 1 | TKeyMatch => 2 | TKeyMatch2 => 3 | TKeyMatch3 => 4 | TKeyMatch4 => 5
  | TRegexMatch => 6 | TIpMatch => 7 | TKeyGet => 8 | TKeyGet2 => 9 | TKeyGet3 => 10
  end.

(** A call: type, number of arguments, and the role manager (an address, [None] for a null
    pointer; it is used for role functions only). *)
Record fcall := mkCall { k_type : ftype; k_narg : nat; k_rm : option nat }.
(** A function object, as the constructors at exprtk_config.h:263-296 make it: its
    behaviour is that of its type; a role function keeps its role manager. *)
Record fobj := mkF { f_type : ftype; f_narg : nat; f_rm : option nat }.
Definition made (c : fcall) : fobj := mkF (k_type c) (k_narg c) (k_rm c).

(** exprtk_config.h:247, 253: the key of the pool; the role manager is not part of it. *)
Fixpoint letters_S (n : nat) : string := match n with 0 => "" | S k => String "S" (letters_S k) end.
Definition pool_key (c : fcall) : string := (to_string (ftype_number (k_type c)) ++ letters_S (k_narg c))%string.
Definition pool := list (string * option fobj).

(** Where a thread is inside GetExprtkFunction. *)
Inductive fplace :=
| FIdle
| FFind (c : fcall)        (* :256 pool.find(key) != pool.end() *)
| FFetch (c : fcall)       (* :258 return pool[key] *)
| FStore (c : fcall)       (* :301 pool[key] = func *)
| FClear (c : fcall).      (* :303 pool.clear(), then return func *)
(** A thread: the calls it still makes, its place, and what it was given ([None] is a null
    pointer). *)
Record fthread := mkFT { ft_todo : list fcall; ft_at : fplace; ft_got : list (fcall * option fobj) }.
Record process := mkP { p_pool : pool; p_threads : list fthread }.
Definition fgoto (t : fthread) (p : fplace) : fthread := mkFT (ft_todo t) p (ft_got t).
Definition given (t : fthread) (c : fcall) (f : option fobj) : fthread := mkFT (ft_todo t) FIdle (ft_got t ++ [(c, f)]).

(** One step of a thread.  Simplification: an operation on the map is one step.  That two
    threads are in one at the same time is undefined behaviour, which S_Pool.v describes;
    the model is what happens when the operations do not tear. *)
Definition f_step (p : pool) (t : fthread) : option (pool * fthread) :=
  match ft_at t with
  | FIdle => match ft_todo t with [] => None | c :: cs => Some (p, mkFT cs (FFind c) (ft_got t)) end
  | FFind c => Some (p, fgoto t (match aget (pool_key c) p with Some _ => FFetch c | None => FStore c end))
  | FFetch c =>
      (* operator[] makes an entry, a null pointer, when there is none *)
      match aget (pool_key c) p with
      | Some f => Some (p, given t c f)
      | None => Some (aset (pool_key c) None p, given t c None)
      end
  | FStore c => Some (aset (pool_key c) (Some (made c)) p, fgoto t (FClear c))
  | FClear c => Some ([], given t c (Some (made c)))
  end.

Inductive f_moves : process -> nat -> process -> Prop :=
| f_moves_step : forall w i t p' t', nth_error (p_threads w) i = Some t -> f_step (p_pool w) t = Some (p', t') ->
    f_moves w i (mkP p' (upd i t' (p_threads w))).
Inductive f_schedule : process -> list nat -> process -> Prop :=
| f_sched_nil : forall w, f_schedule w [] w
| f_sched_step : forall w i w' is w'', f_moves w i w' -> f_schedule w' is w'' -> f_schedule w (i :: is) w''.

(** The calls one enforcement makes, with the names the results are registered under:
    evaluator.cpp:67-77 [LoadFunctions], then enforcer.cpp:56-63 with evaluator.cpp:79-82
    [LoadGFunction] for every role definition. *)
Definition loads (m : model) : list (string * fcall) :=
  [("keyMatch", mkCall TKeyMatch 2 None); ("keyMatch2", mkCall TKeyMatch2 2 None); ("keyMatch3", mkCall TKeyMatch3 2 None);
   ("keyMatch4", mkCall TKeyMatch4 2 None); ("regexMatch", mkCall TRegexMatch 2 None); ("ipMatch", mkCall TIpMatch 2 None);
   ("keyGet", mkCall TKeyGet 2 None); ("keyGet2", mkCall TKeyGet2 3 None); ("keyGet3", mkCall TKeyGet3 3 None)] ++
  map (fun kv => (fst kv, mkCall TG (scount "_" (a_value (snd kv))) (a_rm (snd kv)))) (sec_of m "g").

(** evaluator.cpp:123-128 [AddFunction]: a null pointer is not registered. *)
Definition efun_of (f : fobj) : efun := match f_type f with TG => FG (f_rm f) (f_narg f) | _ => FBuiltin end.
Definition registers (ev : evaluator) (name : string) (f : option fobj) : evaluator :=
  match f with Some f => AddFunction ev name (efun_of f) | None => ev end.
Fixpoint registered (ev : evaluator) (names : list string) (got : list (fcall * option fobj)) : evaluator :=
  match names, got with
  | n :: ns, (_, f) :: fs => registered (registers ev n f) ns fs
  | _, _ => ev
  end.

Section Loaded.
  Variable o : oracle.

  (** The rest of m_enforce, enforcer.cpp:65-236, for an evaluator in which the functions
      are registered; P_Pool.m_enforce_loads shows that m_enforce is loading and then
      this. *)
  Definition after_loading (e : enforcer) (ev1 : evaluator) (matcher : string)
    : evaluator * res (bool * list string) :=
      let m := e_model e in
      let ready :=
        let! expr := (if String.eqb matcher "" then let! a := get_ast m "m" "m" in Ok (a_value a)
                      else Ok matcher) in
        let! r := get_ast m "r" "r" in
        let! p := get_ast m "p" "p" in
        let! rules := selected_policies m ev1 in
        Ok (expr, a_tokens p, rules) in
      match ready with
      | Throw t => (ev1, Throw t)
      | UB u => (ev1, UB u)
      | Ok (expr, toks, rules) =>
          let has_eval := HasEval expr in
          match rules with
          | _ :: _ =>
              match get_ast m "e" "e" with
              | Ok ea =>
                  let len := List.length rules in
                  let (ev2, out) :=
                    rule_loop o (e_heap e) has_eval expr (a_value ea) toks len rules 0
                              (repeat Indeterminate len) (repeat false len) (UB Uninitialised) ev1 in
                  (ev2, let! r := out in Ok (decide rules r))
              | Throw t => (ev1, Throw t)
              | UB u => (ev1, UB u)
              end
          | [] =>
              if has_eval then (ev1, Throw CasbinEnforcer)
              else
                match push_p ev1 toks (map (fun _ => "") toks) with
                | (ev2, Ok _) =>
                    let (ev3, valid) := Eval o ev2 expr in
                    if negb valid then (ev3, Ok (false, []))
                    else
                      match M_Evaluator.value o (e_heap e) ev3 with
                      | Ok b =>
                          (ev3, let! ea := get_ast m "e" "e" in
                                let! r := MergeEffects (a_value ea)
                                                       [if b then Allow else Indeterminate] [true] 0 1 in
                                Ok (decide rules r))
                      | Throw t => (ev3, Throw t)
                      | UB u => (ev3, UB u)
                      end
                | (ev2, Throw t) => (ev2, Throw t)
                | (ev2, UB u) => (ev2, UB u)
                end
          end
      end.

  (** Enforcer::Enforce (enforcer.cpp:523-534, 586-652, 42-236) for a positional request, by
      a thread whose calls of GetExprtkFunction gave it [got]. *)
  Definition EnforceGiven (got : list (fcall * option fobj)) (params : list data) : M bool :=
    fun e =>
      match get_ast (e_model e) "r" "r" with
      | Throw t => (e, Throw t)
      | UB u => (e, UB u)
      | Ok r =>
          if negb (Nat.eqb (List.length params) (List.length (a_tokens r))) then (e, Ok false)
          else
            match push_r (own_evaluator e) (a_tokens r) params with
            | (ev1, Ok _) =>
                if negb (e_enabled e) then (set_ev (Some ev1) e, Ok true)
                else
                  let (ev2, out) := after_loading e (registered ev1 (map fst (loads (e_model e))) got) "" in
                  (set_ev (Some ev2) e, let! x := out in Ok (fst x))
            | (ev1, Throw t) => (set_ev (Some ev1) e, Throw t)
            | (ev1, UB u) => (set_ev (Some ev1) e, UB u)
            end
      end.
End Loaded.
