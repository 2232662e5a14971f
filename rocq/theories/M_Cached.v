(** Model of casbin/enforcer_cached.cpp. *)
From Verif Require Export Base M_Util M_RoleManager M_Effector M_Model M_Persist M_Eval M_Evaluator M_Enforcer.

(** include/casbin/enforcer_cached.h:26-30: the plain enforcer it extends, the cache and
    its switch.  The mutex of the cache is held only inside getCachedResult and
    setCachedResult; it is left out here and modelled in M_CachedThreads.v. *)
Record cached := mkC { c_base : enforcer; c_map : list (string * bool); c_on : bool }.
Definition CM (A : Type) := cached -> cached * res A.

(** A call of a function that is not overridden. *)
Definition inherited {A} (x : M A) : CM A :=
  fun c => let (e, out) := x (c_base c) in (mkC e (c_map c) (c_on c), out).

(** The constructors, enforcer_cached.cpp:33-103: the cache is on and empty. *)
Definition new_cached (e : enforcer) : cached := mkC e [] true.

(** enforcer_cached.cpp:117-119 [EnableCache]. *)
Definition EnableCache (b : bool) : CM unit := fun c => (mkC (c_base c) (c_map c) b, Ok tt).
(** enforcer_cached.cpp:140-142 [InvalidateCache]. *)
Definition InvalidateCache : CM unit := fun c => (mkC (c_base c) [] (c_on c), Ok tt).

(** enforcer_cached.cpp:181-188, 209-216: the key of a positional request; a JSON value
    contributes nothing but the separator. *)
Definition cache_key (params : list data) (matcher : string) : string :=
  (String.concat "" (map (fun d => match d with DStr s => s ++ "$$" | DJson => "$$" end) params) ++ matcher ++ "$")%string.
(** enforcer_cached.cpp:237-244: for a map the values in the order of the container; the
    names are not part of the key. *)
Definition cache_key_map (params : list (string * data)) (matcher : string) : string :=
  cache_key (map snd params) matcher.

(** enforcer_cached.cpp:177-200, 205-228, 233-255: the answer in the cache, or that of
    the plain enforcer, which is then kept; nothing is kept after an exception.
    getCachedResult and setCachedResult are enforcer_cached.cpp:121-138. *)
Definition through_cache (key : string) (plain : M bool) : CM bool :=
  fun c =>
    if negb (c_on c) then inherited plain c
    else match aget key (c_map c) with
         | Some b => (c, Ok b)
         | None =>
             let (c', out) := inherited plain c in
             (match out with Ok b => mkC (c_base c') (aset key b (c_map c')) (c_on c') | _ => c' end, out)
         end.

Section Cached.
  Variable o : oracle.

  (** enforcer_cached.cpp:177-200 and 205-228 [EnforceWithMatcher]. *)
  Definition c_EnforceWithMatcher (matcher : string) (params : list data) : CM bool :=
    through_cache (cache_key params matcher) (EnforceWithMatcher o matcher params).
  (** enforcer_cached.cpp:233-255 [EnforceWithMatcher] for a map. *)
  Definition c_EnforceWithMatcherMap (matcher : string) (params : list (string * data)) : CM bool :=
    through_cache (cache_key_map params matcher) (EnforceWithMatcherMap o matcher params).
  (** enforcer_cached.cpp:150-164 [Enforce]. *)
  Definition c_Enforce (params : list data) : CM bool := c_EnforceWithMatcher "" params.
  Definition c_EnforceMap (params : list (string * data)) : CM bool := c_EnforceWithMatcherMap "" params.

  (** Enforcer::BatchEnforce (enforcer.cpp:675-683) calls the virtual Enforce, so each
      request goes through the cache. *)
  Fixpoint c_BatchEnforce (reqs : list (list data)) : CM (list bool) :=
    fun c =>
      match reqs with
      | [] => (c, Ok [])
      | q :: qs =>
          let (c1, out) := c_Enforce q c in
          match out with
          | Ok b => let (c2, out2) := c_BatchEnforce qs c1 in (c2, let! bs := out2 in Ok (b :: bs))
          | Throw t => (c1, Throw t)
          | UB u => (c1, UB u)
          end
      end.
  (** BatchEnforceWithMatcher (enforcer.cpp:686-693) calls Enforcer::EnforceWithMatcher,
      which is not virtual; EnforceEx is not overridden.  Neither uses the cache. *)
  Definition c_BatchEnforceWithMatcher (matcher : string) (reqs : list (list data)) : CM (list bool) :=
    inherited (BatchEnforceWithMatcher o matcher reqs).
  Definition c_EnforceEx (params : list data) : CM (bool * list string) := inherited (EnforceEx o params).

  (** rbac_api.cpp:227-247 [GetImplicitUsersForPermission] asks the virtual Enforce. *)
  Fixpoint c_allowed_subjects (perm subjects : list string) : CM (list string) :=
    fun c =>
      match subjects with
      | [] => (c, Ok [])
      | s :: ss =>
          match (let! p0 := vget perm 0 in let! p1 := vget perm 1 in Ok (p0, p1)) with
          | Ok (p0, p1) =>
              let (c1, out) := c_Enforce [DStr s; DStr p0; DStr p1] c in
              match out with
              | Ok ok => let (c2, out2) := c_allowed_subjects perm ss c1 in
                         (c2, let! rest := out2 in Ok (if ok : bool then s :: rest else rest))
              | Throw t => (c1, Throw t)
              | UB u => (c1, UB u)
              end
          | Throw t => (c, Throw t)
          | UB u => (c, UB u)
          end
      end.
  Definition c_GetImplicitUsersForPermission (perm : list string) : CM (list string) :=
    fun c =>
      let (c1, out1) :=
        inherited (ps <- GetAllSubjects ;; gi <- all_types "g" 1 ;; gs <- all_types "g" 0 ;;
                   ret (ArrayRemoveDuplicates (ps ++ gs), gi)) c in
      match out1 with
      | Ok (subjects, gi) =>
          let (c2, out) := c_allowed_subjects perm subjects c1 in
          (c2, let! res := out in Ok (SetSubtract res gi))
      | Throw t => (c1, Throw t)
      | UB u => (c1, UB u)
      end.
End Cached.
