(** Model of the ways to make an enforcer from files: the constructors and the
    initialising functions of casbin/enforcer.cpp. *)
From Verif Require Import Base M_Util M_RoleManager M_Effector M_Model M_Persist M_Eval M_Evaluator M_Enforcer M_Config M_Load.

Section Init.
  (** As in M_Load.v. *)
  Variable odd_replace : string -> string -> res string.

  (** model.cpp:141-144 [LoadModel] on an empty model: [NewModelFromFile]
      (model.cpp:182-186) and the constructor Model(path) (model.cpp:172-174).  Config::Parse
      takes a lock first; it is the subject of M_Config.v and assumed to be free. *)
  Definition NewModelFromFile (f : fs) (path : string) : res model :=
    NewModelFromString odd_replace (content_of f path).

  (** The object a constructor delivers, or its exception. *)
  Definition constructed (p : enforcer * res unit) : res enforcer := let! _ := snd p in Ok (fst p).

  (** enforcer.cpp:260-263, with a model file and an adapter. *)
  Definition NewEnforcerWithAdapter (f : fs) (model_path : string) (a : option adapter) : res enforcer :=
    let! m := NewModelFromFile f model_path in constructed (new_enforcer f m a).
  (** enforcer.cpp:250-252 and 306-309, with a model file and a policy file (the log flag is
      not modelled). *)
  Definition NewEnforcer (f : fs) (model_path policy_file : string) : res enforcer :=
    NewEnforcerWithAdapter f model_path (Some (AFile true policy_file)).
  (** enforcer.cpp:295-297, with a model file only. *)
  Definition NewEnforcerModelOnly (f : fs) (model_path : string) : res enforcer := NewEnforcer f model_path "".

  (** enforcer.cpp:318-324 [InitWithAdapter] on an existing enforcer. *)
  Definition InitWithAdapter (model_path : string) (a : option adapter) : M unit :=
    fun e => match NewModelFromFile (e_fs e) model_path with
             | Ok m => InitWithModelAndAdapter m a e
             | Throw x => (e, Throw x)
             | UB u => (e, UB u)
             end.
  (** enforcer.cpp:312-315 [InitWithFile]. *)
  Definition InitWithFile (model_path policy_path : string) : M unit :=
    InitWithAdapter model_path (Some (AFile true policy_path)).

  (** enforcer.cpp:362-368 [LoadModel]; [path] is Enforcer::m_model_path, the file given to
      the constructor or to the last InitWith... call, "" if there was none. *)
  Definition e_LoadModel (path : string) : M unit :=
    fun e => match NewModelFromFile (e_fs e) path with
             | Ok m => SetModel m e
             | Throw x => (e, Throw x)
             | UB u => (e, UB u)
             end.
End Init.
