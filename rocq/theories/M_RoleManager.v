(** Model of casbin/rbac/default_role_manager.cpp. *)
From Verif Require Import Base.

(** A role manager.  A [Role] object is identified by its name: within a manager
    there is exactly one object per name (all_roles), objects are only destroyed
    all together by Clear, so the pointers in [Role::roles] are modelled by names.
    include/casbin/rbac/default_role_manager.h:31-66.  [max_level] is
    max_hierarchy_level (a negative C++ value behaves like 0).  [matching] is
    has_pattern together with matching_func. *)
Record role_manager := mkRM {
  all_roles : list (string * list string);
  matching : option (string -> string -> bool);
  max_level : nat }.

Definition with_roles (r : role_manager) (g : list (string * list string)) : role_manager :=
  mkRM g (matching r) (max_level r).

(** default_role_manager.cpp:148-151, constructor. *)
Definition new_rm (level : nat) : role_manager := mkRM [] None level.

(** default_role_manager.cpp:156-159 [AddMatchingFunc]. *)
Definition AddMatchingFunc (fn : string -> string -> bool) (r : role_manager) : role_manager :=
  mkRM (all_roles r) (Some fn) (max_level r).

(** default_role_manager.cpp:164-166 [Clear]. *)
Definition Clear (r : role_manager) : role_manager := with_roles r [].

(** The [roles] vector of the Role object called [n]. *)
Definition roles_of (g : list (string * list string)) (n : string) : list string :=
  match aget n g with Some l => l | None => [] end.

(** default_role_manager.cpp:31-38 [Role::AddRole] on the vector of role names. *)
Definition Role_AddRole (roles : list string) (role : string) : list string :=
  if existsb (fun x => String.eqb x role) roles then roles else roles ++ [role].

(** default_role_manager.cpp:40-45 [Role::DeleteRole]: the loop erases at index i
    and then increments i, so the element after an erased one is not examined. *)
Fixpoint Role_DeleteRole (roles : list string) (role : string) : list string :=
  match roles with
  | [] => []
  | x :: xs =>
      if String.eqb x role
      then match xs with [] => [] | y :: ys => y :: Role_DeleteRole ys role end
      else x :: Role_DeleteRole xs role
  end.

(** default_role_manager.cpp:47-60 [Role::HasRole], on the Role called [cur]. *)
Fixpoint Role_HasRole (g : list (string * list string)) (cur name : string) (level : nat) : bool :=
  if String.eqb cur name then true
  else match level with
       | 0 => false
       | S l => existsb (fun x => Role_HasRole g x name l) (roles_of g cur)
       end.

(** default_role_manager.cpp:62-69 [Role::HasDirectRole]. *)
Definition Role_HasDirectRole (roles : list string) (name : string) : bool :=
  existsb (fun x => String.eqb x name) roles.

(** default_role_manager.cpp:101-112 [DefaultRoleManager::HasRole]. *)
Definition HasRole (r : role_manager) (name : string) : bool :=
  match matching r with
  | Some f => existsb (fun kv => f name (fst kv)) (all_roles r)
  | None => ahas name (all_roles r)
  end.

(** default_role_manager.cpp:114-140 [CreateRole].  The keys visited in the
    pattern loop are those of all_roles, which the loop does not change. *)
Definition CreateRole (r : role_manager) (name : string) : role_manager :=
  let g1 := ainsert name [] (all_roles r) in
  match matching r with
  | None => with_roles r g1
  | Some f =>
      let hits := filter (fun k => f name k && negb (String.eqb name k)) (map fst g1) in
      with_roles r (aset name (fold_left Role_AddRole hits (roles_of g1 name)) g1)
  end.

(** The domain prefix, default_role_manager.cpp:172-176, 189-194, 209-214,
    230-234, 251-254: no domain, one domain, or an exception. *)
Definition prefixed (domain : list string) (name : string) : string :=
  match domain with d :: _ => (d ++ "::" ++ name)%string | [] => name end.

(** default_role_manager.cpp:171-181 [AddLink]. *)
Definition AddLink (r : role_manager) (name1 name2 : string) (domain : list string)
  : role_manager * res unit :=
  if Nat.ltb 1 (List.length domain) then (r, Throw CasbinRBAC)
  else
    let n1 := prefixed domain name1 in
    let n2 := prefixed domain name2 in
    let r1 := CreateRole r n1 in
    let r2 := CreateRole r1 n2 in
    (with_roles r2 (aset n1 (Role_AddRole (roles_of (all_roles r2) n1) n2) (all_roles r2)), Ok tt).

(** default_role_manager.cpp:188-202 [DeleteLink]. *)
Definition DeleteLink (r : role_manager) (name1 name2 : string) (domain : list string)
  : role_manager * res unit :=
  if Nat.ltb 1 (List.length domain) then (r, Throw CasbinRBAC)
  else
    let n1 := prefixed domain name1 in
    let n2 := prefixed domain name2 in
    if negb (HasRole r n1) || negb (HasRole r n2) then (r, Throw CasbinRBAC)
    else
      let r1 := CreateRole r n1 in
      let r2 := CreateRole r1 n2 in
      (with_roles r2 (aset n1 (Role_DeleteRole (roles_of (all_roles r2) n1) n2) (all_roles r2)), Ok tt).

(** default_role_manager.cpp:208-223 [HasLink]. *)
Definition HasLink (r : role_manager) (name1 name2 : string) (domain : list string)
  : role_manager * res bool :=
  if Nat.ltb 1 (List.length domain) then (r, Throw CasbinRBAC)
  else
    let n1 := prefixed domain name1 in
    let n2 := prefixed domain name2 in
    if String.eqb n1 n2 then (r, Ok true)
    else if negb (HasRole r n1) || negb (HasRole r n2) then (r, Ok false)
    else
      let r1 := CreateRole r n1 in
      (r1, Ok (Role_HasRole (all_roles r1) n1 n2 (max_level r1))).

(** Removal of the prefix, default_role_manager.cpp:242-245, 266-269:
    substr(k, n) throws std::out_of_range when k is past the end. *)
Definition unprefix (domain : list string) (name : string) : res string :=
  match domain with
  | d :: _ => let k := String.length d + 2 in
              if Nat.ltb (String.length name) k then Throw StdOutOfRange else Ok (sdrop k name)
  | [] => Ok name
  end.

(** default_role_manager.cpp:229-248 [GetRoles]. *)
Definition GetRoles (r : role_manager) (name : string) (domain : list string)
  : role_manager * res (list string) :=
  if Nat.ltb 1 (List.length domain) then (r, Throw CasbinRBAC)
  else
    let n := prefixed domain name in
    if negb (HasRole r n) then (r, Ok [])
    else
      let r1 := CreateRole r n in
      (r1, mapr (unprefix domain) (roles_of (all_roles r1) n)).

(** default_role_manager.cpp:250-272 [GetUsers]. *)
Definition GetUsers (r : role_manager) (name : string) (domain : list string)
  : res (list string) :=
  if Nat.ltb 1 (List.length domain) then Throw CasbinRBAC
  else
    let n := prefixed domain name in
    if negb (HasRole r n) then Throw CasbinRBAC
    else mapr (unprefix domain)
              (map fst (filter (fun kv => Role_HasDirectRole (snd kv) n) (all_roles r))).
