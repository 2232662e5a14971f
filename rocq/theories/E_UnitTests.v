(** The assertions of the project's own unit tests, computed by the model.

    These are tests of the model, not theorems about the code: each block below is one test
    of /repo/tests, translated call by call, and each must come out as the test says.  A
    definition of the model that disagrees with the code on any of these inputs makes this
    file fail to build.  The values given to an enforcer through an evaluator
    ([InitializeParams]) are given to it as a vector here.  Not translated: the tests that
    use threads and timers, the watchers' and the benchmarks. *)
From Verif Require Import Base M_Util M_RoleManager M_Model M_Persist M_Config M_Eval M_Evaluator M_Enforcer
  M_Load M_Init M_BuiltIn M_Ip M_Regex M_Functions M_Matcher M_Rewrite M_Cached E_Examples.
Close Scope N_scope.

Definition no_other : string -> string -> res (option (list string)) := fun _ _ => UB Unmodelled.
Definition no_odd : string -> string -> res string := fun _ _ => UB Unmodelled.
Definition lib : oracle := with_builtins no_other true (rewriting xmini).

Definition Ok_ {A} (f : string -> string -> A) (a b : string) : res A := Ok (f a b).
Definition is (b : bool) (r : res bool) : bool := match r with Ok b' => Bool.eqb b b' | _ => false end.
Definition text (s : string) (r : res string) : bool := match r with Ok s' => String.eqb s s' | _ => false end.
Fixpoint same (a b : list string) : bool :=
  match a, b with [], [] => true | x :: xs, y :: ys => String.eqb x y && same xs ys | _, _ => false end.

(** One step of a test: a call whose answer is asserted, a call, and a call that may throw. *)
Definition gives {A} (m : M A) (good : A -> bool) : M bool := a <- m ;; ret (good a).
Definition does {A} (m : M A) : M bool := a <- m ;; ret true.
Definition tries {A} (m : M A) : M bool :=
  fun e => match m e with (e', Ok _) => (e', Ok true) | (e', Throw CasbinRBAC) => (e', Ok true) | (e', Throw t) => (e', Throw t) | (e', UB u) => (e', UB u) end.
Fixpoint run (steps : list (M bool)) (e : enforcer) : bool :=
  match steps with
  | [] => true
  | s :: rest => match s e with (e', Ok true) => run rest e' | _ => false end
  end.
Definition passes (made : res enforcer) (steps : list (M bool)) : bool :=
  match made with Ok e => run steps e | _ => false end.

(** How the tests compare what they get: enforcer_test.cpp:158-164, rbac_api_test.cpp:95-108,
    management_api_test.cpp:35-69. *)
Definition explained (b : bool) (l : list string) (got : bool * list string) : bool := Bool.eqb b (fst got) && same l (snd got).
Definition as_many (want got : list rule) : bool :=
  Nat.eqb (List.length want) (List.length (List.filter (fun g => existsb (fun w => ArrayEquals w g) want) got)).
Definition as_many_pairs (want got : list rule) : bool :=
  Nat.eqb (List.length want) (List.length (flat_map (fun g => List.filter (fun w => ArrayEquals g w) want) got)).
Fixpoint in_turn (want got : list rule) : bool :=
  match got, want with
  | [], _ => true
  | g :: gs, w :: ws => ArrayEquals g w && in_turn ws gs
  | _ :: _, [] => false
  end.
Fixpoint take_out (r : rule) (l : list rule) : option (list rule) :=
  match l with [] => None | x :: xs => if same r x then Some xs else option_map (cons x) (take_out r xs) end.
Fixpoint multiset (want got : list rule) : bool :=
  match want with
  | [] => match got with [] => true | _ => false end
  | w :: ws => match take_out w got with Some got' => multiset ws got' | None => false end
  end.

(** A matching function given as a C++ function. *)
Definition answer (f : string -> string -> res bool) (a b : string) : bool := match f a b with Ok true => true | _ => false end.
Definition matching (f : string -> string -> res bool) : M bool := AddNamedMatchingFunc (answer f).
Definition rm_matching (f : string -> string -> bool) : M bool := AddNamedMatchingFunc f.

Definition file_at (path : string) : adapter := AFile false path.
Definition batch_at (path : string) : adapter := AFile true path.

(** Calls of a role manager. *)
Inductive rcall := RAdd (a b : string) (d : list string) | RDel (a b : string) (d : list string) | RClear | RHas (a b : string) (d : list string) (v : bool).
Fixpoint rm_run (cs : list rcall) (r : role_manager) : bool :=
  match cs with
  | [] => true
  | RAdd a b d :: rest => match AddLink r a b d with (r', Ok _) => rm_run rest r' | _ => false end
  | RDel a b d :: rest => match DeleteLink r a b d with (r', Ok _) => rm_run rest r' | _ => false end
  | RClear :: rest => rm_run rest (Clear r)
  | RHas a b d v :: rest => match HasLink r a b d with (r', Ok v') => Bool.eqb v v' && rm_run rest r' | _ => false end
  end.
Definition rm_passes (cs : list rcall) : bool := rm_run cs (new_rm 3).

(** The files of /repo/examples the tests use. *)
Definition disk : fs := mkFs
  [("examples/basic_model.conf", "[request_definition]
r = sub, obj, act

[policy_definition]
p = sub, obj, act

[policy_effect]
e = some(where (p.eft == allow))

[matchers]
m = r.sub == p.sub && r.obj == p.obj && r.act == p.act");
   ("examples/basic_model_without_spaces.conf", "[request_definition]
r = sub,obj,act

[policy_definition]
p = sub,obj,act

[policy_effect]
e = some(where (p.eft == allow))

[matchers]
m = r.sub == p.sub && r.obj == p.obj && r.act == p.act");
   ("examples/basic_policy.csv", "p, alice, data1, read
p, bob, data2, write");
   ("examples/basic_with_root_model.conf", "[request_definition]
r = sub, obj, act

[policy_definition]
p = sub, obj, act

[policy_effect]
e = some(where (p.eft == allow))

[matchers]
m = r.sub == p.sub && r.obj == p.obj && r.act == p.act || r.sub == ""root""");
   ("examples/basic_without_resources_model.conf", "[request_definition]
r = sub, act

[policy_definition]
p = sub, act

[policy_effect]
e = some(where (p.eft == allow))

[matchers]
m = r.sub == p.sub && r.act == p.act");
   ("examples/basic_without_resources_policy.csv", "p, alice, read
p, bob, write");
   ("examples/basic_without_users_model.conf", "[request_definition]
r = obj, act

[policy_definition]
p = obj, act

[policy_effect]
e = some(where (p.eft == allow))

[matchers]
m = r.obj == p.obj && r.act == p.act");
   ("examples/basic_without_users_policy.csv", "p, data1, read
p, data2, write");
   ("examples/priority_model.conf", "[request_definition]
r = sub, obj, act

[policy_definition]
p = sub, obj, act, eft

[role_definition]
g = _, _

[policy_effect]
e = priority(p.eft) || deny

[matchers]
m = g(r.sub, p.sub) && r.obj == p.obj && r.act == p.act");
   ("examples/priority_policy.csv", "p, alice, data1, read, allow
p, data1_deny_group, data1, read, deny
p, data1_deny_group, data1, write, deny
p, alice, data1, write, allow

g, alice, data1_deny_group

p, data2_allow_group, data2, read, allow
p, bob, data2, read, deny
p, bob, data2, write, deny

g, bob, data2_allow_group");
   ("examples/rbac_model.conf", "[request_definition]
r = sub, obj, act

[policy_definition]
p = sub, obj, act

[role_definition]
g = _, _

[policy_effect]
e = some(where (p.eft == allow))

[matchers]
m = g(r.sub, p.sub) && r.obj == p.obj && r.act == p.act");
   ("examples/rbac_policy.csv", "p, alice, data1, read
p, bob, data2, write
p, data2_admin, data2, read
p, data2_admin, data2, write
g, alice, data2_admin");
   ("examples/rbac_with_deny_model.conf", "[request_definition]
r = sub, obj, act

[policy_definition]
p = sub, obj, act, eft

[role_definition]
g = _, _

[policy_effect]
e = some(where (p.eft == allow)) && !some(where (p.eft == deny))

[matchers]
m = g(r.sub, p.sub) && r.obj == p.obj && r.act == p.act");
   ("examples/rbac_with_deny_policy.csv", "p, alice, data1, read, allow
p, bob, data2, write, allow
p, data2_admin, data2, read, allow
p, data2_admin, data2, write, allow
p, alice, data2, write, deny

g, alice, data2_admin");
   ("examples/rbac_with_domains_model.conf", "[request_definition]
r = sub, dom, obj, act

[policy_definition]
p = sub, dom, obj, act

[role_definition]
g = _, _, _

[policy_effect]
e = some(where (p.eft == allow))

[matchers]
m = g(r.sub, p.sub, r.dom) && r.dom == p.dom && r.obj == p.obj && r.act == p.act");
   ("examples/rbac_with_domains_policy.csv", "p, admin, domain1, data1, read
p, admin, domain1, data1, write
p, admin, domain2, data2, read
p, admin, domain2, data2, write
g, alice, admin, domain1
g, bob, admin, domain2");
   ("examples/rbac_with_hierarchy_policy.csv", "p, alice, data1, read
p, bob, data2, write
p, data1_admin, data1, read
p, data1_admin, data1, write
p, data2_admin, data2, read
p, data2_admin, data2, write

g, alice, admin
g, admin, data1_admin
g, admin, data2_admin");
   ("examples/rbac_with_hierarchy_with_domains_policy.csv", "p, role:reader, domain1, data1, read
p, role:writer, domain1, data1, write

p, alice, domain1, data2, read
p, alice, domain2, data2, read

g, role:global_admin, role:reader, domain1
g, role:global_admin, role:writer, domain1

g, alice, role:global_admin, domain1

");
   ("examples/rbac_with_not_deny_model.conf", "[request_definition]
r = sub, obj, act

[policy_definition]
p = sub, obj, act, eft

[role_definition]
g = _, _

[policy_effect]
e = !some(where (p.eft == deny))

[matchers]
m = g(r.sub, p.sub) && r.obj == p.obj && r.act == p.act");
   ("examples/rbac_with_pattern_model.conf", "[request_definition]
r = sub, obj, act

[policy_definition]
p = sub, obj, act

[role_definition]
g = _, _
g2 = _, _

[policy_effect]
e = some(where (p.eft == allow))

[matchers]
m = g(r.sub, p.sub) && g2(r.obj, p.obj) && regexMatch(r.act, p.act)");
   ("examples/rbac_with_pattern_policy.csv", "p, alice, /pen/1, GET
p, alice, /pen2/1, GET
p, book_admin, book_group, GET
p, pen_admin, pen_group, GET

g, alice, book_admin
g, bob, pen_admin

g, cathy, /book/1/2/3/4/5
g, cathy, pen_admin

g2, /book/*, book_group

g2, /book/:id, book_group
g2, /pen/:id, pen_group

g2, /book2/{id}, book_group
g2, /pen2/{id}, pen_group");
   ("examples/rbac_with_resource_roles_model.conf", "[request_definition]
r = sub, obj, act

[policy_definition]
p = sub, obj, act

[role_definition]
g = _, _
g2 = _, _

[policy_effect]
e = some(where (p.eft == allow))

[matchers]
m = g(r.sub, p.sub) && g2(r.obj, p.obj) && r.act == p.act");
   ("examples/rbac_with_resource_roles_policy.csv", "p, alice, data1, read
p, bob, data2, write
p, data_group_admin, data_group, write

g, alice, data_group_admin
g2, data1, data_group
g2, data2, data_group")] (fun _ => true).


(** tests/built_in_functions_test.cpp:36-44 *)
Example ut_TestKeyMatchFn :
  forallb (fun b => b)
  [is true (Ok_ KeyMatch "/foo" "/foo");
   is true (Ok_ KeyMatch "/foo" "/foo*");
   is false (Ok_ KeyMatch "/foo" "/foo/*");
   is false (Ok_ KeyMatch "/foo/bar" "/foo");
   is true (Ok_ KeyMatch "/foo/bar" "/foo*");
   is true (Ok_ KeyMatch "/foo/bar" "/foo/*");
   is false (Ok_ KeyMatch "/foobar" "/foo");
   is true (Ok_ KeyMatch "/foobar" "/foo*");
   is false (Ok_ KeyMatch "/foobar" "/foo/*")] = true.
Proof. vm_compute. reflexivity. Qed.

(** tests/built_in_functions_test.cpp:64-72 *)
Example ut_testKeyGetFn :
  forallb (fun b => b)
  [text "" (Ok_ KeyGet "/foo" "/foo");
   text "" (Ok_ KeyGet "/foo" "/foo*");
   text "" (Ok_ KeyGet "/foo" "/foo/*");
   text "" (Ok_ KeyGet "/foo/bar" "/foo");
   text "/bar" (Ok_ KeyGet "/foo/bar" "/foo*");
   text "bar" (Ok_ KeyGet "/foo/bar" "/foo/*");
   text "" (Ok_ KeyGet "/foobar" "/foo");
   text "bar" (Ok_ KeyGet "/foobar" "/foo*");
   text "" (Ok_ KeyGet "/foobar" "/foo/*")] = true.
Proof. vm_compute. reflexivity. Qed.

(** tests/built_in_functions_test.cpp:87-114 *)
Example ut_TestKeyMatch2Fn :
  forallb (fun b => b)
  [is true (KeyMatch2 no_other "/foo" "/foo");
   is true (KeyMatch2 no_other "/foo" "/foo*");
   is false (KeyMatch2 no_other "/foo" "/foo/*");
   is false (KeyMatch2 no_other "/foo/bar" "/foo");
   is true (KeyMatch2 no_other "/foo/bar" "/foo/*");
   is false (KeyMatch2 no_other "/foobar" "/foo");
   is false (KeyMatch2 no_other "/foobar" "/foo/*");
   is false (KeyMatch2 no_other "/" "/:resource");
   is true (KeyMatch2 no_other "/resource1" "/:resource");
   is false (KeyMatch2 no_other "/myid" "/:id/using/:resId");
   is true (KeyMatch2 no_other "/myid/using/myresid" "/:id/using/:resId");
   is false (KeyMatch2 no_other "/proxy/myid" "/proxy/:id/*");
   is true (KeyMatch2 no_other "/proxy/myid/" "/proxy/:id/*");
   is true (KeyMatch2 no_other "/proxy/myid/res" "/proxy/:id/*");
   is true (KeyMatch2 no_other "/proxy/myid/res/res2" "/proxy/:id/*");
   is true (KeyMatch2 no_other "/proxy/myid/res/res2/res3" "/proxy/:id/*");
   is false (KeyMatch2 no_other "/proxy/" "/proxy/:id/*");
   is true (KeyMatch2 no_other "/alice" "/:id");
   is true (KeyMatch2 no_other "/alice/all" "/:id/all");
   is false (KeyMatch2 no_other "/alice" "/:id/all");
   is false (KeyMatch2 no_other "/alice/all" "/:id");
   is false (KeyMatch2 no_other "/alice/all" "/:/all")] = true.
Proof. vm_compute. reflexivity. Qed.

(** tests/built_in_functions_test.cpp:135-164 *)
Example ut_testKeyGet2Fn :
  forallb (fun b => b)
  [text "" (KeyGet2 no_other "/foo" "/foo" "id");
   text "" (KeyGet2 no_other "/foo" "/foo*" "id");
   text "" (KeyGet2 no_other "/foo" "/foo/*" "id");
   text "" (KeyGet2 no_other "/foo/bar" "/foo" "id");
   text "" (KeyGet2 no_other "/foo/bar" "/foo*" "id");
   text "" (KeyGet2 no_other "/foo/bar" "/foo/*" "id");
   text "" (KeyGet2 no_other "/foobar" "/foo" "id");
   text "" (KeyGet2 no_other "/foobar" "/foo*" "id");
   text "" (KeyGet2 no_other "/foobar" "/foo/*" "id");
   text "" (KeyGet2 no_other "/" "/:resource" "resource");
   text "resource1" (KeyGet2 no_other "/resource1" "/:resource" "resource");
   text "" (KeyGet2 no_other "/myid" "/:id/using/:resId" "id");
   text "myid" (KeyGet2 no_other "/myid/using/myresid" "/:id/using/:resId" "id");
   text "myresid" (KeyGet2 no_other "/myid/using/myresid" "/:id/using/:resId" "resId");
   text "" (KeyGet2 no_other "/proxy/myid" "/proxy/:id/*" "id");
   text "myid" (KeyGet2 no_other "/proxy/myid/" "/proxy/:id/*" "id");
   text "myid" (KeyGet2 no_other "/proxy/myid/res" "/proxy/:id/*" "id");
   text "myid" (KeyGet2 no_other "/proxy/myid/res/res2" "/proxy/:id/*" "id");
   text "myid" (KeyGet2 no_other "/proxy/myid/res/res2/res3" "/proxy/:id/*" "id");
   text "myid" (KeyGet2 no_other "/proxy/myid/res/res2/res3" "/proxy/:id/res/*" "id");
   text "" (KeyGet2 no_other "/proxy/" "/proxy/:id/*" "id");
   text "alice" (KeyGet2 no_other "/alice" "/:id" "id");
   text "alice" (KeyGet2 no_other "/alice/all" "/:id/all" "id");
   text "" (KeyGet2 no_other "/alice" "/:id/all" "id");
   text "" (KeyGet2 no_other "/alice/all" "/:id" "id");
   text "" (KeyGet2 no_other "/alice/all" "/:/all" "")] = true.
Proof. vm_compute. reflexivity. Qed.

(** tests/built_in_functions_test.cpp:180-202 *)
Example ut_TestKeyMatch3Fn :
  forallb (fun b => b)
  [is true (KeyMatch3 no_other "/foo" "/foo");
   is true (KeyMatch3 no_other "/foo" "/foo*");
   is false (KeyMatch3 no_other "/foo" "/foo/*");
   is false (KeyMatch3 no_other "/foo/bar" "/foo");
   is false (KeyMatch3 no_other "/foo/bar" "/foo*");
   is true (KeyMatch3 no_other "/foo/bar" "/foo/*");
   is false (KeyMatch3 no_other "/foobar" "/foo");
   is false (KeyMatch3 no_other "/foobar" "/foo*");
   is false (KeyMatch3 no_other "/foobar" "/foo/*");
   is false (KeyMatch3 no_other "/" "/{resource}");
   is true (KeyMatch3 no_other "/resource1" "/{resource}");
   is false (KeyMatch3 no_other "/myid" "/{id}/using/{resId}");
   is true (KeyMatch3 no_other "/myid/using/myresid" "/{id}/using/{resId}");
   is false (KeyMatch3 no_other "/proxy/myid" "/proxy/{id}/*");
   is true (KeyMatch3 no_other "/proxy/myid/" "/proxy/{id}/*");
   is true (KeyMatch3 no_other "/proxy/myid/res" "/proxy/{id}/*");
   is true (KeyMatch3 no_other "/proxy/myid/res/res2" "/proxy/{id}/*");
   is true (KeyMatch3 no_other "/proxy/myid/res/res2/res3" "/proxy/{id}/*");
   is false (KeyMatch3 no_other "/proxy/" "/proxy/{id}/*");
   is false (KeyMatch3 no_other "/myid/using/myresid" "/{id/using/{resId}")] = true.
Proof. vm_compute. reflexivity. Qed.

(** tests/built_in_functions_test.cpp:224-255 *)
Example ut_testKeyGet3Fn :
  forallb (fun b => b)
  [text "" (KeyGet3 no_other "/foo" "/foo" "id");
   text "" (KeyGet3 no_other "/foo" "/foo*" "id");
   text "" (KeyGet3 no_other "/foo" "/foo/*" "id");
   text "" (KeyGet3 no_other "/foo/bar" "/foo" "id");
   text "" (KeyGet3 no_other "/foo/bar" "/foo*" "id");
   text "" (KeyGet3 no_other "/foo/bar" "/foo/*" "id");
   text "" (KeyGet3 no_other "/foobar" "/foo" "id");
   text "" (KeyGet3 no_other "/foobar" "/foo*" "id");
   text "" (KeyGet3 no_other "/foobar" "/foo/*" "id");
   text "" (KeyGet3 no_other "/" "/{resource}" "resource");
   text "resource1" (KeyGet3 no_other "/resource1" "/{resource}" "resource");
   text "" (KeyGet3 no_other "/myid" "/{id}/using/{resId}" "id");
   text "myid" (KeyGet3 no_other "/myid/using/myresid" "/{id}/using/{resId}" "id");
   text "myresid" (KeyGet3 no_other "/myid/using/myresid" "/{id}/using/{resId}" "resId");
   text "" (KeyGet3 no_other "/proxy/myid" "/proxy/{id}/*" "id");
   text "myid" (KeyGet3 no_other "/proxy/myid/" "/proxy/{id}/*" "id");
   text "myid" (KeyGet3 no_other "/proxy/myid/res" "/proxy/{id}/*" "id");
   text "myid" (KeyGet3 no_other "/proxy/myid/res/res2" "/proxy/{id}/*" "id");
   text "myid" (KeyGet3 no_other "/proxy/myid/res/res2/res3" "/proxy/{id}/*" "id");
   text "" (KeyGet3 no_other "/proxy/" "/proxy/{id}/*" "id");
   text "" (KeyGet3 no_other "/api/group1_group_name/project1_admin/info" "/api/{proj}_admin/info" "proj");
   text "myresid" (KeyGet3 no_other "/{id/using/myresid" "/{id/using/{resId}" "resId");
   text "myresid" (KeyGet3 no_other "/{id/using/myresid/status}" "/{id/using/{resId}/status}" "resId");
   text "res3" (KeyGet3 no_other "/proxy/myid/res/res2/res3" "/proxy/{id}/*/{res}" "res");
   text "project1" (KeyGet3 no_other "/api/project1_admin/info" "/api/{proj}_admin/info" "proj");
   text "group1" (KeyGet3 no_other "/api/group1_group_name/project1_admin/info" "/api/{g}_{gn}/{proj}_admin/info" "g");
   text "group_name" (KeyGet3 no_other "/api/group1_group_name/project1_admin/info" "/api/{g}_{gn}/{proj}_admin/info" "gn");
   text "project1" (KeyGet3 no_other "/api/group1_group_name/project1_admin/info" "/api/{g}_{gn}/{proj}_admin/info" "proj")] = true.
Proof. vm_compute. reflexivity. Qed.

(** tests/built_in_functions_test.cpp:270-282 *)
Example ut_TestKeyMatch4Fn :
  forallb (fun b => b)
  [is true (KeyMatch4 no_other "/parent/123/child/123" "/parent/{id}/child/{id}");
   is false (KeyMatch4 no_other "/parent/123/child/456" "/parent/{id}/child/{id}");
   is true (KeyMatch4 no_other "/parent/123/child/123" "/parent/{id}/child/{another_id}");
   is true (KeyMatch4 no_other "/parent/123/child/456" "/parent/{id}/child/{another_id}");
   is true (KeyMatch4 no_other "/parent/123/child/123/book/123" "/parent/{id}/child/{id}/book/{id}");
   is false (KeyMatch4 no_other "/parent/123/child/123/book/456" "/parent/{id}/child/{id}/book/{id}");
   is false (KeyMatch4 no_other "/parent/123/child/456/book/123" "/parent/{id}/child/{id}/book/{id}");
   is false (KeyMatch4 no_other "/parent/123/child/456/book/" "/parent/{id}/child/{id}/book/{id}");
   is false (KeyMatch4 no_other "/parent/123/child/456" "/parent/{id}/child/{id}/book/{id}");
   is false (KeyMatch4 no_other "/parent/123/child/123" "/parent/{i/d}/child/{i/d}")] = true.
Proof. vm_compute. reflexivity. Qed.

(** tests/built_in_functions_test.cpp:297-305 *)
Example ut_TestRegexMatchFn :
  forallb (fun b => b)
  [is true (regexMatch no_other "/topic/create" "/topic/create");
   is false (regexMatch no_other "/topic/create/123" "/topic/create");
   is false (regexMatch no_other "/topic/delete" "/topic/create");
   is false (regexMatch no_other "/topic/edit" "/topic/edit/[0-9]+");
   is true (regexMatch no_other "/topic/edit/123" "/topic/edit/[0-9]+");
   is false (regexMatch no_other "/topic/edit/abc" "/topic/edit/[0-9]+");
   is false (regexMatch no_other "/foo/delete/123" "/topic/delete/[0-9]+");
   is true (regexMatch no_other "/topic/delete/0" "/topic/delete/[0-9]+");
   is false (regexMatch no_other "/topic/edit/123s" "/topic/delete/[0-9]+")] = true.
Proof. vm_compute. reflexivity. Qed.

(** tests/built_in_functions_test.cpp:320-325 *)
Example ut_TestIPMatchFn :
  forallb (fun b => b)
  [is true (IPMatch true "192.168.2.123" "192.168.2.0/24");
   is false (IPMatch true "192.168.2.123" "192.168.3.0/24");
   is true (IPMatch true "192.168.2.123" "192.168.2.0/16");
   is true (IPMatch true "192.168.2.123" "192.168.2.123/32");
   is true (IPMatch true "10.0.0.11" "10.0.0.0/8");
   is false (IPMatch true "11.0.0.123" "10.0.0.0/8")] = true.
Proof. vm_compute. reflexivity. Qed.

(** tests/util_test.cpp:30-42 *)
Example ut_TestEscapeAssertionFn :
  forallb (fun b => b)
  [String.eqb (EscapeAssertion "r.attr.value == p.attr") "r_attr.value == p_attr";
   String.eqb (EscapeAssertion "r.attp.value || p.attr") "r_attp.value || p_attr";
   String.eqb (EscapeAssertion "r.attp.value &&p.attr") "r_attp.value &&p_attr";
   String.eqb (EscapeAssertion "r.attp.value >p.attr") "r_attp.value >p_attr";
   String.eqb (EscapeAssertion "r.attp.value <p.attr") "r_attp.value <p_attr";
   String.eqb (EscapeAssertion "r.attp.value +p.attr") "r_attp.value +p_attr";
   String.eqb (EscapeAssertion "r.attp.value -p.attr") "r_attp.value -p_attr";
   String.eqb (EscapeAssertion "r.attp.value *p.attr") "r_attp.value *p_attr";
   String.eqb (EscapeAssertion "r.attp.value /p.attr") "r_attp.value /p_attr";
   String.eqb (EscapeAssertion "!r.attp.value /p.attr") "!r_attp.value /p_attr";
   String.eqb (EscapeAssertion "g(r.sub, p.sub) == p.attr") "g(r_sub, p_sub) == p_attr";
   String.eqb (EscapeAssertion "g(r.sub,p.sub) == p.attr") "g(r_sub,p_sub) == p_attr";
   String.eqb (EscapeAssertion "(r.attp.value || p.attr)p.u") "(r_attp.value || p_attr)p_u"] = true.
Proof. vm_compute. reflexivity. Qed.

(** tests/util_test.cpp:51-55 *)
Example ut_TestRemoveCommentsFn :
  forallb (fun b => b)
  [String.eqb (RemoveComments "r.act == p.act # comments") "r.act == p.act";
   String.eqb (RemoveComments "r.act == p.act#comments") "r.act == p.act";
   String.eqb (RemoveComments "r.act == p.act###") "r.act == p.act";
   String.eqb (RemoveComments "### comments") "";
   String.eqb (RemoveComments "r.act == p.act") "r.act == p.act"] = true.
Proof. vm_compute. reflexivity. Qed.

(** tests/util_test.cpp:64-67 *)
Example ut_TestArrayEqualsFn :
  forallb (fun b => b)
  [Bool.eqb (ArrayEquals ["a"; "b"; "c"] ["a"; "b"; "c"]) true;
   Bool.eqb (ArrayEquals ["a"; "b"; "c"] ["a"; "b"]) false;
   Bool.eqb (ArrayEquals ["a"; "b"; "c"] ["a"; "c"; "b"]) true;
   Bool.eqb (ArrayEquals ["a"; "b"; "c"] []) false] = true.
Proof. vm_compute. reflexivity. Qed.

(** tests/util_test.cpp:73-77 *)
Example ut_testContainEval :
  forallb (fun b => b)
  [Bool.eqb (HasEval "eval() && a && b && c") true;
   Bool.eqb (HasEval "eval) && a && b && c") false;
   Bool.eqb (HasEval "eval)( && a && b && c") false;
   Bool.eqb (HasEval "eval(c * (a + b)) && a && b && c") true;
   Bool.eqb (HasEval "xeval() && a && b && c") false] = true.
Proof. vm_compute. reflexivity. Qed.

(** tests/util_test.cpp:83-94 *)
Example ut_testReplaceEvalWithMap :
  forallb (fun b => b)
  [String.eqb (ReplaceEvalWithMap "eval(rule1)" [("rule1", "a == b")]) "a == b";
   String.eqb (ReplaceEvalWithMap "eval(rule1) && c && d" [("rule1", "a == b")]) "a == b && c && d";
   String.eqb (ReplaceEvalWithMap "eval(rule1)" [("", "")]) "eval(rule1)";
   String.eqb (ReplaceEvalWithMap "eval(rule1) && c && d" [("", "")]) "eval(rule1) && c && d";
   String.eqb (ReplaceEvalWithMap "eval(rule1) || eval(rule2)" [("rule1", "a == b"); ("rule2", "a == c")]) "a == b || a == c";
   String.eqb (ReplaceEvalWithMap "eval(rule1) || eval(rule2) && c && d" [("rule1", "a == b"); ("rule2", "a == c")]) "a == b || a == c && c && d";
   String.eqb (ReplaceEvalWithMap "eval(rule1) || eval(rule2)" [("rule1", "a == b")]) "a == b || eval(rule2)";
   String.eqb (ReplaceEvalWithMap "eval(rule1) || eval(rule2) && c && d" [("rule1", "a == b")]) "a == b || eval(rule2) && c && d";
   String.eqb (ReplaceEvalWithMap "eval(rule1) || eval(rule2)" [("rule2", "a == b")]) "eval(rule1) || a == b";
   String.eqb (ReplaceEvalWithMap "eval(rule1) || eval(rule2) && c && d" [("rule2", "a == b")]) "eval(rule1) || a == b && c && d";
   String.eqb (ReplaceEvalWithMap "eval(rule1) || eval(rule2)" []) "eval(rule1) || eval(rule2)";
   String.eqb (ReplaceEvalWithMap "eval(rule1) || eval(rule2) && c && d" []) "eval(rule1) || eval(rule2) && c && d"] = true.
Proof. vm_compute. reflexivity. Qed.

(** tests/util_test.cpp:108-111 *)
Example ut_testGetEvalValue :
  forallb (fun b => b)
  [same (GetEvalValue "eval(a) && a && b && c") ["a"];
   same (GetEvalValue "a && eval(a) && b && c") ["a"];
   same (GetEvalValue "eval(a) && eval(b) && a && b && c") ["a"; "b"];
   same (GetEvalValue "a && eval(a) && eval(b) && b && c") ["a"; "b"]] = true.
Proof. vm_compute. reflexivity. Qed.

(** tests/model_enforcer_test.cpp:111-132 *)
Example ut_TestModelEnforcer_TestBasicModel :
  passes (NewEnforcer no_odd disk "examples/basic_model.conf" "examples/basic_policy.csv")
  [gives (Enforce lib (reqs ["alice"; "data1"; "read"])) (Bool.eqb true);
   gives (Enforce lib (reqs ["alice"; "data1"; "write"])) (Bool.eqb false);
   gives (Enforce lib (reqs ["alice"; "data2"; "read"])) (Bool.eqb false);
   gives (Enforce lib (reqs ["alice"; "data2"; "write"])) (Bool.eqb false);
   gives (Enforce lib (reqs ["bob"; "data1"; "read"])) (Bool.eqb false);
   gives (Enforce lib (reqs ["bob"; "data1"; "write"])) (Bool.eqb false);
   gives (Enforce lib (reqs ["bob"; "data2"; "read"])) (Bool.eqb false);
   gives (Enforce lib (reqs ["bob"; "data2"; "write"])) (Bool.eqb true)] = true.
Proof. vm_compute. reflexivity. Qed.

(** tests/model_enforcer_test.cpp:134-155 *)
Example ut_TestModelEnforcer_TestBasicModelWithoutSpaces :
  passes (NewEnforcer no_odd disk "examples/basic_model_without_spaces.conf" "examples/basic_policy.csv")
  [gives (Enforce lib (reqs ["alice"; "data1"; "read"])) (Bool.eqb true);
   gives (Enforce lib (reqs ["alice"; "data1"; "write"])) (Bool.eqb false);
   gives (Enforce lib (reqs ["alice"; "data2"; "read"])) (Bool.eqb false);
   gives (Enforce lib (reqs ["alice"; "data2"; "write"])) (Bool.eqb false);
   gives (Enforce lib (reqs ["bob"; "data1"; "read"])) (Bool.eqb false);
   gives (Enforce lib (reqs ["bob"; "data1"; "write"])) (Bool.eqb false);
   gives (Enforce lib (reqs ["bob"; "data2"; "read"])) (Bool.eqb false);
   gives (Enforce lib (reqs ["bob"; "data2"; "write"])) (Bool.eqb true)] = true.
Proof. vm_compute. reflexivity. Qed.

(** tests/model_enforcer_test.cpp:157-178 *)
Example ut_TestModelEnforcer_TestBasicModelNoPolicy :
  passes (NewEnforcerModelOnly no_odd disk "examples/basic_model.conf")
  [gives (Enforce lib (reqs ["alice"; "data1"; "read"])) (Bool.eqb false);
   gives (Enforce lib (reqs ["alice"; "data1"; "write"])) (Bool.eqb false);
   gives (Enforce lib (reqs ["alice"; "data2"; "read"])) (Bool.eqb false);
   gives (Enforce lib (reqs ["alice"; "data2"; "write"])) (Bool.eqb false);
   gives (Enforce lib (reqs ["bob"; "data1"; "read"])) (Bool.eqb false);
   gives (Enforce lib (reqs ["bob"; "data1"; "write"])) (Bool.eqb false);
   gives (Enforce lib (reqs ["bob"; "data2"; "read"])) (Bool.eqb false);
   gives (Enforce lib (reqs ["bob"; "data2"; "write"])) (Bool.eqb false)] = true.
Proof. vm_compute. reflexivity. Qed.

(** tests/model_enforcer_test.cpp:180-209 *)
Example ut_TestModelEnforcer_TestBasicModelWithRoot :
  passes (NewEnforcer no_odd disk "examples/basic_with_root_model.conf" "examples/basic_policy.csv")
  [gives (Enforce lib (reqs ["alice"; "data1"; "read"])) (Bool.eqb true);
   gives (Enforce lib (reqs ["alice"; "data1"; "write"])) (Bool.eqb false);
   gives (Enforce lib (reqs ["alice"; "data2"; "read"])) (Bool.eqb false);
   gives (Enforce lib (reqs ["alice"; "data2"; "write"])) (Bool.eqb false);
   gives (Enforce lib (reqs ["bob"; "data1"; "read"])) (Bool.eqb false);
   gives (Enforce lib (reqs ["bob"; "data1"; "write"])) (Bool.eqb false);
   gives (Enforce lib (reqs ["bob"; "data2"; "read"])) (Bool.eqb false);
   gives (Enforce lib (reqs ["bob"; "data2"; "write"])) (Bool.eqb true);
   gives (Enforce lib (reqs ["root"; "data1"; "read"])) (Bool.eqb true);
   gives (Enforce lib (reqs ["root"; "data1"; "write"])) (Bool.eqb true);
   gives (Enforce lib (reqs ["root"; "data2"; "read"])) (Bool.eqb true);
   gives (Enforce lib (reqs ["root"; "data2"; "write"])) (Bool.eqb true)] = true.
Proof. vm_compute. reflexivity. Qed.

(** tests/model_enforcer_test.cpp:211-240 *)
Example ut_TestModelEnforcer_TestBasicModelWithRootNoPolicy :
  passes (NewEnforcerModelOnly no_odd disk "examples/basic_with_root_model.conf")
  [gives (Enforce lib (reqs ["alice"; "data1"; "read"])) (Bool.eqb false);
   gives (Enforce lib (reqs ["alice"; "data1"; "write"])) (Bool.eqb false);
   gives (Enforce lib (reqs ["alice"; "data2"; "read"])) (Bool.eqb false);
   gives (Enforce lib (reqs ["alice"; "data2"; "write"])) (Bool.eqb false);
   gives (Enforce lib (reqs ["bob"; "data1"; "read"])) (Bool.eqb false);
   gives (Enforce lib (reqs ["bob"; "data1"; "write"])) (Bool.eqb false);
   gives (Enforce lib (reqs ["bob"; "data2"; "read"])) (Bool.eqb false);
   gives (Enforce lib (reqs ["bob"; "data2"; "write"])) (Bool.eqb false);
   gives (Enforce lib (reqs ["root"; "data1"; "read"])) (Bool.eqb true);
   gives (Enforce lib (reqs ["root"; "data1"; "write"])) (Bool.eqb true);
   gives (Enforce lib (reqs ["root"; "data2"; "read"])) (Bool.eqb true);
   gives (Enforce lib (reqs ["root"; "data2"; "write"])) (Bool.eqb true)] = true.
Proof. vm_compute. reflexivity. Qed.

(** tests/model_enforcer_test.cpp:242-253 *)
Example ut_TestModelEnforcer_TestBasicModelWithoutUsers :
  passes (NewEnforcer no_odd disk "examples/basic_without_users_model.conf" "examples/basic_without_users_policy.csv")
  [gives (Enforce lib (reqs ["data1"; "read"])) (Bool.eqb true);
   gives (Enforce lib (reqs ["data1"; "write"])) (Bool.eqb false);
   gives (Enforce lib (reqs ["data2"; "read"])) (Bool.eqb false);
   gives (Enforce lib (reqs ["data2"; "write"])) (Bool.eqb true)] = true.
Proof. vm_compute. reflexivity. Qed.

(** tests/model_enforcer_test.cpp:255-266 *)
Example ut_TestModelEnforcer_TestBasicModelWithoutResources :
  passes (NewEnforcer no_odd disk "examples/basic_without_resources_model.conf" "examples/basic_without_resources_policy.csv")
  [gives (Enforce lib (reqs ["alice"; "read"])) (Bool.eqb true);
   gives (Enforce lib (reqs ["alice"; "write"])) (Bool.eqb false);
   gives (Enforce lib (reqs ["bob"; "read"])) (Bool.eqb false);
   gives (Enforce lib (reqs ["bob"; "write"])) (Bool.eqb true)] = true.
Proof. vm_compute. reflexivity. Qed.

(** tests/model_enforcer_test.cpp:268-289 *)
Example ut_TestModelEnforcer_TestRBACModel :
  passes (NewEnforcer no_odd disk "examples/rbac_model.conf" "examples/rbac_policy.csv")
  [gives (Enforce lib (reqs ["alice"; "data1"; "read"])) (Bool.eqb true);
   gives (Enforce lib (reqs ["alice"; "data1"; "write"])) (Bool.eqb false);
   gives (Enforce lib (reqs ["alice"; "data2"; "read"])) (Bool.eqb true);
   gives (Enforce lib (reqs ["alice"; "data2"; "write"])) (Bool.eqb true);
   gives (Enforce lib (reqs ["bob"; "data1"; "read"])) (Bool.eqb false);
   gives (Enforce lib (reqs ["bob"; "data1"; "write"])) (Bool.eqb false);
   gives (Enforce lib (reqs ["bob"; "data2"; "read"])) (Bool.eqb false);
   gives (Enforce lib (reqs ["bob"; "data2"; "write"])) (Bool.eqb true)] = true.
Proof. vm_compute. reflexivity. Qed.

(** tests/model_enforcer_test.cpp:291-312 *)
Example ut_TestModelEnforcer_TestRBACModelWithResourceRoles :
  passes (NewEnforcer no_odd disk "examples/rbac_with_resource_roles_model.conf" "examples/rbac_with_resource_roles_policy.csv")
  [gives (Enforce lib (reqs ["alice"; "data1"; "read"])) (Bool.eqb true);
   gives (Enforce lib (reqs ["alice"; "data1"; "write"])) (Bool.eqb true);
   gives (Enforce lib (reqs ["alice"; "data2"; "read"])) (Bool.eqb false);
   gives (Enforce lib (reqs ["alice"; "data2"; "write"])) (Bool.eqb true);
   gives (Enforce lib (reqs ["bob"; "data1"; "read"])) (Bool.eqb false);
   gives (Enforce lib (reqs ["bob"; "data1"; "write"])) (Bool.eqb false);
   gives (Enforce lib (reqs ["bob"; "data2"; "read"])) (Bool.eqb false);
   gives (Enforce lib (reqs ["bob"; "data2"; "write"])) (Bool.eqb true)] = true.
Proof. vm_compute. reflexivity. Qed.

(** tests/model_enforcer_test.cpp:314-333 *)
Example ut_TestModelEnforcer_TestRBACModelWithDomains :
  passes (NewEnforcer no_odd disk "examples/rbac_with_domains_model.conf" "examples/rbac_with_domains_policy.csv")
  [gives (Enforce lib (reqs ["alice"; "domain1"; "data1"; "read"])) (Bool.eqb true);
   gives (Enforce lib (reqs ["alice"; "domain1"; "data1"; "write"])) (Bool.eqb true);
   gives (Enforce lib (reqs ["alice"; "domain1"; "data2"; "read"])) (Bool.eqb false);
   gives (Enforce lib (reqs ["alice"; "domain1"; "data2"; "write"])) (Bool.eqb false);
   gives (Enforce lib (reqs ["bob"; "domain2"; "data1"; "read"])) (Bool.eqb false);
   gives (Enforce lib (reqs ["bob"; "domain2"; "data1"; "write"])) (Bool.eqb false);
   gives (Enforce lib (reqs ["bob"; "domain2"; "data2"; "read"])) (Bool.eqb true);
   gives (Enforce lib (reqs ["bob"; "domain2"; "data2"; "write"])) (Bool.eqb true)] = true.
Proof. vm_compute. reflexivity. Qed.

(** tests/model_enforcer_test.cpp:335-410 *)
Example ut_TestModelEnforcer_TestRBACModelWithDomainsAtRuntime :
  passes (NewEnforcerModelOnly no_odd disk "examples/rbac_with_domains_model.conf")
  [does (e_AddPolicy ["admin"; "domain1"; "data1"; "read"]);
   does (e_AddPolicy ["admin"; "domain1"; "data1"; "write"]);
   does (e_AddPolicy ["admin"; "domain2"; "data2"; "read"]);
   does (e_AddPolicy ["admin"; "domain2"; "data2"; "write"]);
   does (AddGroupingPolicy ["alice"; "admin"; "domain1"]);
   does (AddGroupingPolicy ["bob"; "admin"; "domain2"]);
   gives (Enforce lib (reqs ["alice"; "domain1"; "data1"; "read"])) (Bool.eqb true);
   gives (Enforce lib (reqs ["alice"; "domain1"; "data1"; "write"])) (Bool.eqb true);
   gives (Enforce lib (reqs ["alice"; "domain1"; "data2"; "read"])) (Bool.eqb false);
   gives (Enforce lib (reqs ["alice"; "domain1"; "data2"; "write"])) (Bool.eqb false);
   gives (Enforce lib (reqs ["bob"; "domain2"; "data1"; "read"])) (Bool.eqb false);
   gives (Enforce lib (reqs ["bob"; "domain2"; "data1"; "write"])) (Bool.eqb false);
   gives (Enforce lib (reqs ["bob"; "domain2"; "data2"; "read"])) (Bool.eqb true);
   gives (Enforce lib (reqs ["bob"; "domain2"; "data2"; "write"])) (Bool.eqb true);
   does (e_RemoveFilteredPolicy 1 ["domain1"; "data1"]);
   gives (Enforce lib (reqs ["alice"; "domain1"; "data1"; "read"])) (Bool.eqb false);
   gives (Enforce lib (reqs ["alice"; "domain1"; "data1"; "write"])) (Bool.eqb false);
   gives (Enforce lib (reqs ["alice"; "domain1"; "data2"; "read"])) (Bool.eqb false);
   gives (Enforce lib (reqs ["alice"; "domain1"; "data2"; "read"])) (Bool.eqb false);
   gives (Enforce lib (reqs ["bob"; "domain2"; "data1"; "read"])) (Bool.eqb false);
   gives (Enforce lib (reqs ["bob"; "domain2"; "data1"; "write"])) (Bool.eqb false);
   gives (Enforce lib (reqs ["bob"; "domain2"; "data2"; "read"])) (Bool.eqb true);
   gives (Enforce lib (reqs ["bob"; "domain2"; "data2"; "write"])) (Bool.eqb true);
   does (e_RemovePolicy ["admin"; "domain2"; "data2"; "read"]);
   gives (Enforce lib (reqs ["alice"; "domain1"; "data1"; "read"])) (Bool.eqb false);
   gives (Enforce lib (reqs ["alice"; "domain1"; "data1"; "write"])) (Bool.eqb false);
   gives (Enforce lib (reqs ["alice"; "domain1"; "data2"; "read"])) (Bool.eqb false);
   gives (Enforce lib (reqs ["alice"; "domain1"; "data2"; "write"])) (Bool.eqb false);
   gives (Enforce lib (reqs ["bob"; "domain2"; "data1"; "read"])) (Bool.eqb false);
   gives (Enforce lib (reqs ["bob"; "domain2"; "data1"; "write"])) (Bool.eqb false);
   gives (Enforce lib (reqs ["bob"; "domain2"; "data2"; "read"])) (Bool.eqb false);
   gives (Enforce lib (reqs ["bob"; "domain2"; "data2"; "write"])) (Bool.eqb true)] = true.
Proof. vm_compute. reflexivity. Qed.

(** tests/model_enforcer_test.cpp:412-440 *)
Example ut_TestModelEnforcer_TestRBACModelWithDomainsAtRuntimeMockAdapter :
  passes (NewEnforcerWithAdapter no_odd disk "examples/rbac_with_domains_model.conf" (Some (file_at "examples/rbac_with_domains_policy.csv")))
  [does (e_AddPolicy ["admin"; "domain3"; "data1"; "read"]);
   does (AddGroupingPolicy ["alice"; "admin"; "domain3"]);
   gives (Enforce lib (reqs ["alice"; "domain3"; "data1"; "read"])) (Bool.eqb true);
   gives (Enforce lib (reqs ["alice"; "domain1"; "data1"; "read"])) (Bool.eqb true);
   does (e_RemoveFilteredPolicy 1 ["domain1"; "data1"]);
   gives (Enforce lib (reqs ["alice"; "domain1"; "data1"; "read"])) (Bool.eqb false);
   gives (Enforce lib (reqs ["bob"; "domain2"; "data2"; "read"])) (Bool.eqb true);
   does (e_RemovePolicy ["admin"; "domain2"; "data2"; "read"]);
   gives (Enforce lib (reqs ["bob"; "domain2"; "data2"; "read"])) (Bool.eqb false)] = true.
Proof. vm_compute. reflexivity. Qed.

(** tests/model_enforcer_test.cpp:442-463 *)
Example ut_TestModelEnforcer_TestRBACModelWithDeny :
  passes (NewEnforcer no_odd disk "examples/rbac_with_deny_model.conf" "examples/rbac_with_deny_policy.csv")
  [gives (Enforce lib (reqs ["alice"; "data1"; "read"])) (Bool.eqb true);
   gives (Enforce lib (reqs ["alice"; "data1"; "write"])) (Bool.eqb false);
   gives (Enforce lib (reqs ["alice"; "data2"; "read"])) (Bool.eqb true);
   gives (Enforce lib (reqs ["alice"; "data2"; "write"])) (Bool.eqb false);
   gives (Enforce lib (reqs ["bob"; "data1"; "read"])) (Bool.eqb false);
   gives (Enforce lib (reqs ["bob"; "data1"; "write"])) (Bool.eqb false);
   gives (Enforce lib (reqs ["bob"; "data2"; "read"])) (Bool.eqb false);
   gives (Enforce lib (reqs ["bob"; "data2"; "write"])) (Bool.eqb true)] = true.
Proof. vm_compute. reflexivity. Qed.

(** tests/model_enforcer_test.cpp:465-470 *)
Example ut_TestModelEnforcer_TestRBACModelWithOnlyDeny :
  passes (NewEnforcer no_odd disk "examples/rbac_with_not_deny_model.conf" "examples/rbac_with_deny_policy.csv")
  [gives (Enforce lib (reqs ["alice"; "data2"; "write"])) (Bool.eqb false)] = true.
Proof. vm_compute. reflexivity. Qed.

(** tests/model_enforcer_test.cpp:472-520 *)
Example ut_TestModelEnforcer_TestRBACModelWithCustomData :
  passes (NewEnforcer no_odd disk "examples/rbac_model.conf" "examples/rbac_policy.csv")
  [does (AddGroupingPolicy ["bob"; "data2_admin"; "custom_data"]);
   gives (Enforce lib (reqs ["alice"; "data1"; "read"])) (Bool.eqb true);
   gives (Enforce lib (reqs ["alice"; "data1"; "write"])) (Bool.eqb false);
   gives (Enforce lib (reqs ["alice"; "data2"; "read"])) (Bool.eqb true);
   gives (Enforce lib (reqs ["alice"; "data2"; "write"])) (Bool.eqb true);
   gives (Enforce lib (reqs ["bob"; "data1"; "read"])) (Bool.eqb false);
   gives (Enforce lib (reqs ["bob"; "data1"; "write"])) (Bool.eqb false);
   gives (Enforce lib (reqs ["bob"; "data2"; "read"])) (Bool.eqb true);
   gives (Enforce lib (reqs ["bob"; "data2"; "write"])) (Bool.eqb true);
   does (RemoveGroupingPolicy ["bob"; "data2_admin"; "custom_data"]);
   gives (Enforce lib (reqs ["alice"; "data1"; "read"])) (Bool.eqb true);
   gives (Enforce lib (reqs ["alice"; "data1"; "write"])) (Bool.eqb false);
   gives (Enforce lib (reqs ["alice"; "data2"; "read"])) (Bool.eqb true);
   gives (Enforce lib (reqs ["alice"; "data2"; "write"])) (Bool.eqb true);
   gives (Enforce lib (reqs ["bob"; "data1"; "read"])) (Bool.eqb false);
   gives (Enforce lib (reqs ["bob"; "data1"; "write"])) (Bool.eqb false);
   gives (Enforce lib (reqs ["bob"; "data2"; "read"])) (Bool.eqb false);
   gives (Enforce lib (reqs ["bob"; "data2"; "write"])) (Bool.eqb true)] = true.
Proof. vm_compute. reflexivity. Qed.

(** tests/model_enforcer_test.cpp:522-568 *)
Example ut_TestModelEnforcer_TestRBACModelWithPattern :
  passes (NewEnforcer no_odd disk "examples/rbac_with_pattern_model.conf" "examples/rbac_with_pattern_policy.csv")
  [does (matching (KeyMatch2 no_other));
   gives (Enforce lib (reqs ["alice"; "/book/1"; "GET"])) (Bool.eqb true);
   gives (Enforce lib (reqs ["alice"; "/book/2"; "GET"])) (Bool.eqb true);
   gives (Enforce lib (reqs ["alice"; "/pen/1"; "GET"])) (Bool.eqb true);
   gives (Enforce lib (reqs ["alice"; "/pen/2"; "GET"])) (Bool.eqb false);
   gives (Enforce lib (reqs ["bob"; "/book/1"; "GET"])) (Bool.eqb false);
   gives (Enforce lib (reqs ["bob"; "/book/2"; "GET"])) (Bool.eqb false);
   gives (Enforce lib (reqs ["bob"; "/pen/1"; "GET"])) (Bool.eqb true);
   gives (Enforce lib (reqs ["bob"; "/pen/2"; "GET"])) (Bool.eqb true);
   does (matching (KeyMatch3 no_other));
   gives (Enforce lib (reqs ["alice"; "/book2/1"; "GET"])) (Bool.eqb true);
   gives (Enforce lib (reqs ["alice"; "/book2/2"; "GET"])) (Bool.eqb true);
   gives (Enforce lib (reqs ["alice"; "/pen2/1"; "GET"])) (Bool.eqb true);
   gives (Enforce lib (reqs ["alice"; "/pen2/2"; "GET"])) (Bool.eqb false);
   gives (Enforce lib (reqs ["bob"; "/book2/1"; "GET"])) (Bool.eqb false);
   gives (Enforce lib (reqs ["bob"; "/book2/2"; "GET"])) (Bool.eqb false);
   gives (Enforce lib (reqs ["bob"; "/pen2/1"; "GET"])) (Bool.eqb true);
   gives (Enforce lib (reqs ["bob"; "/pen2/2"; "GET"])) (Bool.eqb true)] = true.
Proof. vm_compute. reflexivity. Qed.

(** tests/enforcer_test.cpp:91-102 *)
Example ut_TestEnforcer_TestFourParams :
  passes (NewEnforcer no_odd disk "examples/rbac_with_domains_model.conf" "examples/rbac_with_domains_policy.csv")
  [gives (Enforce lib (reqs ["alice"; "domain1"; "data1"; "read"])) (Bool.eqb true);
   gives (Enforce lib (reqs ["alice"; "domain1"; "data1"; "write"])) (Bool.eqb true);
   gives (Enforce lib (reqs ["alice"; "domain1"; "data2"; "read"])) (Bool.eqb false);
   gives (Enforce lib (reqs ["alice"; "domain1"; "data2"; "write"])) (Bool.eqb false);
   gives (Enforce lib (reqs ["bob"; "domain2"; "data1"; "read"])) (Bool.eqb false);
   gives (Enforce lib (reqs ["bob"; "domain2"; "data1"; "write"])) (Bool.eqb false);
   gives (Enforce lib (reqs ["bob"; "domain2"; "data2"; "read"])) (Bool.eqb true);
   gives (Enforce lib (reqs ["bob"; "domain2"; "data2"; "write"])) (Bool.eqb true)] = true.
Proof. vm_compute. reflexivity. Qed.

(** tests/enforcer_test.cpp:104-115 *)
Example ut_TestEnforcer_TestThreeParams :
  passes (NewEnforcer no_odd disk "examples/basic_model_without_spaces.conf" "examples/basic_policy.csv")
  [gives (Enforce lib (reqs ["alice"; "data1"; "read"])) (Bool.eqb true);
   gives (Enforce lib (reqs ["alice"; "data1"; "write"])) (Bool.eqb false);
   gives (Enforce lib (reqs ["alice"; "data2"; "read"])) (Bool.eqb false);
   gives (Enforce lib (reqs ["alice"; "data2"; "write"])) (Bool.eqb false);
   gives (Enforce lib (reqs ["bob"; "data1"; "read"])) (Bool.eqb false);
   gives (Enforce lib (reqs ["bob"; "data1"; "write"])) (Bool.eqb false);
   gives (Enforce lib (reqs ["bob"; "data2"; "read"])) (Bool.eqb false);
   gives (Enforce lib (reqs ["bob"; "data2"; "write"])) (Bool.eqb true)] = true.
Proof. vm_compute. reflexivity. Qed.

(** tests/enforcer_test.cpp:117-128 *)
Example ut_TestEnforcer_TestVectorParams :
  passes (NewEnforcer no_odd disk "examples/basic_model_without_spaces.conf" "examples/basic_policy.csv")
  [gives (Enforce lib (reqs ["alice"; "data1"; "read"])) (Bool.eqb true);
   gives (Enforce lib (reqs ["alice"; "data1"; "write"])) (Bool.eqb false);
   gives (Enforce lib (reqs ["alice"; "data2"; "read"])) (Bool.eqb false);
   gives (Enforce lib (reqs ["alice"; "data2"; "write"])) (Bool.eqb false);
   gives (Enforce lib (reqs ["bob"; "data1"; "read"])) (Bool.eqb false);
   gives (Enforce lib (reqs ["bob"; "data1"; "write"])) (Bool.eqb false);
   gives (Enforce lib (reqs ["bob"; "data2"; "read"])) (Bool.eqb false);
   gives (Enforce lib (reqs ["bob"; "data2"; "write"])) (Bool.eqb true)] = true.
Proof. vm_compute. reflexivity. Qed.

(** tests/enforcer_test.cpp:130-156 *)
Example ut_TestEnforcer_TestMapParams :
  passes (NewEnforcer no_odd disk "examples/basic_model_without_spaces.conf" "examples/basic_policy.csv")
  [gives (EnforceMap lib [("sub", DStr "alice"); ("obj", DStr "data1"); ("act", DStr "read")]) (Bool.eqb true);
   gives (EnforceMap lib [("sub", DStr "alice"); ("obj", DStr "data1"); ("act", DStr "write")]) (Bool.eqb false);
   gives (EnforceMap lib [("sub", DStr "alice"); ("obj", DStr "data2"); ("act", DStr "read")]) (Bool.eqb false);
   gives (EnforceMap lib [("sub", DStr "alice"); ("obj", DStr "data2"); ("act", DStr "write")]) (Bool.eqb false);
   gives (EnforceMap lib [("sub", DStr "bob"); ("obj", DStr "data1"); ("act", DStr "read")]) (Bool.eqb false);
   gives (EnforceMap lib [("sub", DStr "bob"); ("obj", DStr "data1"); ("act", DStr "write")]) (Bool.eqb false);
   gives (EnforceMap lib [("sub", DStr "bob"); ("obj", DStr "data2"); ("act", DStr "read")]) (Bool.eqb false);
   gives (EnforceMap lib [("sub", DStr "bob"); ("obj", DStr "data2"); ("act", DStr "write")]) (Bool.eqb true)] = true.
Proof. vm_compute. reflexivity. Qed.

(** tests/enforcer_test.cpp:165-247 *)
Example ut_TestEnforcerEx_TestEvaluatorParams :
  passes (NewEnforcer no_odd disk "examples/basic_model_without_spaces.conf" "examples/basic_policy.csv")
  [gives (EnforceEx lib (reqs ["alice"; "data1"; "read"])) (explained true ["alice"; "data1"; "read"]);
   gives (EnforceEx lib (reqs ["alice"; "data1"; "write"])) (explained false []);
   gives (EnforceEx lib (reqs ["alice"; "data2"; "read"])) (explained false []);
   gives (EnforceEx lib (reqs ["alice"; "data2"; "write"])) (explained false []);
   gives (EnforceEx lib (reqs ["bob"; "data1"; "read"])) (explained false []);
   gives (EnforceEx lib (reqs ["bob"; "data1"; "write"])) (explained false []);
   gives (EnforceEx lib (reqs ["bob"; "data2"; "read"])) (explained false []);
   gives (EnforceEx lib (reqs ["bob"; "data2"; "write"])) (explained true ["bob"; "data2"; "write"])] = true.
Proof. vm_compute. reflexivity. Qed.

Example ut_TestEnforcerEx_TestEvaluatorParams_2 :
  passes (NewEnforcer no_odd disk "examples/rbac_model.conf" "examples/rbac_policy.csv")
  [gives (EnforceEx lib (reqs ["alice"; "data1"; "read"])) (explained true ["alice"; "data1"; "read"]);
   gives (EnforceEx lib (reqs ["alice"; "data1"; "write"])) (explained false []);
   gives (EnforceEx lib (reqs ["alice"; "data2"; "read"])) (explained true ["data2_admin"; "data2"; "read"]);
   gives (EnforceEx lib (reqs ["alice"; "data2"; "write"])) (explained true ["data2_admin"; "data2"; "write"]);
   gives (EnforceEx lib (reqs ["bob"; "data1"; "read"])) (explained false []);
   gives (EnforceEx lib (reqs ["bob"; "data1"; "write"])) (explained false []);
   gives (EnforceEx lib (reqs ["bob"; "data2"; "read"])) (explained false []);
   gives (EnforceEx lib (reqs ["bob"; "data2"; "write"])) (explained true ["bob"; "data2"; "write"])] = true.
Proof. vm_compute. reflexivity. Qed.

Example ut_TestEnforcerEx_TestEvaluatorParams_3 :
  passes (NewEnforcer no_odd disk "examples/priority_model.conf" "examples/priority_policy.csv")
  [gives (EnforceEx lib (reqs ["alice"; "data1"; "read"])) (explained true ["alice"; "data1"; "read"; "allow"]);
   gives (EnforceEx lib (reqs ["alice"; "data1"; "write"])) (explained false ["data1_deny_group"; "data1"; "write"; "deny"]);
   gives (EnforceEx lib (reqs ["alice"; "data2"; "read"])) (explained false []);
   gives (EnforceEx lib (reqs ["alice"; "data2"; "write"])) (explained false []);
   gives (EnforceEx lib (reqs ["bob"; "data1"; "read"])) (explained false []);
   gives (EnforceEx lib (reqs ["bob"; "data1"; "write"])) (explained false []);
   gives (EnforceEx lib (reqs ["bob"; "data2"; "read"])) (explained true ["data2_allow_group"; "data2"; "read"; "allow"]);
   gives (EnforceEx lib (reqs ["bob"; "data2"; "write"])) (explained false ["bob"; "data2"; "write"; "deny"])] = true.
Proof. vm_compute. reflexivity. Qed.

(** tests/enforcer_test.cpp:249-285 *)
Example ut_TestEnforcerEx_TestVectorParams :
  passes (NewEnforcer no_odd disk "examples/basic_model_without_spaces.conf" "examples/basic_policy.csv")
  [gives (EnforceEx lib (reqs ["alice"; "data1"; "read"])) (explained true ["alice"; "data1"; "read"]);
   gives (EnforceEx lib (reqs ["alice"; "data1"; "write"])) (explained false []);
   gives (EnforceEx lib (reqs ["alice"; "data2"; "read"])) (explained false []);
   gives (EnforceEx lib (reqs ["alice"; "data2"; "write"])) (explained false []);
   gives (EnforceEx lib (reqs ["bob"; "data1"; "read"])) (explained false []);
   gives (EnforceEx lib (reqs ["bob"; "data1"; "write"])) (explained false []);
   gives (EnforceEx lib (reqs ["bob"; "data2"; "read"])) (explained false []);
   gives (EnforceEx lib (reqs ["bob"; "data2"; "write"])) (explained true ["bob"; "data2"; "write"])] = true.
Proof. vm_compute. reflexivity. Qed.

Example ut_TestEnforcerEx_TestVectorParams_2 :
  passes (NewEnforcer no_odd disk "examples/rbac_model.conf" "examples/rbac_policy.csv")
  [gives (EnforceEx lib (reqs ["alice"; "data1"; "read"])) (explained true ["alice"; "data1"; "read"]);
   gives (EnforceEx lib (reqs ["alice"; "data1"; "write"])) (explained false []);
   gives (EnforceEx lib (reqs ["alice"; "data2"; "read"])) (explained true ["data2_admin"; "data2"; "read"]);
   gives (EnforceEx lib (reqs ["alice"; "data2"; "write"])) (explained true ["data2_admin"; "data2"; "write"]);
   gives (EnforceEx lib (reqs ["bob"; "data1"; "read"])) (explained false []);
   gives (EnforceEx lib (reqs ["bob"; "data1"; "write"])) (explained false []);
   gives (EnforceEx lib (reqs ["bob"; "data2"; "read"])) (explained false []);
   gives (EnforceEx lib (reqs ["bob"; "data2"; "write"])) (explained true ["bob"; "data2"; "write"])] = true.
Proof. vm_compute. reflexivity. Qed.

Example ut_TestEnforcerEx_TestVectorParams_3 :
  passes (NewEnforcer no_odd disk "examples/priority_model.conf" "examples/priority_policy.csv")
  [gives (EnforceEx lib (reqs ["alice"; "data1"; "read"])) (explained true ["alice"; "data1"; "read"; "allow"]);
   gives (EnforceEx lib (reqs ["alice"; "data1"; "write"])) (explained false ["data1_deny_group"; "data1"; "write"; "deny"]);
   gives (EnforceEx lib (reqs ["alice"; "data2"; "read"])) (explained false []);
   gives (EnforceEx lib (reqs ["alice"; "data2"; "write"])) (explained false []);
   gives (EnforceEx lib (reqs ["bob"; "data1"; "read"])) (explained false []);
   gives (EnforceEx lib (reqs ["bob"; "data1"; "write"])) (explained false []);
   gives (EnforceEx lib (reqs ["bob"; "data2"; "read"])) (explained true ["data2_allow_group"; "data2"; "read"; "allow"]);
   gives (EnforceEx lib (reqs ["bob"; "data2"; "write"])) (explained false ["bob"; "data2"; "write"; "deny"])] = true.
Proof. vm_compute. reflexivity. Qed.

(** tests/enforcer_test.cpp:287-323 *)
Example ut_TestEnforcerEx_TestListParams :
  passes (NewEnforcer no_odd disk "examples/basic_model_without_spaces.conf" "examples/basic_policy.csv")
  [gives (EnforceEx lib (reqs ["alice"; "data1"; "read"])) (explained true ["alice"; "data1"; "read"]);
   gives (EnforceEx lib (reqs ["alice"; "data1"; "write"])) (explained false []);
   gives (EnforceEx lib (reqs ["alice"; "data2"; "read"])) (explained false []);
   gives (EnforceEx lib (reqs ["alice"; "data2"; "write"])) (explained false []);
   gives (EnforceEx lib (reqs ["bob"; "data1"; "read"])) (explained false []);
   gives (EnforceEx lib (reqs ["bob"; "data1"; "write"])) (explained false []);
   gives (EnforceEx lib (reqs ["bob"; "data2"; "read"])) (explained false []);
   gives (EnforceEx lib (reqs ["bob"; "data2"; "write"])) (explained true ["bob"; "data2"; "write"])] = true.
Proof. vm_compute. reflexivity. Qed.

Example ut_TestEnforcerEx_TestListParams_2 :
  passes (NewEnforcer no_odd disk "examples/rbac_model.conf" "examples/rbac_policy.csv")
  [gives (EnforceEx lib (reqs ["alice"; "data1"; "read"])) (explained true ["alice"; "data1"; "read"]);
   gives (EnforceEx lib (reqs ["alice"; "data1"; "write"])) (explained false []);
   gives (EnforceEx lib (reqs ["alice"; "data2"; "read"])) (explained true ["data2_admin"; "data2"; "read"]);
   gives (EnforceEx lib (reqs ["alice"; "data2"; "write"])) (explained true ["data2_admin"; "data2"; "write"]);
   gives (EnforceEx lib (reqs ["bob"; "data1"; "read"])) (explained false []);
   gives (EnforceEx lib (reqs ["bob"; "data1"; "write"])) (explained false []);
   gives (EnforceEx lib (reqs ["bob"; "data2"; "read"])) (explained false []);
   gives (EnforceEx lib (reqs ["bob"; "data2"; "write"])) (explained true ["bob"; "data2"; "write"])] = true.
Proof. vm_compute. reflexivity. Qed.

Example ut_TestEnforcerEx_TestListParams_3 :
  passes (NewEnforcer no_odd disk "examples/priority_model.conf" "examples/priority_policy.csv")
  [gives (EnforceEx lib (reqs ["alice"; "data1"; "read"])) (explained true ["alice"; "data1"; "read"; "allow"]);
   gives (EnforceEx lib (reqs ["alice"; "data1"; "write"])) (explained false ["data1_deny_group"; "data1"; "write"; "deny"]);
   gives (EnforceEx lib (reqs ["alice"; "data2"; "read"])) (explained false []);
   gives (EnforceEx lib (reqs ["alice"; "data2"; "write"])) (explained false []);
   gives (EnforceEx lib (reqs ["bob"; "data1"; "read"])) (explained false []);
   gives (EnforceEx lib (reqs ["bob"; "data1"; "write"])) (explained false []);
   gives (EnforceEx lib (reqs ["bob"; "data2"; "read"])) (explained true ["data2_allow_group"; "data2"; "read"; "allow"]);
   gives (EnforceEx lib (reqs ["bob"; "data2"; "write"])) (explained false ["bob"; "data2"; "write"; "deny"])] = true.
Proof. vm_compute. reflexivity. Qed.

(** tests/enforcer_test.cpp:325-360 *)
Example ut_TestEnforcerEx_TestMapParams :
  passes (NewEnforcer no_odd disk "examples/basic_model_without_spaces.conf" "examples/basic_policy.csv")
  [gives (EnforceExWithMatcherMap lib "" [("sub", DStr "alice"); ("obj", DStr "data1"); ("act", DStr "read")]) (explained true ["alice"; "data1"; "read"]);
   gives (EnforceExWithMatcherMap lib "" [("sub", DStr "alice"); ("obj", DStr "data1"); ("act", DStr "write")]) (explained false []);
   gives (EnforceExWithMatcherMap lib "" [("sub", DStr "alice"); ("obj", DStr "data2"); ("act", DStr "read")]) (explained false []);
   gives (EnforceExWithMatcherMap lib "" [("sub", DStr "alice"); ("obj", DStr "data2"); ("act", DStr "write")]) (explained false []);
   gives (EnforceExWithMatcherMap lib "" [("sub", DStr "bob"); ("obj", DStr "data1"); ("act", DStr "read")]) (explained false []);
   gives (EnforceExWithMatcherMap lib "" [("sub", DStr "bob"); ("obj", DStr "data1"); ("act", DStr "write")]) (explained false []);
   gives (EnforceExWithMatcherMap lib "" [("sub", DStr "bob"); ("obj", DStr "data2"); ("act", DStr "read")]) (explained false []);
   gives (EnforceExWithMatcherMap lib "" [("sub", DStr "bob"); ("obj", DStr "data2"); ("act", DStr "write")]) (explained true ["bob"; "data2"; "write"])] = true.
Proof. vm_compute. reflexivity. Qed.

Example ut_TestEnforcerEx_TestMapParams_2 :
  passes (NewEnforcer no_odd disk "examples/rbac_model.conf" "examples/rbac_policy.csv")
  [gives (EnforceExWithMatcherMap lib "" [("sub", DStr "alice"); ("obj", DStr "data1"); ("act", DStr "read")]) (explained true ["alice"; "data1"; "read"]);
   gives (EnforceExWithMatcherMap lib "" [("sub", DStr "alice"); ("obj", DStr "data1"); ("act", DStr "write")]) (explained false []);
   gives (EnforceExWithMatcherMap lib "" [("sub", DStr "alice"); ("obj", DStr "data2"); ("act", DStr "read")]) (explained true ["data2_admin"; "data2"; "read"]);
   gives (EnforceExWithMatcherMap lib "" [("sub", DStr "alice"); ("obj", DStr "data2"); ("act", DStr "write")]) (explained true ["data2_admin"; "data2"; "write"]);
   gives (EnforceExWithMatcherMap lib "" [("sub", DStr "bob"); ("obj", DStr "data1"); ("act", DStr "read")]) (explained false []);
   gives (EnforceExWithMatcherMap lib "" [("sub", DStr "bob"); ("obj", DStr "data1"); ("act", DStr "write")]) (explained false []);
   gives (EnforceExWithMatcherMap lib "" [("sub", DStr "bob"); ("obj", DStr "data2"); ("act", DStr "read")]) (explained false []);
   gives (EnforceExWithMatcherMap lib "" [("sub", DStr "bob"); ("obj", DStr "data2"); ("act", DStr "write")]) (explained true ["bob"; "data2"; "write"])] = true.
Proof. vm_compute. reflexivity. Qed.

Example ut_TestEnforcerEx_TestMapParams_3 :
  passes (NewEnforcer no_odd disk "examples/priority_model.conf" "examples/priority_policy.csv")
  [gives (EnforceExWithMatcherMap lib "" [("sub", DStr "alice"); ("obj", DStr "data1"); ("act", DStr "read")]) (explained true ["alice"; "data1"; "read"; "allow"]);
   gives (EnforceExWithMatcherMap lib "" [("sub", DStr "alice"); ("obj", DStr "data1"); ("act", DStr "write")]) (explained false ["data1_deny_group"; "data1"; "write"; "deny"]);
   gives (EnforceExWithMatcherMap lib "" [("sub", DStr "alice"); ("obj", DStr "data2"); ("act", DStr "read")]) (explained false []);
   gives (EnforceExWithMatcherMap lib "" [("sub", DStr "alice"); ("obj", DStr "data2"); ("act", DStr "write")]) (explained false []);
   gives (EnforceExWithMatcherMap lib "" [("sub", DStr "bob"); ("obj", DStr "data1"); ("act", DStr "write")]) (explained false []);
   gives (EnforceExWithMatcherMap lib "" [("sub", DStr "bob"); ("obj", DStr "data2"); ("act", DStr "read")]) (explained true ["data2_allow_group"; "data2"; "read"; "allow"]);
   gives (EnforceExWithMatcherMap lib "" [("sub", DStr "bob"); ("obj", DStr "data2"); ("act", DStr "write")]) (explained false ["bob"; "data2"; "write"; "deny"])] = true.
Proof. vm_compute. reflexivity. Qed.

(** tests/management_api_test.cpp:26-33 *)
Example ut_TestManagementAPI_TestGetList :
  passes (NewEnforcer no_odd disk "examples/rbac_model.conf" "examples/rbac_policy.csv")
  [gives (GetAllSubjects) (ArrayEquals ["alice"; "bob"; "data2_admin"]);
   gives (GetAllObjects) (ArrayEquals ["data1"; "data2"]);
   gives (GetAllActions) (ArrayEquals ["read"; "write"]);
   gives (GetAllRoles) (ArrayEquals ["data2_admin"])] = true.
Proof. vm_compute. reflexivity. Qed.

(** tests/management_api_test.cpp:81-115 *)
Example ut_TestManagementAPI_TestGetPolicyAPI :
  passes (NewEnforcer no_odd disk "examples/rbac_model.conf" "examples/rbac_policy.csv")
  [gives e_GetPolicy (as_many_pairs [["alice"; "data1"; "read"]; ["bob"; "data2"; "write"]; ["data2_admin"; "data2"; "read"]; ["data2_admin"; "data2"; "write"]]);
   gives (GetFilteredNamedPolicy "p" 0 ["alice"]) (multiset [["alice"; "data1"; "read"]]);
   gives (GetFilteredNamedPolicy "p" 0 ["bob"]) (multiset [["bob"; "data2"; "write"]]);
   gives (GetFilteredNamedPolicy "p" 0 ["data2_admin"]) (multiset [["data2_admin"; "data2"; "read"]; ["data2_admin"; "data2"; "write"]]);
   gives (GetFilteredNamedPolicy "p" 1 ["data1"]) (multiset [["alice"; "data1"; "read"]]);
   gives (GetFilteredNamedPolicy "p" 1 ["data2"]) (multiset [["bob"; "data2"; "write"]; ["data2_admin"; "data2"; "read"]; ["data2_admin"; "data2"; "write"]]);
   gives (GetFilteredNamedPolicy "p" 2 ["read"]) (multiset [["alice"; "data1"; "read"]; ["data2_admin"; "data2"; "read"]]);
   gives (GetFilteredNamedPolicy "p" 2 ["write"]) (multiset [["bob"; "data2"; "write"]; ["data2_admin"; "data2"; "write"]]);
   gives (GetFilteredNamedPolicy "p" 0 ["data2_admin"; "data2"]) (multiset [["data2_admin"; "data2"; "read"]; ["data2_admin"; "data2"; "write"]]);
   gives (GetFilteredNamedPolicy "p" 0 ["data2_admin"; ""; "read"]) (multiset [["data2_admin"; "data2"; "read"]]);
   gives (GetFilteredNamedPolicy "p" 1 ["data2"; "write"]) (multiset [["bob"; "data2"; "write"]; ["data2_admin"; "data2"; "write"]]);
   gives (e_HasPolicy ["alice"; "data1"; "read"]) (Bool.eqb true);
   gives (e_HasPolicy ["bob"; "data2"; "write"]) (Bool.eqb true);
   gives (e_HasPolicy ["alice"; "data2"; "read"]) (Bool.eqb false);
   gives (e_HasPolicy ["bob"; "data3"; "write"]) (Bool.eqb false);
   gives GetGroupingPolicy (in_turn [["alice"; "data2_admin"]]);
   gives (GetFilteredNamedGroupingPolicy "g" 0 ["alice"]) (in_turn [["alice"; "data2_admin"]]);
   gives (GetFilteredNamedGroupingPolicy "g" 0 ["bob"]) (in_turn []);
   gives (GetFilteredNamedGroupingPolicy "g" 1 ["data1_admin"]) (in_turn []);
   gives (GetFilteredNamedGroupingPolicy "g" 1 ["data2_admin"]) (in_turn [["alice"; "data2_admin"]]);
   gives (GetFilteredNamedGroupingPolicy "g" 0 [""; "data2_admin"]) (in_turn [["alice"; "data2_admin"]]);
   gives (HasGroupingPolicy ["alice"; "data2_admin"]) (Bool.eqb true);
   gives (HasGroupingPolicy ["bob"; "data2_admin"]) (Bool.eqb false)] = true.
Proof. vm_compute. reflexivity. Qed.

(** tests/management_api_test.cpp:117-167 *)
Example ut_TestManagementAPI_TestModifyPolicyAPI :
  passes (NewEnforcerWithAdapter no_odd disk "examples/rbac_model.conf" (Some (batch_at "examples/rbac_policy.csv")))
  [gives e_GetPolicy (as_many_pairs [["alice"; "data1"; "read"]; ["bob"; "data2"; "write"]; ["data2_admin"; "data2"; "read"]; ["data2_admin"; "data2"; "write"]]);
   does (e_RemovePolicy ["alice"; "data1"; "read"]);
   does (e_RemovePolicy ["bob"; "data2"; "write"]);
   does (e_RemovePolicy ["alice"; "data1"; "read"]);
   does (e_AddPolicy ["eve"; "data3"; "read"]);
   does (e_AddPolicy ["eve"; "data3"; "read"]);
   does (e_AddPolicies [["jack"; "data4"; "read"]; ["katy"; "data4"; "write"]; ["leyo"; "data4"; "read"]; ["ham"; "data4"; "write"]]);
   does (e_AddPolicies [["jack"; "data4"; "read"]; ["katy"; "data4"; "write"]; ["leyo"; "data4"; "read"]; ["ham"; "data4"; "write"]]);
   gives e_GetPolicy (as_many_pairs [["data2_admin"; "data2"; "read"]; ["data2_admin"; "data2"; "write"]; ["eve"; "data3"; "read"]; ["jack"; "data4"; "read"]; ["katy"; "data4"; "write"]; ["leyo"; "data4"; "read"]; ["ham"; "data4"; "write"]]);
   does (e_RemovePolicies [["jack"; "data4"; "read"]; ["katy"; "data4"; "write"]; ["leyo"; "data4"; "read"]; ["ham"; "data4"; "write"]]);
   does (e_RemovePolicies [["jack"; "data4"; "read"]; ["katy"; "data4"; "write"]; ["leyo"; "data4"; "read"]; ["ham"; "data4"; "write"]]);
   does (RemoveNamedPolicy "p" ["eve"; "data3"; "read"]);
   does (AddNamedPolicy "p" ["eve"; "data3"; "read"]);
   gives e_GetPolicy (as_many_pairs [["data2_admin"; "data2"; "read"]; ["data2_admin"; "data2"; "write"]; ["eve"; "data3"; "read"]]);
   does (e_RemoveFilteredPolicy 1 ["data2"]);
   gives e_GetPolicy (as_many_pairs [["eve"; "data3"; "read"]]);
   does (e_UpdatePolicy ["eve"; "data3"; "read"] ["eve"; "data3"; "write"]);
   gives e_GetPolicy (as_many_pairs [["eve"; "data3"; "write"]]);
   does (e_AddPolicies [["jack"; "data4"; "read"]; ["katy"; "data4"; "write"]; ["leyo"; "data4"; "read"]; ["ham"; "data4"; "write"]]);
   does (e_UpdatePolicies [["eve"; "data3"; "write"]; ["leyo"; "data4"; "read"]; ["katy"; "data4"; "write"]] [["eve"; "data3"; "read"]; ["leyo"; "data4"; "write"]; ["katy"; "data1"; "write"]]);
   gives e_GetPolicy (as_many_pairs [["eve"; "data3"; "read"]; ["leyo"; "data4"; "write"]; ["katy"; "data1"; "write"]])] = true.
Proof. vm_compute. reflexivity. Qed.

(** tests/management_api_test.cpp:169-247 *)
Example ut_TestManagementAPI_TestModifyGroupingPolicyAPI :
  passes (NewEnforcerWithAdapter no_odd disk "examples/rbac_model.conf" (Some (batch_at "examples/rbac_policy.csv")))
  [gives (GetRolesForUser "alice" []) (ArrayEquals ["data2_admin"]);
   gives (GetRolesForUser "bob" []) (ArrayEquals []);
   gives (GetRolesForUser "eve" []) (ArrayEquals []);
   gives (GetRolesForUser "non_exist" []) (ArrayEquals []);
   does (RemoveGroupingPolicy ["alice"; "data2_admin"]);
   does (AddGroupingPolicy ["bob"; "data1_admin"]);
   does (AddGroupingPolicy ["eve"; "data3_admin"]);
   does (AddGroupingPolicies [["ham"; "data4_admin"]; ["jack"; "data5_admin"]]);
   gives (GetRolesForUser "ham" []) (ArrayEquals ["data4_admin"]);
   gives (GetRolesForUser "jack" []) (ArrayEquals ["data5_admin"]);
   does (RemoveGroupingPolicies [["ham"; "data4_admin"]; ["jack"; "data5_admin"]]);
   gives (GetRolesForUser "alice" []) (ArrayEquals []);
   gives (GetRolesForUser "alice" []) (ArrayEquals []);
   does (AddNamedGroupingPolicy "g" ["alice"; "data2_admin"]);
   gives (GetRolesForUser "alice" []) (ArrayEquals ["data2_admin"]);
   does (RemoveNamedGroupingPolicy "g" ["alice"; "data2_admin"]);
   does (AddNamedGroupingPolicies "g" [["ham"; "data4_admin"]; ["jack"; "data5_admin"]]);
   does (AddNamedGroupingPolicies "g" [["ham"; "data4_admin"]; ["jack"; "data5_admin"]]);
   gives (GetRolesForUser "ham" []) (ArrayEquals ["data4_admin"]);
   gives (GetRolesForUser "jack" []) (ArrayEquals ["data5_admin"]);
   does (RemoveNamedGroupingPolicies "g" [["ham"; "data4_admin"]; ["jack"; "data5_admin"]]);
   does (RemoveNamedGroupingPolicies "g" [["ham"; "data4_admin"]; ["jack"; "data5_admin"]]);
   gives (GetRolesForUser "alice" []) (ArrayEquals []);
   gives (GetRolesForUser "bob" []) (ArrayEquals ["data1_admin"]);
   gives (GetRolesForUser "eve" []) (ArrayEquals ["data3_admin"]);
   gives (GetRolesForUser "non_exist" []) (ArrayEquals []);
   gives (GetUsersForRole "data1_admin" []) (ArrayEquals ["bob"]);
   tries (GetUsersForRole "data2_admin" []);
   gives (GetUsersForRole "data3_admin" []) (ArrayEquals ["eve"]);
   does (RemoveFilteredGroupingPolicy 0 ["bob"]);
   gives (GetRolesForUser "alice" []) (ArrayEquals []);
   gives (GetRolesForUser "bob" []) (ArrayEquals []);
   gives (GetRolesForUser "eve" []) (ArrayEquals ["data3_admin"]);
   gives (GetRolesForUser "non_exist" []) (ArrayEquals []);
   tries (GetUsersForRole "data1_admin" []);
   tries (GetUsersForRole "data2_admin" []);
   gives (GetUsersForRole "data3_admin" []) (ArrayEquals ["eve"]);
   gives (AddGroupingPolicy ["data3_admin"; "data4_admin"]) (Bool.eqb true);
   does (UpdateGroupingPolicy ["eve"; "data3_admin"] ["eve"; "admin"]);
   does (UpdateGroupingPolicy ["data3_admin"; "data4_admin"] ["admin"; "data4_admin"]);
   gives (GetUsersForRole "admin" []) (ArrayEquals ["eve"]);
   gives (GetRolesForUser "eve" []) (ArrayEquals ["admin"]);
   gives (GetRolesForUser "admin" []) (ArrayEquals ["data4_admin"])] = true.
Proof. vm_compute. reflexivity. Qed.

(** tests/rbac_api_test.cpp:26-83 *)
Example ut_TestRBACAPI_TestRoleAPI :
  passes (NewEnforcer no_odd disk "examples/rbac_model.conf" "examples/rbac_policy.csv")
  [gives (GetRolesForUser "alice" []) (ArrayEquals ["data2_admin"]);
   gives (GetRolesForUser "bob" []) (ArrayEquals []);
   gives (GetRolesForUser "data2_admin" []) (ArrayEquals []);
   gives (GetRolesForUser "non_exist" []) (ArrayEquals []);
   gives (HasRoleForUser "alice" "data1_admin") (Bool.eqb false);
   gives (HasRoleForUser "alice" "data2_admin") (Bool.eqb true);
   does (AddRoleForUser "alice" "data1_admin");
   gives (GetRolesForUser "alice" []) (ArrayEquals ["data1_admin"; "data2_admin"]);
   gives (GetRolesForUser "bob" []) (ArrayEquals []);
   gives (GetRolesForUser "data2_admin" []) (ArrayEquals []);
   does (DeleteRoleForUser "alice" "data1_admin");
   gives (GetRolesForUser "alice" []) (ArrayEquals ["data2_admin"]);
   gives (GetRolesForUser "bob" []) (ArrayEquals []);
   gives (GetRolesForUser "data2_admin" []) (ArrayEquals []);
   does (DeleteRolesForUser "alice");
   gives (GetRolesForUser "alice" []) (ArrayEquals []);
   gives (GetRolesForUser "bob" []) (ArrayEquals []);
   gives (GetRolesForUser "data2_admin" []) (ArrayEquals []);
   does (AddRoleForUser "alice" "data1_admin");
   does (DeleteUser "alice");
   gives (GetRolesForUser "alice" []) (ArrayEquals []);
   gives (GetRolesForUser "bob" []) (ArrayEquals []);
   gives (GetRolesForUser "data2_admin" []) (ArrayEquals []);
   does (AddRoleForUser "alice" "data2_admin");
   gives (Enforce lib (reqs ["alice"; "data1"; "read"])) (Bool.eqb false);
   gives (Enforce lib (reqs ["alice"; "data1"; "write"])) (Bool.eqb false);
   gives (Enforce lib (reqs ["alice"; "data2"; "read"])) (Bool.eqb true);
   gives (Enforce lib (reqs ["alice"; "data2"; "write"])) (Bool.eqb true);
   gives (Enforce lib (reqs ["bob"; "data1"; "read"])) (Bool.eqb false);
   gives (Enforce lib (reqs ["bob"; "data1"; "write"])) (Bool.eqb false);
   gives (Enforce lib (reqs ["bob"; "data2"; "read"])) (Bool.eqb false);
   gives (Enforce lib (reqs ["bob"; "data2"; "write"])) (Bool.eqb true);
   does (DeleteRole "data2_admin");
   gives (Enforce lib (reqs ["alice"; "data1"; "read"])) (Bool.eqb false);
   gives (Enforce lib (reqs ["alice"; "data1"; "write"])) (Bool.eqb false);
   gives (Enforce lib (reqs ["alice"; "data2"; "read"])) (Bool.eqb false);
   gives (Enforce lib (reqs ["alice"; "data2"; "write"])) (Bool.eqb false);
   gives (Enforce lib (reqs ["bob"; "data1"; "read"])) (Bool.eqb false);
   gives (Enforce lib (reqs ["bob"; "data1"; "write"])) (Bool.eqb false);
   gives (Enforce lib (reqs ["bob"; "data2"; "read"])) (Bool.eqb false);
   gives (Enforce lib (reqs ["bob"; "data2"; "write"])) (Bool.eqb true)] = true.
Proof. vm_compute. reflexivity. Qed.

(** tests/rbac_api_test.cpp:85-94 *)
Example ut_TestRBACAPI_TestEnforcer_AddRolesForUser :
  passes (NewEnforcer no_odd disk "examples/rbac_model.conf" "examples/rbac_policy.csv")
  [does (AddRolesForUser "alice" ["data1_admin"; "data2_admin"; "data3_admin"]);
   gives (GetRolesForUser "alice" []) (ArrayEquals ["data1_admin"; "data2_admin"; "data3_admin"]);
   gives (Enforce lib (reqs ["alice"; "data1"; "read"])) (Bool.eqb true);
   gives (Enforce lib (reqs ["alice"; "data2"; "read"])) (Bool.eqb true);
   gives (Enforce lib (reqs ["alice"; "data2"; "write"])) (Bool.eqb true)] = true.
Proof. vm_compute. reflexivity. Qed.

(** tests/rbac_api_test.cpp:110-154 *)
Example ut_TestRBACAPI_TestPermissionAPI :
  passes (NewEnforcer no_odd disk "examples/basic_without_resources_model.conf" "examples/basic_without_resources_policy.csv")
  [gives (Enforce lib (reqs ["alice"; "read"])) (Bool.eqb true);
   gives (Enforce lib (reqs ["alice"; "write"])) (Bool.eqb false);
   gives (Enforce lib (reqs ["bob"; "read"])) (Bool.eqb false);
   gives (Enforce lib (reqs ["bob"; "write"])) (Bool.eqb true);
   gives (GetPermissionsForUser "alice") (as_many [["alice"; "read"]]);
   gives (GetPermissionsForUser "bob") (as_many [["bob"; "write"]]);
   gives (HasPermissionForUser "alice" ["read"]) (Bool.eqb true);
   gives (HasPermissionForUser "alice" ["write"]) (Bool.eqb false);
   gives (HasPermissionForUser "bob" ["read"]) (Bool.eqb false);
   gives (HasPermissionForUser "bob" ["write"]) (Bool.eqb true);
   gives (DeletePermission ["read"]) (Bool.eqb true);
   gives (Enforce lib (reqs ["alice"; "read"])) (Bool.eqb false);
   gives (Enforce lib (reqs ["alice"; "write"])) (Bool.eqb false);
   gives (Enforce lib (reqs ["bob"; "read"])) (Bool.eqb false);
   gives (Enforce lib (reqs ["bob"; "write"])) (Bool.eqb true);
   gives (AddPermissionForUser "bob" ["read"]) (Bool.eqb true);
   gives (Enforce lib (reqs ["alice"; "read"])) (Bool.eqb false);
   gives (Enforce lib (reqs ["alice"; "write"])) (Bool.eqb false);
   gives (Enforce lib (reqs ["bob"; "read"])) (Bool.eqb true);
   gives (Enforce lib (reqs ["bob"; "write"])) (Bool.eqb true);
   gives (DeletePermissionForUser "bob" ["read"]) (Bool.eqb true);
   gives (Enforce lib (reqs ["alice"; "read"])) (Bool.eqb false);
   gives (Enforce lib (reqs ["alice"; "write"])) (Bool.eqb false);
   gives (Enforce lib (reqs ["bob"; "read"])) (Bool.eqb false);
   gives (Enforce lib (reqs ["bob"; "write"])) (Bool.eqb true);
   gives (DeletePermissionsForUser "bob") (Bool.eqb true);
   gives (Enforce lib (reqs ["alice"; "read"])) (Bool.eqb false);
   gives (Enforce lib (reqs ["alice"; "write"])) (Bool.eqb false);
   gives (Enforce lib (reqs ["bob"; "read"])) (Bool.eqb false);
   gives (Enforce lib (reqs ["bob"; "write"])) (Bool.eqb false)] = true.
Proof. vm_compute. reflexivity. Qed.

(** tests/rbac_api_test.cpp:156-171 *)
Example ut_TestRBACAPI_TestImplicitRoleAPI :
  passes (NewEnforcer no_odd disk "examples/rbac_model.conf" "examples/rbac_with_hierarchy_policy.csv")
  [gives (GetPermissionsForUser "alice") (as_many [["alice"; "data1"; "read"]]);
   gives (GetPermissionsForUser "bob") (as_many [["bob"; "data2"; "write"]]);
   gives (GetImplicitRolesForUser "alice" []) (ArrayEquals ["admin"; "data1_admin"; "data2_admin"]);
   gives (GetImplicitRolesForUser "bob" []) (ArrayEquals [])] = true.
Proof. vm_compute. reflexivity. Qed.

Example ut_TestRBACAPI_TestImplicitRoleAPI_2 :
  passes (NewEnforcer no_odd disk "examples/rbac_with_pattern_model.conf" "examples/rbac_with_pattern_policy.csv")
  [does (rm_matching KeyMatch);
   gives (GetImplicitRolesForUser "cathy" []) (ArrayEquals ["/book/1/2/3/4/5"; "pen_admin"; "/book/*"; "book_group"]);
   gives (GetRolesForUser "cathy" []) (ArrayEquals ["/book/1/2/3/4/5"; "pen_admin"])] = true.
Proof. vm_compute. reflexivity. Qed.

(** tests/rbac_api_test.cpp:201-210 *)
Example ut_TestRBACAPI_TestImplicitPermissionAPI :
  passes (NewEnforcer no_odd disk "examples/rbac_model.conf" "examples/rbac_with_hierarchy_policy.csv")
  [gives (GetPermissionsForUser "alice") (as_many [["alice"; "data1"; "read"]]);
   gives (GetPermissionsForUser "bob") (as_many [["bob"; "data2"; "write"]]);
   gives (GetImplicitPermissionsForUser "alice" []) (as_many [["alice"; "data1"; "read"]; ["data1_admin"; "data1"; "read"]; ["data1_admin"; "data1"; "write"]; ["data2_admin"; "data2"; "read"]; ["data2_admin"; "data2"; "write"]]);
   gives (GetImplicitPermissionsForUser "bob" []) (as_many [["bob"; "data2"; "write"]])] = true.
Proof. vm_compute. reflexivity. Qed.

(** tests/rbac_api_test.cpp:212-215 *)
Example ut_TestRBACAPI_TestImplicitPermissionAPIWithDomain :
  passes (NewEnforcer no_odd disk "examples/rbac_with_domains_model.conf" "examples/rbac_with_hierarchy_with_domains_policy.csv")
  [gives (GetImplicitPermissionsForUser "alice" ["domain1"]) (as_many [["alice"; "domain1"; "data2"; "read"]; ["role:reader"; "domain1"; "data1"; "read"]; ["role:writer"; "domain1"; "data1"; "write"]])] = true.
Proof. vm_compute. reflexivity. Qed.

(** tests/rbac_api_test.cpp:217-232 *)
Example ut_TestRBACAPI_TestImplicitUserAPI :
  passes (NewEnforcer no_odd disk "examples/rbac_model.conf" "examples/rbac_with_hierarchy_policy.csv")
  [gives (GetImplicitUsersForPermission lib ["data1"; "read"]) (ArrayEquals ["alice"]);
   gives (GetImplicitUsersForPermission lib ["data1"; "write"]) (ArrayEquals ["alice"]);
   gives (GetImplicitUsersForPermission lib ["data2"; "read"]) (ArrayEquals ["alice"]);
   gives (GetImplicitUsersForPermission lib ["data2"; "write"]) (ArrayEquals ["alice"; "bob"]);
   does (e_ClearPolicy);
   does (e_AddPolicy ["admin"; "data1"; "read"]);
   does (e_AddPolicy ["bob"; "data1"; "read"]);
   does (e_AddPolicies [["tom"; "data1"; "read"]; ["john"; "data1"; "read"]]);
   does (AddGroupingPolicy ["alice"; "admin"]);
   gives (GetImplicitUsersForPermission lib ["data1"; "read"]) (ArrayEquals ["alice"; "bob"; "tom"; "john"])] = true.
Proof. vm_compute. reflexivity. Qed.

(** tests/rbac_api_with_domains_test.cpp:26-34 *)
Example ut_TestRBACAPIWithDomains_TestGetImplicitRolesForDomainUser :
  passes (NewEnforcer no_odd disk "examples/rbac_with_domains_model.conf" "examples/rbac_with_hierarchy_with_domains_policy.csv")
  [gives (GetRolesForUserInDomain "alice" "domain1") (ArrayEquals ["role:global_admin"]);
   gives (GetImplicitRolesForUser "alice" ["domain1"]) (ArrayEquals ["role:global_admin"; "role:reader"; "role:writer"])] = true.
Proof. vm_compute. reflexivity. Qed.

(** tests/rbac_api_with_domains_test.cpp:37-101 *)
Example ut_TestRBACAPIWithDomains_TestUserAPIWithDomains :
  passes (NewEnforcer no_odd disk "examples/rbac_with_domains_model.conf" "examples/rbac_with_domains_policy.csv")
  [gives (GetUsersForRole "admin" ["domain1"]) (ArrayEquals ["alice"]);
   gives (GetUsersForRoleInDomain "admin" "domain1") (ArrayEquals ["alice"]);
   tries (GetUsersForRole "non_exist" ["domain1"]);
   tries (GetUsersForRoleInDomain "non_exist" "domain1");
   gives (GetUsersForRole "admin" ["domain2"]) (ArrayEquals ["bob"]);
   gives (GetUsersForRoleInDomain "admin" "domain2") (ArrayEquals ["bob"]);
   tries (GetUsersForRole "non_exist" ["domain2"]);
   tries (GetUsersForRoleInDomain "non_exist" "domain2");
   does (DeleteRoleForUserInDomain "alice" "admin" "domain1");
   does (AddRoleForUserInDomain "bob" "admin" "domain1");
   gives (GetUsersForRole "admin" ["domain1"]) (ArrayEquals ["bob"]);
   gives (GetUsersForRoleInDomain "admin" "domain1") (ArrayEquals ["bob"]);
   tries (GetUsersForRole "non_exist" ["domain1"]);
   tries (GetUsersForRoleInDomain "non_exist" "domain1");
   gives (GetUsersForRole "admin" ["domain2"]) (ArrayEquals ["bob"]);
   gives (GetUsersForRoleInDomain "admin" "domain2") (ArrayEquals ["bob"]);
   tries (GetUsersForRole "non_exist" ["domain2"]);
   tries (GetUsersForRoleInDomain "non_exist" "domain2")] = true.
Proof. vm_compute. reflexivity. Qed.

(** tests/rbac_api_with_domains_test.cpp:103-156 *)
Example ut_TestRBACAPIWithDomains_TestRoleAPIWithDomains :
  passes (NewEnforcer no_odd disk "examples/rbac_with_domains_model.conf" "examples/rbac_with_domains_policy.csv")
  [gives (GetRolesForUser "alice" ["domain1"]) (ArrayEquals ["admin"]);
   gives (GetRolesForUserInDomain "alice" "domain1") (ArrayEquals ["admin"]);
   gives (GetRolesForUser "bob" ["domain1"]) (ArrayEquals []);
   gives (GetRolesForUserInDomain "bob" "domain1") (ArrayEquals []);
   gives (GetRolesForUser "admin" ["domain1"]) (ArrayEquals []);
   gives (GetRolesForUserInDomain "admin" "domain1") (ArrayEquals []);
   gives (GetRolesForUser "non_exist" ["domain1"]) (ArrayEquals []);
   gives (GetRolesForUserInDomain "non_exist" "domain1") (ArrayEquals []);
   gives (GetRolesForUser "alice" ["domain2"]) (ArrayEquals []);
   gives (GetRolesForUserInDomain "alice" "domain2") (ArrayEquals []);
   gives (GetRolesForUser "bob" ["domain2"]) (ArrayEquals ["admin"]);
   gives (GetRolesForUserInDomain "bob" "domain2") (ArrayEquals ["admin"]);
   gives (GetRolesForUser "admin" ["domain2"]) (ArrayEquals []);
   gives (GetRolesForUserInDomain "admin" "domain2") (ArrayEquals []);
   gives (GetRolesForUser "non_exist" ["domain2"]) (ArrayEquals []);
   gives (GetRolesForUserInDomain "non_exist" "domain2") (ArrayEquals []);
   does (DeleteRoleForUserInDomain "alice" "admin" "domain1");
   does (AddRoleForUserInDomain "bob" "admin" "domain1");
   gives (GetRolesForUser "alice" ["domain1"]) (ArrayEquals []);
   gives (GetRolesForUserInDomain "alice" "domain1") (ArrayEquals []);
   gives (GetRolesForUser "bob" ["domain1"]) (ArrayEquals ["admin"]);
   gives (GetRolesForUserInDomain "bob" "domain1") (ArrayEquals ["admin"]);
   gives (GetRolesForUser "admin" ["domain1"]) (ArrayEquals []);
   gives (GetRolesForUserInDomain "admin" "domain1") (ArrayEquals []);
   gives (GetRolesForUser "non_exist" ["domain1"]) (ArrayEquals []);
   gives (GetRolesForUserInDomain "non_exist" "domain1") (ArrayEquals []);
   gives (GetRolesForUser "alice" ["domain2"]) (ArrayEquals []);
   gives (GetRolesForUserInDomain "alice" "domain2") (ArrayEquals []);
   gives (GetRolesForUser "bob" ["domain2"]) (ArrayEquals ["admin"]);
   gives (GetRolesForUserInDomain "bob" "domain2") (ArrayEquals ["admin"]);
   gives (GetRolesForUser "admin" ["domain2"]) (ArrayEquals []);
   gives (GetRolesForUserInDomain "admin" "domain2") (ArrayEquals []);
   gives (GetRolesForUser "non_exist" ["domain2"]) (ArrayEquals []);
   gives (GetRolesForUserInDomain "non_exist" "domain2") (ArrayEquals [])] = true.
Proof. vm_compute. reflexivity. Qed.

(** tests/rbac_api_with_domains_test.cpp:172-184 *)
Example ut_TestRBACAPIWithDomains_TestPermissionAPIInDomain :
  passes (NewEnforcer no_odd disk "examples/rbac_with_domains_model.conf" "examples/rbac_with_domains_policy.csv")
  [gives (GetPermissionsForUserInDomain "alice" "domain1") (as_many []);
   gives (GetPermissionsForUserInDomain "bob" "domain1") (as_many []);
   gives (GetPermissionsForUserInDomain "admin" "domain1") (as_many [["admin"; "domain1"; "data1"; "read"]; ["admin"; "domain1"; "data1"; "write"]]);
   gives (GetPermissionsForUserInDomain "non_exist" "domain1") (as_many []);
   gives (GetPermissionsForUserInDomain "alice" "domain2") (as_many []);
   gives (GetPermissionsForUserInDomain "bob" "domain2") (as_many []);
   gives (GetPermissionsForUserInDomain "admin" "domain2") (as_many [["admin"; "domain2"; "data2"; "read"]; ["admin"; "domain2"; "data2"; "write"]]);
   gives (GetPermissionsForUserInDomain "non_exist" "domain2") (as_many [])] = true.
Proof. vm_compute. reflexivity. Qed.

(** tests/role_manager_test.cpp:35-86 *)
Example ut_rm_TestRole :
  rm_passes
  [RAdd "u1" "g1" [];
   RAdd "u2" "g1" [];
   RAdd "u3" "g2" [];
   RAdd "u4" "g2" [];
   RAdd "u4" "g3" [];
   RAdd "g1" "g3" [];
   RHas "u1" "g1" [] true;
   RHas "u1" "g2" [] false;
   RHas "u1" "g3" [] true;
   RHas "u2" "g1" [] true;
   RHas "u2" "g2" [] false;
   RHas "u2" "g3" [] true;
   RHas "u3" "g1" [] false;
   RHas "u3" "g2" [] true;
   RHas "u3" "g3" [] false;
   RHas "u4" "g1" [] false;
   RHas "u4" "g2" [] true;
   RHas "u4" "g3" [] true;
   RDel "g1" "g3" [];
   RDel "u4" "g2" [];
   RHas "u1" "g1" [] true;
   RHas "u1" "g2" [] false;
   RHas "u1" "g3" [] false;
   RHas "u2" "g1" [] true;
   RHas "u2" "g2" [] false;
   RHas "u2" "g3" [] false;
   RHas "u3" "g1" [] false;
   RHas "u3" "g2" [] true;
   RHas "u3" "g3" [] false;
   RHas "u4" "g1" [] false;
   RHas "u4" "g2" [] false;
   RHas "u4" "g3" [] true] = true.
Proof. vm_compute. reflexivity. Qed.

(** tests/role_manager_test.cpp:88-158 *)
Example ut_rm_TestDomainRole :
  rm_passes
  [RAdd "u1" "g1" ["domain1"];
   RAdd "u2" "g1" ["domain1"];
   RAdd "u3" "admin" ["domain2"];
   RAdd "u4" "admin" ["domain2"];
   RAdd "u4" "admin" ["domain1"];
   RAdd "g1" "admin" ["domain1"];
   RHas "u1" "g1" ["domain1"] true;
   RHas "u1" "g1" ["domain2"] false;
   RHas "u1" "admin" ["domain1"] true;
   RHas "u1" "admin" ["domain2"] false;
   RHas "u2" "g1" ["domain1"] true;
   RHas "u2" "g1" ["domain2"] false;
   RHas "u2" "admin" ["domain1"] true;
   RHas "u2" "admin" ["domain2"] false;
   RHas "u3" "g1" ["domain1"] false;
   RHas "u3" "g1" ["domain2"] false;
   RHas "u3" "admin" ["domain1"] false;
   RHas "u3" "admin" ["domain2"] true;
   RHas "u4" "g1" ["domain1"] false;
   RHas "u4" "g1" ["domain2"] false;
   RHas "u4" "admin" ["domain1"] true;
   RHas "u4" "admin" ["domain2"] true;
   RDel "g1" "admin" ["domain1"];
   RDel "u4" "admin" ["domain2"];
   RHas "u1" "g1" ["domain1"] true;
   RHas "u1" "g1" ["domain2"] false;
   RHas "u1" "admin" ["domain1"] false;
   RHas "u1" "admin" ["domain2"] false;
   RHas "u2" "g1" ["domain1"] true;
   RHas "u2" "g1" ["domain2"] false;
   RHas "u2" "admin" ["domain1"] false;
   RHas "u2" "admin" ["domain2"] false;
   RHas "u3" "g1" ["domain1"] false;
   RHas "u3" "g1" ["domain2"] false;
   RHas "u3" "admin" ["domain1"] false;
   RHas "u3" "admin" ["domain2"] true;
   RHas "u4" "g1" ["domain1"] false;
   RHas "u4" "g1" ["domain2"] false;
   RHas "u4" "admin" ["domain1"] true;
   RHas "u4" "admin" ["domain2"] false] = true.
Proof. vm_compute. reflexivity. Qed.

(** tests/role_manager_test.cpp:160-193 *)
Example ut_rm_TestClear :
  rm_passes
  [RAdd "u1" "g1" [];
   RAdd "u2" "g1" [];
   RAdd "u3" "g2" [];
   RAdd "u4" "g2" [];
   RAdd "u4" "g3" [];
   RAdd "g1" "g3" [];
   RClear;
   RHas "u1" "g1" [] false;
   RHas "u1" "g2" [] false;
   RHas "u1" "g3" [] false;
   RHas "u2" "g1" [] false;
   RHas "u2" "g2" [] false;
   RHas "u2" "g3" [] false;
   RHas "u3" "g1" [] false;
   RHas "u3" "g2" [] false;
   RHas "u3" "g3" [] false;
   RHas "u4" "g1" [] false;
   RHas "u4" "g2" [] false;
   RHas "u4" "g3" [] false] = true.
Proof. vm_compute. reflexivity. Qed.

(** casbin/config/testdata/testini.ini *)
Definition testini : string := "# test config
debug = true
url = act.wiki

; redis config
[redis]
redis.key = push1,push2

; mysql config
[mysql]
mysql.dev.host = 127.0.0.1
mysql.dev.user = root
mysql.dev.pass = 123456
mysql.dev.db = test

mysql.master.host = 10.0.0.1
mysql.master.user = root
mysql.master.pass = 89dds)2$#d
mysql.master.db = act

; math config
[math]
math.i64 = 64
math.f64 = 64.1

# multi-line test
[multi1]
name = r.sub==p.sub && r.obj==p.obj".

(** tests/config_test.cpp:26-41 *)
Example ut_TestConfig :
  (let! d := NewConfigFromText testini in
   Ok (GetBool d "debug", Get d "url", nth 0 (GetStrings d "redis::redis.key") "", nth 1 (GetStrings d "redis::redis.key") ""))
  = Ok (true, "act.wiki", "push1", "push2").
Proof. vm_compute. reflexivity. Qed.

(** tests/model_test.cpp:42-60, 62-83 *)
Example ut_TestModel_sections :
  (let! d := NewConfigFromText (content_of disk "examples/basic_model.conf") in
   Ok (match LoadModelFromConfig no_odd [] d with
       | (m, Ok _) => forallb (fun s => ahas s m) ["r"; "p"; "e"; "m"] | _ => false end)) = Ok true /\
  (let! d := NewConfigFromText "" in
   Ok (match LoadModelFromConfig no_odd [] d with
       | (m, Throw MissingRequiredSections) => negb (existsb (fun s => ahas s m) ["r"; "p"; "e"; "m"]) | _ => false end)) = Ok true.
Proof. split; vm_compute; reflexivity. Qed.
(** tests/model_test.cpp:85-96 *)
Example ut_TestModel_AddDef :
  let (m, ok) := AddDef no_odd [] "r" "r" "sub, obj, act" in
  ok = Ok true /\ snd (AddDef no_odd m "r" "r" "") = Ok false.
Proof. vm_compute. split; reflexivity. Qed.

(** tests/enforcer_cached_test.cpp:26-50 *)
Fixpoint cached_run (steps : list (CM bool * bool)) (c : cached) : bool :=
  match steps with
  | [] => true
  | (s, b) :: rest => match s c with (c', Ok b') => Bool.eqb b b' && cached_run rest c' | _ => false end
  end.
Definition ask (l : list string) : CM bool := c_Enforce lib (reqs l).
Definition invalidate : CM bool := fun c => match InvalidateCache c with (c', Ok _) => (c', Ok true) | (c', Throw t) => (c', Throw t) | (c', UB u) => (c', UB u) end.
Example ut_TestEnforcerCached_TestCache :
  match NewEnforcer no_odd disk "examples/basic_model.conf" "examples/basic_policy.csv" with
  | Ok e => cached_run
      [(ask ["alice"; "data1"; "read"], true); (ask ["alice"; "data1"; "write"], false);
       (ask ["alice"; "data2"; "read"], false); (ask ["alice"; "data2"; "write"], false);
       (inherited (e_RemovePolicy ["alice"; "data1"; "read"]), true);
       (ask ["alice"; "data1"; "read"], true); (ask ["alice"; "data1"; "write"], false);
       (ask ["alice"; "data2"; "read"], false); (ask ["alice"; "data2"; "write"], false);
       (invalidate, true);
       (ask ["alice"; "data1"; "read"], false); (ask ["alice"; "data1"; "write"], false);
       (ask ["alice"; "data2"; "read"], false); (ask ["alice"; "data2"; "write"], false)] (new_cached e)
  | _ => false
  end = true.
Proof. vm_compute. reflexivity. Qed.
